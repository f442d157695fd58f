(* Extents of an NBD export: nbdutil.extents(), merged(), Backend.extents().
   Paths are relative to /repo/ovirt_imageio/_internal. *)
From Coq Require Import ZArith List Bool String.
From Coq.Init Require Import Byte.
From Verif Require Import BytesLib NbdModel.
Import ListNotations.
Open Scope Z_scope.

(* The dictionary returned by Client.extents(), latest assignment first. *)
(* Python semantics, for nbdutil.py:100-161. *)
Definition dict := list (string * list extent).
(* res[name], KeyError when missing. *)
(* Python semantics, for nbdutil.py:100-161. *)
Fixpoint getitem (name : string) (d : dict) : list extent + exc :=
  match d with
  | [] => inr KeyError
  | (n, l) :: r => if String.eqb n name then inl l else getitem name r
  end.
(* Python semantics, for nbdutil.py:100-161. *)
Definition contains (name : string) (d : dict) : bool :=
  match getitem name d with inl _ => true | inr _ => false end.

(* nbdutil.py:164-201 merged. The current extent a (or b) is the head of its
   list; splitting replaces the head. The generator has no effects, so all
   items are computed at once. *)
Fixpoint merged (fuel : nat) (la lb : list extent) : list extent :=
  match fuel with
  | O => []
  | S fuel =>
      match la, lb with
      | a :: la', b :: lb' =>
          let f := Z.lor (e_flags a) (e_flags b) in
          if e_length a =? e_length b then                              (* 187-191 *)
            Extent (e_length a) f :: merged fuel la' lb'
          else if e_length a >? e_length b then                         (* 192-196 *)
            Extent (e_length b) f ::
              merged fuel (Extent (e_length a - e_length b) (e_flags a) :: la') lb'
          else                                                          (* 197-201 *)
            Extent (e_length a) f ::
              merged fuel la' (Extent (e_length b - e_length a) (e_flags b) :: lb')
      | _, _ => []                                                      (* 184-185 *)
      end
  end.
(* Every step consumes an extent. *)
Definition merge (la lb : list extent) : list extent :=
  merged (List.length la + List.length lb) la lb.

(* nbdutil.py:130-137: the extents to use from a reply. bitmap is
   client.dirty_bitmap; None is not a key of the dictionary. *)
Definition pick (dirty : bool) (bitmap : option string) (res : dict) : list extent + exc :=
  if dirty then                                                         (* 130-132 *)
    match getitem BASE_ALLOCATION res with
    | inr e => inr e
    | inl a =>
        match bitmap with
        | None => inr KeyError
        | Some b => match getitem b res with
                    | inr e => inr e
                    | inl l => inl (merge a l)
                    end
        end
    end
  else if contains QEMU_ALLOCATION_DEPTH res then                       (* 133-135 *)
    match getitem BASE_ALLOCATION res with
    | inr e => inr e
    | inl a => match getitem QEMU_ALLOCATION_DEPTH res with
               | inr e => inr e
               | inl l => inl (merge a l)
               end
    end
  else getitem BASE_ALLOCATION res.                                     (* 136-137 *)

(* nbdutil.py:139-159: the loop over the extents of a reply: what is yielded,
   the next offset and the current extent. *)
Fixpoint scan (l : list extent) (offset stop : Z) (cur : option extent)
  : list extent * Z * option extent :=
  match l with
  | [] => ([], offset, cur)
  | ext :: l =>
      let len := if offset + e_length ext >? stop then stop - offset    (* 142-143 *)
                 else e_length ext in
      let ext := Extent len (e_flags ext) in
      let offset := offset + len in                                     (* 145 *)
      let '(out, cur) :=
        match cur with
        | None => ([], ext)                                             (* 148-149 *)
        | Some c =>
            if e_flags c =? e_flags ext                                 (* 150-151 *)
            then ([], Extent (e_length c + e_length ext) (e_flags c))
            else ([c], ext)                                             (* 152-154 *)
        end in
      if offset =? stop then (out, offset, Some cur)                    (* 158-159 *)
      else let '(out', offset', cur') := scan l offset stop (Some cur) in
           (out ++ out', offset', cur')
  end.

(* nbdutil.py:118 *)
Definition MAX_STEP := 2 * 1024 ^ 3.

(* nbdutil.py:123-161: everything yielded until the generator ends or raises;
   the last yield may yield None. Every round makes progress, see
   extents_never_out_of_fuel. *)
Fixpoint extents_loop (v : env) (k : client) (dirty : bool) (fuel : nat)
  (offset stop : Z) (cur : option extent) (s : st)
  : list (option extent) * (unit + exc) * st :=
  if offset <? stop then                                                (* 123 *)
    match fuel with
    | O => ([], inr OutOfFuel, s)
    | S fuel =>
        let step := Z.min (stop - offset) MAX_STEP in                   (* 127 *)
        match NbdModel.extents v k offset step s with                   (* 128 *)
        | (inr e, s') => ([], inr e, s')
        | (inl res, s') =>
            match pick dirty (k_dirty k) res with
            | inr e => ([], inr e, s')
            | inl l =>
                let '(out, offset', cur') := scan l offset stop cur in
                let '(out', r, s'') := extents_loop v k dirty fuel offset' stop cur' s' in
                (map Some out ++ out', r, s'')
            end
        end
    end
  else ([cur], inl tt, s).                                              (* 161 *)

(* nbdutil.py:100-161 extents(client, offset, length, dirty) *)
Definition extents (v : env) (k : client) (offset : Z) (length : option Z) (dirty : bool) (s : st)
  : list (option extent) * (unit + exc) * st :=
  let stop := match length with None => k_size k | Some n => offset + n end in  (* 111-114 *)
  extents_loop v k dirty (Z.to_nat (stop - offset)) offset stop None s.

(* extent.py:7-49, 52-94 *)
Inductive image_extent :=
| ZeroExtent (start length : Z) (zero hole : bool)
| DirtyExtent (start length : Z) (dirty zero : bool).

(* nbd.py:1418-1450 *)
Definition ext_zero (e : extent) : bool := negb (Z.land (e_flags e) STATE_ZERO =? 0).
Definition ext_hole (e : extent) : bool := negb (Z.land (e_flags e) EXTENT_BACKING =? 0).
Definition ext_dirty (e : extent) : bool := negb (Z.land (e_flags e) EXTENT_DIRTY =? 0).

(* backends/nbd.py:182-189: conversion of the items; None has no attributes. *)
Fixpoint convert (dirty : bool) (start : Z) (l : list (option extent)) : list image_extent * (unit + exc) :=
  match l with
  | [] => ([], inl tt)
  | None :: _ => ([], inr AttributeError)
  | Some e :: l =>
      let x := if dirty then DirtyExtent start (e_length e) (ext_dirty e) (ext_zero e)
               else ZeroExtent start (e_length e) (ext_zero e) (ext_hole e) in
      let '(out, r) := convert dirty (start + e_length e) l in
      (x :: out, r)
  end.

(* The context argument of extents(), "zero", "dirty" or anything else. *)
(* backends/nbd.py:162-189. *)
Inductive query := QZero | QDirty | QOther.
(* backends/nbd.py:162-189. *)
Inductive failure := FailClient (e : exc) | UnsupportedOperation.

(* backends/nbd.py:162-189 Backend.extents, all extents yielded and the
   result. has_base is client.has_base_allocation, nbd.py:414-416. The
   consumer is taken to ask for all extents (handlers/extents.py:46 does). *)
Definition backend_extents (v : env) (k : client) (has_base : bool) (q : query) (s : st)
  : list image_extent * (unit + failure) * st :=
  match q with
  | QOther => ([], inr UnsupportedOperation, s)                         (* 163-165 *)
  | _ =>
      let dirty := match q with QDirty => true | _ => false end in
      if negb dirty && negb has_base then                               (* 169-171 *)
        ([ZeroExtent 0 (k_size k) false false], inl tt, s)
      else if dirty && match k_dirty k with None => true | _ => false end then  (* 175-178 *)
        ([], inr UnsupportedOperation, s)
      else
        let '(l, r, s') := extents v k 0 None dirty s in                (* 182 *)
        let '(out, r') := convert dirty 0 l in
        match r' with
        | inr e => (out, inr (FailClient e), s')
        | inl _ => (out, match r with inl _ => inl tt | inr e => inr (FailClient e) end, s')
        end
  end.
