(* Model of qemu_img.py, and of the callers in client/_api.py: _find_member,
   info, measure, checksum, extents and the new image of download.  Paths are
   relative to /repo/ovirt_imageio/_internal, client/ is
   /repo/ovirt_imageio/client.

   An argument of a command is a str, a list of code points.  Simplified: the
   output of a command is text already (UTF-8 is not modelled); the command
   always runs and exits. *)
From Coq Require Import ZArith List Bool String.
From Verif Require Import JsonModel.
Import ListNotations.
Open Scope Z_scope.

(* str(n); qemu_img.py:35 *)
Definition str_int (n : Z) : text := int_text n.

(* A str that is not None and not empty is true. *)
(* Python semantics, for qemu_img.py:27-30, 72-78 and client/_api.py:204, 223. *)
Definition nonempty (s : option text) : option text :=
  match s with Some [] | None => None | Some s => Some s end.

(* ---- the commands ---- *)

(* qemu_img.py:24-36 create *)
Definition create (path fmt : text) (size : option Z) (backing_file backing_format : option text)
    (quiet : bool) : list text :=
  [chars_of "qemu-img"; chars_of "create"; chars_of "-f"; fmt] ++
  (match nonempty backing_file with
   | Some b =>
       [chars_of "-b"; b] ++
       (match nonempty backing_format with Some f => [chars_of "-F"; f] | None => [] end)
   | None => []
   end) ++
  (if quiet then [chars_of "-q"] else []) ++
  [path] ++
  (match size with Some n => [str_int n] | None => [] end).

(* qemu_img.py:39-46 convert *)
Definition convert (src dst src_fmt dst_fmt : text) (progress compressed : bool) : list text :=
  [chars_of "qemu-img"; chars_of "convert"; chars_of "-f"; src_fmt; chars_of "-O"; dst_fmt] ++
  (if progress then [chars_of "-p"] else []) ++
  (if compressed then [chars_of "-c"] else []) ++
  [src; dst].

(* qemu_img.py:49-51 unsafe_rebase *)
Definition unsafe_rebase (path backing backing_fmt : text) : list text :=
  [chars_of "qemu-img"; chars_of "rebase"; chars_of "-u"; chars_of "-b"; backing;
   chars_of "-F"; backing_fmt; path].

(* qemu_img.py:55 *)
Definition info_cmd (path : text) : list text :=
  [chars_of "qemu-img"; chars_of "info"; chars_of "--output"; chars_of "json"; path].

(* qemu_img.py:61 *)
Definition measure_cmd (path out_fmt : text) : list text :=
  [chars_of "qemu-img"; chars_of "measure"; chars_of "--output"; chars_of "json";
   chars_of "-O"; out_fmt; path].

(* qemu_img.py:67-81 *)
Definition compare_cmd (a b : text) (format1 format2 : option text) (strict : bool) : list text :=
  [chars_of "qemu-img"; chars_of "compare"] ++
  (if strict then [chars_of "-s"] else []) ++
  (match nonempty format1 with Some f => [chars_of "-f"; f] | None => [] end) ++
  (match nonempty format2 with Some f => [chars_of "-F"; f] | None => [] end) ++
  [a; b].

(* qemu_img.py:95-97 bitmap_add *)
Definition bitmap_add (path bitmap : text) : list text :=
  [chars_of "qemu-img"; chars_of "bitmap"; chars_of "--add"; path; bitmap].

(* ---- running them ---- *)

(* What qemu_img.py:11-22 and the library raise. *)
Inductive error :=
| CalledProcessError (rc : Z)
| JSONDecodeError
| ContentMismatch (out : text) | OpenImageError (out : text) | RuntimeError (err : text)
| KeyError (key : text)
| TypeError
| ValueError.

(* The exit status and the output of a process, qemu_img.py:83-84. *)
Record outcome := Outcome { returncode : Z; stdout : text; stderr : text }.

Section Run.
Variable run : list text -> outcome.

(* subprocess.check_call, check_output; qemu_img.py:36, 56, 62 *)
Definition check (cmd : list text) : text + error :=
  let r := run cmd in
  if returncode r =? 0 then inl (stdout r) else inr (CalledProcessError (returncode r)).

(* json.loads of the output, qemu_img.py:57, 63 *)
Definition json_output (cmd : list text) : value + error :=
  match check cmd with
  | inr e => inr e
  | inl out => match loads out with Some v => inl v | None => inr JSONDecodeError end
  end.

(* qemu_img.py:54-57 info, 60-63 measure *)
Definition img_info (path : text) : value + error := json_output (info_cmd path).
Definition img_measure (path out_fmt : text) : value + error := json_output (measure_cmd path out_fmt).

(* qemu_img.py:66-92 compare *)
Definition compare (a b : text) (format1 format2 : option text) (strict : bool) : unit + error :=
  let r := run (compare_cmd a b format1 format2 strict) in
  if returncode r =? 0 then inl tt
  else if returncode r =? 1 then inr (ContentMismatch (stdout r))
  else if returncode r =? 2 then inr (OpenImageError (stdout r))
  else inr (RuntimeError (stderr r)).

(* ---- members of tar files ---- *)

(* A member: name, offset_data, size.  client/_api.py:463-465 *)
Record member := Member { m_name : text; m_offset : Z; m_size : Z }.

(* tar.getmember(name), client/_api.py:464: the last one with the name; None is
   KeyError.  Simplified: a slash at the end of the name. *)
Fixpoint getmember (tar : list member) (name : text) : option member :=
  match tar with
  | [] => None
  | m :: tar =>
      match getmember tar name with
      | Some x => Some x
      | None => if text_eqb (m_name m) name then Some m else None
      end
  end.

(* What is in the tar file filename; [None] is a file that is no tar file.
   Used for client/_api.py:463. *)
Variable tars : text -> option (list member).

(* client/_api.py:462-465 _find_member; ValueError stands for ReadError *)
Definition find_member (tarname name : text) : Z * Z + error :=
  match tars tarname with
  | None => inr ValueError
  | Some tar => match getmember tar name with Some m => inl (m_offset m, m_size m) | None => inr (KeyError name) end
  end.

(* d[key] = x for what json.loads returned; client/_api.py:208-209, 226-227 *)
Definition setitem (v : value) (key : string) (x : value) : value + error :=
  match v with VObj d => inl (VObj (assign d (chars_of key) x)) | _ => inr TypeError end.

(* client/_api.py:204-210, 223-228: asking about a member *)
Definition ask_member (filename name : text) (ask : text -> value + error) : value + error :=
  match find_member filename name with
  | inr e => inr e
  | inl (offset, size) =>
      match ask (json_uri filename offset size) with
      | inr e => inr e
      | inl v =>
          match setitem v "member-offset" (VInt offset) with
          | inr e => inr e
          | inl v => setitem v "member-size" (VInt size)
          end
      end
  end.

(* client/_api.py:195-212 info *)
Definition info (filename : text) (name : option text) : value + error :=
  match nonempty name with
  | Some m => ask_member filename m img_info
  | None => img_info filename
  end.

(* client/_api.py:215-230 measure *)
Definition measure (filename dst_fmt : text) (name : option text) : value + error :=
  match nonempty name with
  | Some m => ask_member filename m (fun path => img_measure path dst_fmt)
  | None => img_measure filename dst_fmt
  end.

(* ---- opening the image ---- *)

(* The arguments of _open_nbd that differ between the callers, and the context
   that is read; client/_api.py:256-262, 281-289. *)
Record opened := Opened {
  n_filename : text; n_format : value; n_read_only : bool; n_bitmap : option text;
  n_offset : option value; n_size : option value; n_dirty : bool
}.

(* image_info.get(key), client/_api.py:260-261, 286-287 *)
Fixpoint get (d : list (text * value)) (key : text) : option value :=
  match d with
  | [] => None
  | (k, x) :: d => if text_eqb k key then Some x else get d key
  end.

(* client/_api.py:253-262 checksum, 278-289 extents: dirty is the context given
   to backend.extents; None in the offset and size is None *)
Definition open_image (filename : text) (name bitmap : option text) : opened + error :=
  match info filename name with
  | inr e => inr e
  | inl (VObj d) =>
      match get d (chars_of "format") with
      | None => inr (KeyError (chars_of "format"))
      | Some fmt =>
          inl (Opened filename fmt true bitmap (get d (chars_of "member-offset")) (get d (chars_of "member-size"))
                 (match nonempty bitmap with Some _ => true | None => false end))
      end
  | inl _ => inr TypeError
  end.

(* client/_api.py:151-171 download: the new image; [virtual_size] is
   src.size() *)
Definition download_image (filename fmt : text) (incremental : bool) (virtual_size : Z)
    (backing_file backing_format : option text) : text + error :=
  if incremental && negb (text_eqb fmt (chars_of "qcow2")) then inr ValueError
  else check (create filename fmt (Some virtual_size) backing_file backing_format true).
End Run.
