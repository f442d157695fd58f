(* NBD client, the handshake: connecting, negotiating options, giving up.
   On top of the socket of NbdModel.v.
   Paths are relative to /repo/ovirt_imageio/_internal.
   Not here: the connection of the socket (nbd.py:473-515), logging, the
   messages of errors. *)
From Coq Require Import ZArith List Bool String.
From Coq.Init Require Import Byte.
From Verif Require Import BytesLib NbdModel.
Import ListNotations.
Open Scope Z_scope.

(* Constants, nbd.py:31-33, 39, 41, 58-62, 65-67, 105-106, 109-111, 114-123. *)
Definition NBDMAGIC := 0x4e42444d41474943.
Definition IHAVEOPT := 0x49484156454F5054.
Definition OPTION_REPLY_MAGIC := 0x3e889045565a9.
Definition FLAG_FIXED_NEWSTYLE := 1.
Definition FLAG_C_FIXED_NEWSTYLE := 1.
Definition OPT_ABORT := 2.
Definition OPT_GO := 7.
Definition OPT_STRUCTURED_REPLY := 8.
Definition OPT_LIST_META_CONTEXT := 9.
Definition OPT_SET_META_CONTEXT := 10.
Definition REP_ACK := 1.
Definition REP_INFO := 3.
Definition REP_META_CONTEXT := 4.
Definition INFO_EXPORT := 0.
Definition INFO_BLOCK_SIZE := 3.
Definition ERR_BASE := 2 ^ 31.
Definition REP_ERR_UNSUP := ERR_BASE + 1.
Definition REP_ERR_TOO_BIG := ERR_BASE + 9.
Definition QEMU_DIRTY_BITMAP := "qemu:dirty-bitmap:"%string.

(* Strings of the protocol are kept as their UTF-8 bytes: decoding is
   injective, so comparing names and using them as keys is the same. *)
(* Python semantics, for nbd.py:582-726. *)
Definition utf8_bytes (s : string) : list byte := list_byte_of_string s.
(* Python semantics, for nbd.py:582-726. *)
Fixpoint bytes_eqb (a b : list byte) : bool :=
  match a, b with
  | [], [] => true
  | x :: a, y :: b => Byte.eqb x y && bytes_eqb a b
  | _, _ => false
  end.

(* nbd.py:125-153 reply in ERROR_REPLY: the keys are the nine values
   REP_ERR_UNSUP .. REP_ERR_TOO_BIG. *)
Definition is_error (reply : Z) : bool := (REP_ERR_UNSUP <=? reply) && (reply <=? REP_ERR_TOO_BIG).

(* nbd.py:380-400 the attributes set by the handshake. h_names is the name to
   id half of _meta_context, k_meta of NbdModel.v the other half; the latest
   assignment first. *)
Record handshaken := Handshaken {
  h_structured : bool;                  (* _structured_reply *)
  h_names : list (list byte * Z);       (* _meta_context *)
  h_dirty : option (list byte);         (* dirty_bitmap *)
  h_export : option (Z * Z);            (* export_size, transmission_flags *)
  h_blocks : Z * Z * Z                  (* minimum, preferred, maximum_block_size *)
}.

(* The latest assignment to a key of the dict _meta_context; keys that are
   names and keys that are ids are different keys. *)
(* The dict of nbd.py:607-659. *)
Fixpoint name_of_id (l : list (list byte * Z)) (id : Z) : option (list byte) :=
  match l with
  | [] => None
  | (n, i) :: l => if i =? id then Some n else name_of_id l id
  end.
(* The dict of nbd.py:607-659. *)
Fixpoint id_of_name (l : list (list byte * Z)) (name : list byte) : option Z :=
  match l with
  | [] => None
  | (n, i) :: l => if bytes_eqb n name then Some i else id_of_name l name
  end.

(* nbd.py:414-416 has_base_allocation *)
Definition has_base_allocation (h : handshaken) : bool :=
  match id_of_name (h_names h) (utf8_bytes BASE_ALLOCATION) with Some _ => true | None => false end.

(* The attributes used by the transmission phase, as NbdModel.v has them. None:
   the handshake did not set the size, never happens after a successful
   handshake (nbd.py:749-751). *)
Definition to_client (h : handshaken) : option client :=
  match h_export h with
  | None => None
  | Some (size, flags) =>
      let '(minimum, _, _) := h_blocks h in
      Some (Client (h_structured h)
              (fun id => option_map string_of_list_byte (name_of_id (h_names h) id))
              (option_map string_of_list_byte (h_dirty h))
              minimum size flags)
  end.

Section Handshake.
Variable v : env.
(* Whether bytes are valid UTF-8: .decode("utf-8") raises UnicodeDecodeError,
   a ValueError, when not. Not modelled further. *)
Variable utf8 : list byte -> bool.
(* nbd.py:374 export_name, encoded (nbd.py:671, 783). *)
Variable export_name : list byte.

(* nbd.py:831-840 _send_option; OPTION is nbd.py:172. *)
Definition send_option (opt : Z) (data : list byte) : M unit :=
  do a <- lift (pack 8 IHAVEOPT) ;
  do b <- lift (pack 4 opt) ;
  do c <- lift (pack 4 (zlen data)) ;
  do_ send v (a ++ b ++ c) ;                                            (* 837-838 *)
  match data with
  | [] => ret tt                                                        (* 839 *)
  | _ => send v data
  end.

(* nbd.py:842-869 _recv_option_reply: reply, length. *)
Definition recv_option_reply (expected : Z) : M (Z * Z) :=
  do d <- recv v 20 ;                                                   (* 856 *)
  if negb (field 0 8 d =? OPTION_REPLY_MAGIC) then raise ProtocolError  (* 860-863 *)
  else if negb (field 8 4 d =? expected) then raise ProtocolError       (* 865-867 *)
  else ret (field 12 4 d, field 16 4 d).

(* nbd.py:871-889 _handle_option_error: the message is received and dropped. *)
Definition handle_option_error {A} (reply length : Z) : M A :=
  do_ (if length =? 0 then ret [] else recv v length) ;
  raise (OptionError reply).

(* try: m; except OptionUnsupported: handler (nbd.py:574-577, 694-698) *)
Definition except_unsupported {A} (m : M A) (handler : M A) : M A := fun s =>
  match m s with
  | (inr (OptionError r), s') => if r =? REP_ERR_UNSUP then handler s' else (inr (OptionError r), s')
  | r => r
  end.

(* nbd.py:815-829 _negotiate_option, without data *)
Definition negotiate_option (opt : Z) : M unit :=
  do_ send_option opt [] ;
  do r <- recv_option_reply opt ;
  if is_error (fst r) then handle_option_error (fst r) (snd r)          (* 819-820 *)
  else if negb (fst r =? REP_ACK) then raise ProtocolError              (* 825-826 *)
  else if negb (snd r =? 0) then raise ProtocolError                    (* 828-829 *)
  else ret tt.

(* nbd.py:561-580 _negotiate_structured_reply_option: the new value of
   _structured_reply. *)
Definition negotiate_structured_reply_option : M bool :=
  except_unsupported (do_ negotiate_option OPT_STRUCTURED_REPLY ; ret true) (ret false).

(* nbd.py:661-683 _format_meta_context_data *)
Fixpoint format_queries (queries : list (list byte)) : list byte + exc :=
  match queries with
  | [] => inl []
  | q :: queries =>
      match pack 4 (zlen q), format_queries queries with
      | inl a, inl b => inl (a ++ q ++ b)
      | _, _ => inr StructError
      end
  end.
Definition format_meta_context_data (queries : list (list byte)) : list byte + exc :=
  match pack 4 (zlen export_name), pack 4 (zlen queries), format_queries queries with
  | inl a, inl b, inl c => inl (a ++ export_name ++ b ++ c)
  | _, _, _ => inr StructError
  end.

(* nbd.py:710-726 _recv_meta_context_reply: name, id *)
Definition recv_meta_context_reply (length : Z) : M (list byte * Z) :=
  if length <? 4 then raise ProtocolError                               (* 719-720 *)
  else
  do d <- recv v length ;                                               (* 722 *)
  if utf8 (drop 4 d) then ret (drop 4 d, field 0 4 d)                   (* 723-726 *)
  else raise ValueError.

(* nbd.py:685-708 _iter_meta_context_replies, a generator: body is what the
   consumer does with each value, a its state. Every round receives 20 bytes:
   the fuel given by the callers is enough. *)
Fixpoint iter_meta_context_replies {A} (fuel : nat) (opt : Z) (body : A -> list byte -> Z -> M A)
    (a : A) : M A :=
  match fuel with
  | O => raise OutOfFuel
  | S fuel =>
      do r <- recv_option_reply opt ;                                   (* 691 *)
      if is_error (fst r) then
        except_unsupported (handle_option_error (fst r) (snd r)) (ret a)  (* 693-698 *)
      else if fst r =? REP_ACK then
        if negb (snd r =? 0) then raise ProtocolError else ret a        (* 700-703 *)
      else if negb (fst r =? REP_META_CONTEXT) then raise ProtocolError (* 705-706 *)
      else
        do x <- recv_meta_context_reply (snd r) ;                       (* 708 *)
        do a' <- body a (fst x) (snd x) ;
        iter_meta_context_replies fuel opt body a'
  end.

(* Enough rounds for what the server sends. *)
(* No code: the number of rounds of the loops of nbd.py:607-770. *)
Definition rounds (s : st) : nat := S (List.length (s_in s)).

(* nbd.py:582-605 _query_dirty_bitmap *)
Definition query_dirty_bitmap : M (option (list byte)) :=
  do data <- lift (format_meta_context_data [utf8_bytes QEMU_DIRTY_BITMAP]) ;
  do_ send_option OPT_LIST_META_CONTEXT data ;
  do s <- get ;
  do bitmaps <- iter_meta_context_replies (rounds s) OPT_LIST_META_CONTEXT
                  (fun l n i => ret (l ++ [(n, i)])) [] ;               (* 592 *)
  match bitmaps with
  | [(n, _)] => ret (Some n)                                            (* 603-605 *)
  | _ => ret None                                                       (* 594-601 *)
  end.

(* nbd.py:616-618 the contexts asked for; an empty name is not added. *)
Definition wanted_contexts (dirty_bitmap : option (list byte)) : list (list byte) :=
  [utf8_bytes BASE_ALLOCATION; utf8_bytes QEMU_ALLOCATION_DEPTH]
  ++ match dirty_bitmap with Some (x :: l) => [x :: l] | _ => [] end.

(* nbd.py:607-659 _set_meta_context: the assignments to _meta_context, latest
   first, and the new value of self.dirty_bitmap. *)
Definition set_meta_context (dirty_bitmap : option (list byte))
  : M (list (list byte * Z) * option (list byte)) :=
  let queries := wanted_contexts dirty_bitmap in
  do data <- lift (format_meta_context_data queries) ;                  (* 620 *)
  do_ send_option OPT_SET_META_CONTEXT data ;                           (* 621 *)
  do s <- get ;
  iter_meta_context_replies (rounds s) OPT_SET_META_CONTEXT
    (fun a n i =>
       if existsb (bytes_eqb n) queries then
         ret ((n, i) :: fst a,                                          (* 647-648 *)
              match dirty_bitmap with
              | Some b => if bytes_eqb n b then Some b else snd a       (* 650-651 *)
              | None => snd a
              end)
       else raise ProtocolError)                                        (* 639-642 *)
    ([], None).

(* nbd.py:772-793 _format_go_option_data, without requests *)
Definition format_go_option_data : list byte + exc :=
  match pack 4 (zlen export_name), pack 2 0 with
  | inl a, inl b => inl (a ++ export_name ++ b)
  | _, _ => inr StructError
  end.

(* nbd.py:740-770 the loop of _negotiate_go_option, with 795-800
   _recv_export_info and 802-811 _recv_blocksize_info. *)
Fixpoint go_replies (fuel : nat) (export : option (Z * Z)) (blocks : Z * Z * Z)
  : M (option (Z * Z) * (Z * Z * Z)) :=
  match fuel with
  | O => raise OutOfFuel
  | S fuel =>
      do r <- recv_option_reply OPT_GO ;                                (* 741 *)
      if is_error (fst r) then handle_option_error (fst r) (snd r)      (* 743-744 *)
      else if fst r =? REP_ACK then
        if negb (snd r =? 0) then raise ProtocolError                   (* 747-748 *)
        else match export with
             | None => raise ProtocolError                              (* 749-751 *)
             | Some _ => ret (export, blocks)
             end
      else if negb (fst r =? REP_INFO) then raise ProtocolError         (* 754-755 *)
      else if snd r <? 2 then raise ProtocolError                       (* 757-758 *)
      else
        do d <- recv v 2 ;                                              (* 760 *)
        let info := unbe d in
        let length := snd r - 2 in                                      (* 761 *)
        if info =? INFO_EXPORT then
          if negb (length =? 10) then raise ProtocolError               (* 796-797 *)
          else do d <- recv v 10 ;
               go_replies fuel (Some (field 0 8 d, field 8 2 d)) blocks
        else if info =? INFO_BLOCK_SIZE then
          if negb (length =? 12) then raise ProtocolError               (* 803-804 *)
          else do d <- recv v 12 ;
               go_replies fuel export (field 0 4 d, field 4 4 d, field 8 4 d)
        else do_ recv v length ;                                        (* 768-770 *)
             go_replies fuel export blocks
  end.

(* nbd.py:728-738 _negotiate_go_option; the defaults are nbd.py:389-391. *)
Definition negotiate_go_option : M (option (Z * Z) * (Z * Z * Z)) :=
  do data <- lift format_go_option_data ;
  do_ send_option OPT_GO data ;
  do s <- get ;
  go_replies (rounds s) None (1, 4096, 32 * 1024 * 1024).

(* nbd.py:519-552 _newstyle_handshake, 554-557 _send_client_flags *)
Definition newstyle_handshake (dirty : bool) : M handshaken :=
  do d <- recv v 18 ;                                                   (* 524 *)
  if negb (field 0 8 d =? NBDMAGIC) then raise ProtocolError            (* 526-528 *)
  else if negb (field 8 8 d =? IHAVEOPT) then raise ProtocolError       (* 530-533 *)
  else if Z.land (field 16 2 d) FLAG_FIXED_NEWSTYLE =? 0
  then raise ProtocolError                                              (* 536-538 *)
  else
  do flags <- lift (pack 4 FLAG_C_FIXED_NEWSTYLE) ;
  do_ send v flags ;                                                    (* 540 *)
  do structured <- negotiate_structured_reply_option ;                  (* 544 *)
  do meta <- (if structured then
                do bitmap <- (if dirty then query_dirty_bitmap else ret None) ;  (* 547 *)
                set_meta_context bitmap                                 (* 548 *)
              else ret ([], None)) ;
  do go <- negotiate_go_option ;                                        (* 550 *)
  ret (Handshaken structured (fst meta) (snd meta) (fst go) (snd go)).

(* nbd.py:372-412 Client.__init__ after connecting: a failed handshake is
   followed by close() (465-469), which in the state HANDSHAKE sends an
   OPT_ABORT, ignoring exceptions (893-926). Closing the socket is not
   modelled: a client that was not created cannot use it. *)
Definition connect (dirty : bool) : M handshaken := fun s =>
  match newstyle_handshake dirty s with
  | (inl h, s') => (inl h, s')
  | (inr e, s') => (inr e, snd (send_option OPT_ABORT [] s'))
  end.
End Handshake.
