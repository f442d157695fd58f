(* What opening an image should do. *)
From Coq Require Import ZArith List Bool String.
From Verif Require Import UrlModel OpenModel.
Import ListNotations.
Open Scope Z_scope.

(* read(2), write(2): what a descriptor can be used for. *)
Definition can_read (fl : flags) : Prop := f_access fl <> WO.
Definition can_write (fl : flags) : Prop := f_access fl <> RO.

(* Descriptors have different numbers, and the next number is not used. *)
Definition sound (w : world) : Prop := forall fd d, In (fd, d) (fds w) -> (fd < next w)%nat.

(* No file is changed. *)
Definition same_files (w w' : world) : Prop := forall p, files w' p = files w p.

(* Characters with a meaning in a URL, and those that are dropped. *)
Definition plain (c : Z) : Prop := c <> 35 /\ c <> 63 /\ c <> 9 /\ c <> 10 /\ c <> 13.

(* The parsed URL of a ticket for a file name. *)
Definition url_of (netloc_ok : str -> bool) (filename : str) (u : parsed) : Prop :=
  urlparse netloc_ok (lit "file://" ++ filename) = Some u.
