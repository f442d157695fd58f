(* What the commands of ovirt-img should do, as seen from outside: the requests
   to engine and their answers, in order. *)
From Coq Require Import ZArith List Bool String.
From Verif Require Import BytesLib UrlModel OvirtModel.
Import ListNotations.
Open Scope Z_scope.

(* The events [l] occur in [t] in this order. *)
Inductive in_order : list event -> list event -> Prop :=
| in_order_nil t : in_order [] t
| in_order_take e l t : in_order l t -> in_order (e :: l) (e :: t)
| in_order_skip e l t : in_order l t -> in_order l (e :: t).

(* How often a request is made. *)
Definition is_cancel (e : event) : bool := match e with Ev CCancel _ => true | _ => false end.
Definition is_finalize (e : event) : bool := match e with Ev CFinalize _ => true | _ => false end.
Definition is_poll (e : event) : bool := match e with Ev CGet _ => true | _ => false end.
Definition is_disk_poll (e : event) : bool := match e with Ev CDiskGet _ => true | _ => false end.
Definition is_add (e : event) : bool := match e with Ev (CAdd _) _ => true | _ => false end.
Definition is_add_disk (e : event) : bool := match e with Ev (CAddDisk _) _ => true | _ => false end.
Definition is_transfer (e : event) : bool := match e with Ev (CTransfer _ _) _ => true | _ => false end.
Definition count (p : event -> bool) (t : list event) : Z := zlen (filter p t).

(* Engine said that the transfer ended well: its phase, or, when an old engine
   has removed the transfer already, the status of the disk. *)
Definition confirmation (l : list event) : Prop :=
  l = [Ev CGet (APhase FinishedSuccess)] \/
  l = [Ev CGet (AExc XNotFound); Ev CDiskGet (AStatus DiskOk)].

(* A transfer was made by engine. *)
Definition created (t : list event) : Prop := exists d, In (Ev (CAdd d) AUnit) t.
(* Engine said that there is no transfer any more. *)
Definition gone (t : list event) : Prop :=
  In (Ev CGet (AExc XNotFound)) t \/ In (Ev CGet (APhase FinishedFailure)) t.
(* Nothing is left for engine to clean up: the transfer was ended once by the
   command, or engine has ended it. *)
Definition closed (t : list event) : Prop :=
  count is_cancel t + count is_finalize t = 1 \/
  (count is_cancel t + count is_finalize t = 0 /\ gone t).

(* The requests that the command cannot do without work after the transfer was
   made: engine can be asked for it, and its host is known. *)
Definition engine_answers (t : list event) : Prop :=
  (forall x, In (Ev CGet (AExc x)) t -> x = XNotFound) /\
  (forall x, ~ In (Ev CFollow (AExc x)) t).
(* The transfer was not stopped by something that is not an Exception. *)
Definition not_interrupted (t : list event) : Prop :=
  forall d z x, In (Ev (CTransfer d z) (AExc x)) t -> is_exception x = true.

(* The last thing shown to the user. *)
Definition last_shown (t : list event) (s : str) : Prop := exists u, t = u ++ [Shown s].

(* Enough iterations of the polling loops, when [timeout] is the number of seconds
   to wait for a disk. *)
Definition enough (timeout : Z) (fuel : nat) : Prop := Z.max 363 timeout + 1 < Z.of_nat fuel.

(* A file name: [name] is what is left of the last part of [path] without its
   extension. *)
Definition file_stem (path name : str) : Prop :=
  exists dir ext, path = dir ++ name ++ ext /\
    (dir = [] \/ exists d, dir = d ++ [SLASH]) /\ ~ In SLASH (name ++ ext) /\
    ((ext = [] /\ forall a e c, name = a ++ DOT :: e -> In c a -> c = DOT) \/
     exists e, ext = DOT :: e /\ ~ In DOT e /\ exists c, In c name /\ c <> DOT).

(* The eight bytes found at 32768 in ISO 9660 images: the type of the descriptor,
   the identifier, the version, and an unused byte. *)
Definition iso_descriptor : list byte :=
  Byte.x01 :: list_byte_of_string "CD001" ++ [Byte.x01; Byte.x00].
