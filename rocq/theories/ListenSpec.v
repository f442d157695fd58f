(* Who should be reached at an address. *)
From Coq Require Import ZArith List Bool.
From Verif Require Import ListenModel.
Import ListNotations.
Open Scope Z_scope.

(* ---- unix sockets ---- *)

(* A name in the abstract namespace starts with the null character. *)
Definition is_path (a : name) : Prop := exists c r, a = c :: r /\ c <> 0.

(* A server that is starting or was started, and was not stopped. *)
Definition live (w : world) (s : nat) : Prop :=
  match phase_of w s with Created | Ready | Serving | Stopping => True | _ => False end.

(* The name that a server is asked to use: any name, if none is given. *)
Definition asked (given uuid n : name) : Prop := (given <> [] /\ n = given) \/ (given = [] /\ n = 0 :: uuid).

(* The administrator uses a name for one server at a time, and leaves the files
   of running servers alone. *)
Definition proper (w : world) (l : label) : Prop :=
  match l with
  | LCreate _ given uuid => forall n, asked given uuid n -> forall s, live w s -> address w s <> n
  | LEnv p _ => forall s, live w s -> address w s <> p
  | _ => True
  end.

Inductive orderly : world -> list label -> world -> Prop :=
| o_end w : orderly w [] w
| o_step w l w1 tr w2 : proper w l -> exec w l = Some w1 -> orderly w1 tr w2 -> orderly w (l :: tr) w2.

(* What was created in an execution. *)
Definition created (tr : list label) (s : nat) (n : name) : Prop :=
  exists given uuid, In (LCreate s given uuid) tr /\ asked given uuid n.

(* ---- TCP ---- *)

(* RFC 3927, RFC 4291: 169.254.0.0 to 169.254.255.255, fe80:: to febf:ffff:... *)
Definition link_local (a : ai) : Prop :=
  match fam a with
  | V4 => 169 * 2 ^ 24 + 254 * 2 ^ 16 <= ip a <= 169 * 2 ^ 24 + 254 * 2 ^ 16 + 255 * 2 ^ 8 + 255
  | V6 => 65152 * 2 ^ 112 <= ip a < 65216 * 2 ^ 112
  end.

(* The addresses a server may use. *)
Definition usable (resolve : name -> list ai) (host : name) (a : ai) : Prop :=
  In a (resolve (match host with [] => [48] | _ => host end)) /\ ~ link_local a.
