(* What is expected from the daemon. *)
From Coq Require Import ZArith List Bool String Arith.
From Verif Require Import DaemonModel.
Import ListNotations.
Open Scope Z_scope.

(* ---- privileges ---- *)

(* The process runs as a user, with nothing left of another. *)
Definition runs_as (uid gid : Z) (gs : list Z) (c : cred) : Prop :=
  c = Cred uid uid uid gid gid gid gs.

(* What a process can try to become somebody else; calls that are not permitted
   change nothing. *)
Inductive attempt := TrySetuid (u : Z) | TrySetgid (g : Z) | TrySetgroups (l : list Z).
Definition try (a : attempt) (c : cred) : cred :=
  match (match a with TrySetuid u => setuid u c | TrySetgid g => setgid g c | TrySetgroups l => setgroups l c end) with
  | Some c' => c'
  | None => c
  end.
Definition after (l : list attempt) (c : cred) : cred := fold_left (fun c a => try a c) l c.

Definition is_bind (e : event) : bool :=
  match e with EBindTcp _ | EBindAbstract | EBindPath _ => true | _ => false end.
Definition changes_owner (e : event) : bool :=
  match e with EChown _ _ _ | ESetgroups _ | ESetgid _ | ESetuid _ => true | _ => false end.

(* A TCP port, 0 for a random one. *)
Definition tcp_port (p : Z) : Prop := 0 <= p <= 65535.

(* A configuration that can work, used by a process that can do what it asks
   for.  The ports are limited to 65534, and the control socket to a path, see
   the findings. *)
Definition usable_config (y : system) (c : config) (s : st) : Prop :=
  0 <= c_remote_port c <= 65534 /\ (c_tls c = true -> c_tls_files c = true) /\
  (c_control c = true ->
     match c_transport c with
     | Tcp => 0 <= c_control_port c <= 65534
     | Unix => exists p, c_control_socket c = Path p
     | OtherTransport => False
     end) /\
  (c_drop c = true -> euid (s_cred s) = 0 ->
     (exists u, y_user y (c_user c) = Some u) /\ (exists g, y_group y (c_group c) = Some g) /\
     Forall (fun p => s_files s p <> None) (c_logs c)) /\
  (forall i, y_fail y i = false).

(* ---- termination ---- *)

Definition reached (svcs : list svc) (s : state) : Prop := exists tr, exec tr (ready svcs) = Some s.
(* Services as they are created. *)
Definition fresh (svcs : list svc) : Prop := Forall (fun v => v = new_svc (v_unix v)) svcs.

(* The service does not accept connections any more, and its thread ended. *)
Definition stopped (v : svc) : Prop := v_thread v = TDone /\ v_down v = true.
(* The thread was started and did not end. *)
Definition alive (v : svc) : Prop := v_thread v <> TNone /\ v_thread v <> TDone.

Definition is_signal (l : label) : bool := match l with LSignal _ => true | _ => false end.
Definition quiet (tr : list label) : Prop := Forall (fun l => is_signal l = false) tr.
(* Nothing raises. *)
Definition fine (l : label) : Prop := l <> LMain false.

(* The daemon was asked to terminate, and noted it: terminate() ran after
   start() and before the main thread went to sleep, or the signal woke it up,
   or it is stopping. *)
Definition asked (s : state) : Prop :=
  match s_pc s with
  | MStartSvc _ | MNotify | MCheck => s_running s = false
  | MWoken | MStop _ _ | MWait _ _ => True
  | _ => False
  end.
(* It ended. *)
Definition ended (s : state) : Prop := exists c, s_pc s = MExit c.

(* The steps that take it towards the end: those of the main thread, and of the
   thread of the service it waits for. *)
Definition useful (s : state) (l : label) : bool :=
  match l, s_pc s with
  | LMain _, _ => true
  | LThread i _, MWait j _ => Nat.eqb i j
  | _, _ => false
  end.
(* Number of them in an execution. *)
Fixpoint work (tr : list label) (s : state) : nat :=
  match tr with
  | [] => 0
  | l :: tr =>
      (if useful s l then 1 else 0) + match step l s with Some s' => work tr s' | None => 0 end
  end.
