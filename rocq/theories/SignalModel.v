(* Model of termination signals in the client: ovirt_imageio/client/_app.py, the
   call of check_terminated() in client/_io.py, and the exit status of
   client/_tool.py.

   The copy itself is ClientIoModel; this model adds the flag set by the signal
   handler, and the step in which a worker looks at it, between taking a request
   from the queue and executing it.  A signal handler of Python runs in the main
   thread between two instructions, also while this thread waits for the queue
   or for a worker, and only sets the flag; so a signal is a step that can come
   at any time. *)
From Coq Require Import ZArith List Bool.
From Coq.Strings Require Import Byte.
From Verif Require Import BytesLib ClientIoModel.
Import ListNotations.
Open Scope Z_scope.

(* _app.py:10, 45-48 _termination_signal and _handle_signal. *)
Definition handle_signal (signo : Z) (flag : option Z) : option Z :=
  match flag with None => Some signo | Some _ => flag end.

(* What a worker or copy() raises: TerminatedBySignal, _app.py:14-20, or another
   exception. *)
Inductive exn := Terminated (signo : Z) | Other.

(* _app.py:23-28 check_terminated; Some: the exception raised. *)
Definition check_terminated (flag : option Z) : option exn :=
  match flag with Some signo => Some (Terminated signo) | None => None end.

(* A worker has a request, _io.py:239-246. *)
Definition has_request (x : wstate) : bool :=
  match x with WZero _ | WCopy _ _ _ _ | WFlush => true | _ => false end.

(* The state of _io.py with the exceptions: checked i tells that worker i called
   check_terminated() for the request it has, raised i is the exception which
   worker i adds next to executor._errors (_io.py:250-251), reported is
   executor._errors, result is how copy() ended. *)
Record state := State {
  io : st;
  flag : option Z;
  checked : nat -> bool;
  raised : nat -> exn;
  reported : list exn;
  result : option (unit + exn)
}.

(* Auxiliary, no line of /repo. *)
Definition upd {A} (f : nat -> A) (i : nat) (x : A) : nat -> A :=
  fun j => if (j =? i)%nat then x else f j.

(* No code: a signal comes, a worker calls check_terminated() - close_ok tells if
   closing its handler works, when this raises - or any other step of
   ClientIoModel. *)
Inductive event :=
| Signal (signo : Z)
| Check (i : nat) (close_ok : bool)
| Run (l : label).

(* A request of which nothing is done: the answer for a step of ClientIoModel in
   which check_terminated() raises. *)
(* For _io.py:240. *)
Definition nothing : answer := Answer false 0 (Some 0) (Some 0).

(* Auxiliary, no line of /repo. *)
Definition wstate_of (i : nat) (s : st) : wstate :=
  match nth_error (workers s) i with Some w => w_state w | None => WDone end.
Definition is_error (x : wstate) : bool := match x with WError => true | _ => false end.

(* A step.  _io.py:240: a worker with a request first calls check_terminated().
   When this raises, closing the handler (237) may raise another exception
   instead.  _io.py:250-251: a worker adds its exception to the errors;
   170-171: stop() raises the first one; 196-200: after an exception in the
   block of copy(), this one is raised. *)
Definition step (c : config) (e : event) (s : state) : option state :=
  match e with
  | Signal signo =>
      Some (State (io s) (handle_signal signo (flag s)) (checked s) (raised s) (reported s) (result s))
  | Check i close_ok =>
      if has_request (wstate_of i (io s)) && negb (checked s i) then
        match check_terminated (flag s) with
        | None => Some (State (io s) (flag s) (upd (checked s) i true) (raised s) (reported s) (result s))
        | Some x =>
            match ClientIoModel.step c (LWorker i 0 nothing) (io s) with
            | None => None
            | Some io' =>
                Some (State io' (flag s) (checked s) (upd (raised s) i (if close_ok then x else Other))
                            (reported s) (result s))
            end
        end
      else None
  | Run (LWorker i k a) =>
      let x := wstate_of i (io s) in
      if has_request x && negb (checked s i) then None
      else
        match ClientIoModel.step c (LWorker i k a) (io s) with
        | None => None
        | Some io' =>
            Some (State io' (flag s)
                    (if has_request x then checked s else upd (checked s) i false)
                    (if negb (is_error x) && is_error (wstate_of i io') then upd (raised s) i Other else raised s)
                    (if is_error x then reported s ++ [raised s i] else reported s)
                    (result s))
        end
  | Run l =>
      match ClientIoModel.step c l (io s) with
      | None => None
      | Some io' =>
          Some (State io' (flag s) (checked s) (raised s) (reported s)
                  (match main io' with
                   | MDone _ =>
                       Some (match main (io s) with
                             | MJoin true => inr Other
                             | _ => match reported s with [] => inl tt | x :: _ => inr x end
                             end)
                   | _ => result s
                   end))
      end
  end.

(* No code: any sequence of steps. *)
Fixpoint exec (c : config) (tr : list event) (s : state) : option state :=
  match tr with
  | [] => Some s
  | e :: tr => match step c e s with Some s' => exec c tr s' | None => None end
  end.

(* _io.py:36-56, copy() starts; a signal may have come before, since _tool.py:32. *)
Definition init (f : option Z) (depth : nat) (max_workers : Z) (d : list byte) : state :=
  State (ClientIoModel.init depth max_workers d) f (fun _ => false) (fun _ => Other) [] None.

(* _tool.py:34-43: the exit status when copy() ended like this, and no other part
   of the command failed. *)
Definition exit_status (r : unit + exn) : Z :=
  match r with
  | inl _ => 0
  | inr (Terminated signo) => 128 + signo
  | inr Other => 1
  end.
