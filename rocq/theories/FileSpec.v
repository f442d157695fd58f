(* Assumptions on the environment and notions used by the statements about
   file backends (FileTheorems). *)
From Coq Require Import ZArith List Bool.
From Verif Require Import BytesLib FileModel.
Import ListNotations.
Open Scope Z_scope.

(* Block sizes. *)
Definition pow2 (n : Z) : Prop := exists k, 0 <= k /\ n = 2 ^ k.

(* Both ends of the range given to a system call are at block boundaries. *)
Definition call_aligned (bs : Z) (k : call) : Prop :=
  match k with
  | CRead p l | CWrite p l | CZeroRange p l | CPunchHole p l | CAllocate p l
  | CBlkZeroOut p l => p mod bs = 0 /\ l mod bs = 0
  | CTruncate n => n mod bs = 0
  end.

(* One block requests are done completely. *)
Definition whole_reads (c : fcfg) : Prop :=
  forall n p k, c_kernel c n (CRead p (c_bs c)) = Done k -> c_bs c <= k.
Definition whole_writes (c : fcfg) : Prop :=
  forall n p k, c_kernel c n (CWrite p (c_bs c)) = Done k -> c_bs c <= k.

(* The size of a block device is a multiple of the block size. *)
Definition sized (c : fcfg) (data : list byte) : Prop :=
  c_block c = true -> zlen data mod c_bs c = 0.

(* A kernel that never fails, except that fallocate may be unsupported. *)
Definition works (c : fcfg) : Prop :=
  forall n k, match k with
              | CRead _ _ | CWrite _ _ | CTruncate _ | CBlkZeroOut _ _ =>
                  exists v, c_kernel c n k = Done v
              | _ => exists v, c_kernel c n k = Done v \/ c_kernel c n k = Err EOPNOTSUPP v
              end.
