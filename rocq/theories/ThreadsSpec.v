(** Specification for threads: by-value results of the calls that a thread has completed *)
From Verif Require Import RBase R3 Trig Sphere Lattice R3Ref R3RefSpec Threads.
Import ListNotations.
Open Scope R_scope.

Definition call_value (c : tcall) (r : regs) : vec :=
  match c with
  | TFloor u => floor3 (r u) | TMxVec M u => mv M (r u) | TVecMx u M => vm (r u) M
  | TCartesian L u => cartesian L (r u) | TFractional L u => fractional L (r u)
  | TUcvFractional u => ucvFractional (r u) | TUcvCartesian L u => ucvCartesian L (r u)
  end.
(** the variables of a thread after it alone has made these calls *)
Definition done (p : program) (r : regs) : regs :=
  fold_left (fun r jc => fun i => if (i =? fst jc)%nat then call_value (snd jc) r else r i) p r.
(** the static variables that a call uses *)
Definition uses (c : tcall) : list cell :=
  match c with
  | TFloor _ => [SFloor] | TMxVec _ _ => [SMxVec] | TVecMx _ _ => [SVecMx] | TCartesian _ _ => [SVecMx; SCart] | TFractional _ _ => [SVecMx; SFrac]
  | TUcvFractional _ => [SFloor; SUcvFrac] | TUcvCartesian _ _ => [SVecMx; SFrac; SFloor; SUcvFrac; SCart; SUcvCart]
  end.
Definition turns (t : nat) (sched : list nat) : nat := count_occ Nat.eq_dec sched t.
(** later clicks have larger values *)
Fixpoint decreasing (l : list Z) : Prop := match l with a :: ((b :: _) as r) => (b < a)%Z /\ decreasing r | _ => True end.
