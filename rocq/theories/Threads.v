(** Threads of one process: the static variables of R3linalg.hpp, Lattice.cpp and EventTicker.cpp are shared, and nothing in the library
    locks them. Every thread runs its own program; a schedule says which thread runs next. Assignments to one element are the steps (the
    mildest reading of a data race, which in C++ is undefined altogether). *)
From Verif Require Import RBase R3 Trig Sphere Lattice R3Ref.
Import ListNotations.
Open Scope R_scope.

(** *** the machine: every turn runs one block of the program of a thread without interruption *)
Section Machine.
  Context {op Sh Pr : Type} (exec1 : op -> Sh -> Pr -> Sh * Pr).
  Record sys := mkSys { shared : Sh; priv : nat -> Pr; todo : nat -> list (list op) }.
  Definition set_at {A} (f : nat -> A) (t : nat) (a : A) : nat -> A := fun k => if (k =? t)%nat then a else f k.
  Definition run_block (b : list op) (x : Sh * Pr) : Sh * Pr := fold_left (fun x o => exec1 o (fst x) (snd x)) b x.
  Definition turn (s : sys) (t : nat) : sys :=
    match todo s t with
    | [] => s
    | b :: r => let x := run_block b (shared s, priv s t) in mkSys (fst x) (set_at (priv s) t (snd x)) (set_at (todo s) t r)
    end.
  Definition go (sched : list nat) (s : sys) : sys := fold_left turn sched s.
End Machine.
Arguments mkSys {op Sh Pr}. Arguments sys : clear implicits.
(** without a lock every step is a block of its own *)
Definition unlocked {op} (b : list (list op)) : list (list op) := map (fun o => [o]) (concat b).

(** *** vectors *)
(** a variable of the thread or a static variable *)
Inductive place := Reg (n : nat) | Stat (c : cell).
Inductive axis := AX | AY | AZ.
Definition elem (k : axis) (v : vec) : R := match k with AX => vx v | AY => vy v | AZ => vz v end.
Definition set_elem (k : axis) (x : R) (v : vec) : vec :=
  match k with AX => V3 x (vy v) (vz v) | AY => V3 (vx v) x (vz v) | AZ => V3 (vx v) (vy v) x end.
(** [Dot d k u w]: element k of the static variable d := inner product of u with fixed numbers w; [Floor d k u]: floor of element k of u;
    [Minus d k u v]: the difference of elements; [Snap d k]: reset of an element that is 1; [Move d k u]: copy of one element *)
Inductive step := Dot (d : cell) (k : axis) (u : place) (w : vec) | Floor (d : cell) (k : axis) (u : place)
  | Minus (d : cell) (k : axis) (u v : place) | Snap (d : cell) (k : axis) | Move (d : place) (k : axis) (u : place).
Definition statics := cell -> vec.
Definition regs := nat -> vec.
Definition look (sh : statics) (r : regs) (p : place) : vec := match p with Reg n => r n | Stat c => sh c end.
Definition assign (d : place) (k : axis) (x : R) (sh : statics) (r : regs) : statics * regs :=
  match d with
  | Reg n => (sh, fun i => if (i =? n)%nat then set_elem k x (r i) else r i)
  | Stat c => (fun e => if cell_dec e c then set_elem k x (sh e) else sh e, r)
  end.
Definition exec_step (o : step) (sh : statics) (r : regs) : statics * regs :=
  match o with
  | Dot d k u w => assign (Stat d) k (vdot (look sh r u) w) sh r
  | Floor d k u => assign (Stat d) k (IZR (Rfloor (elem k (look sh r u)))) sh r
  | Minus d k u v => assign (Stat d) k (elem k (look sh r u) - elem k (look sh r v)) sh r
  | Snap d k => if eps_eq (elem k (sh d)) 1 SQRT_DOUBLE_EPS then assign (Stat d) k 0 sh r else (sh, r)
  | Move d k u => assign d k (elem k (look sh r u)) sh r
  end.
Definition axes (f : axis -> step) : list step := [f AX; f AY; f AZ].
(** R3linalg.hpp:201-209 *)
Definition floor_steps (u : place) : list step := axes (fun k => Floor SFloor k u).
(** R3linalg.hpp:249-257 and 260-268 *)
Definition row (A : mat) (k : axis) : vec := match k with AX => row0 A | AY => row1 A | AZ => row2 A end.
Definition col (A : mat) (k : axis) : vec := match k with AX => col0 A | AY => col1 A | AZ => col2 A end.
Definition mxvec_steps (M : mat) (u : place) : list step := axes (fun k => Dot SMxVec k u (row M k)).
Definition vecmx_steps (u : place) (M : mat) : list step := axes (fun k => Dot SVecMx k u (col M k)).
(** Lattice.cpp:187-192, 194-199 *)
Definition cartesian_steps (L : lattice) (u : place) : list step := vecmx_steps u (base L) ++ axes (fun k => Move (Stat SCart) k (Stat SVecMx)).
Definition fractional_steps (L : lattice) (u : place) : list step := vecmx_steps u (recbase L) ++ axes (fun k => Move (Stat SFrac) k (Stat SVecMx)).
(** Lattice.cpp:208-217, 201-206 *)
Definition ucvFractional_steps (u : place) : list step :=
  floor_steps u ++ axes (fun k => Minus SUcvFrac k u (Stat SFloor)) ++ axes (fun k => Snap SUcvFrac k).
Definition ucvCartesian_steps (L : lattice) (u : place) : list step :=
  fractional_steps L u ++ ucvFractional_steps (Stat SFrac) ++ cartesian_steps L (Stat SUcvFrac) ++ axes (fun k => Move (Stat SUcvCart) k (Stat SCart)).
(** a call with the variable [u] of the thread whose result is copied to its variable [j] *)
Inductive tcall := TFloor (u : nat) | TMxVec (M : mat) (u : nat) | TVecMx (u : nat) (M : mat) | TCartesian (L : lattice) (u : nat)
  | TFractional (L : lattice) (u : nat) | TUcvFractional (u : nat) | TUcvCartesian (L : lattice) (u : nat).
Definition call_steps (c : tcall) : list step :=
  match c with
  | TFloor u => floor_steps (Reg u) | TMxVec M u => mxvec_steps M (Reg u) | TVecMx u M => vecmx_steps (Reg u) M
  | TCartesian L u => cartesian_steps L (Reg u) | TFractional L u => fractional_steps L (Reg u)
  | TUcvFractional u => ucvFractional_steps (Reg u) | TUcvCartesian L u => ucvCartesian_steps L (Reg u)
  end.
Definition result (c : tcall) : cell :=
  match c with
  | TFloor _ => SFloor | TMxVec _ _ => SMxVec | TVecMx _ _ => SVecMx | TCartesian _ _ => SCart | TFractional _ _ => SFrac
  | TUcvFractional _ => SUcvFrac | TUcvCartesian _ _ => SUcvCart
  end.
Definition copy_steps (j : nat) (c : tcall) : list step := axes (fun k => Move (Reg j) k (Stat (result c))).
Definition program := list (nat * tcall).
(** the call and the copy of its result under one lock; a lock for the call only; no lock *)
Definition locked (p : program) : list (list step) := map (fun jc => call_steps (snd jc) ++ copy_steps (fst jc) (snd jc)) p.
Definition call_locked (p : program) : list (list step) := flat_map (fun jc => [call_steps (snd jc); copy_steps (fst jc) (snd jc)]) p.

(** *** event tickers *)
(** EventTicker.cpp:40-49 click: the counter is incremented (a read and a write) and copied to the ticker. The carry of lines 43-47 and the
    limits of the counter are in Ticker.v; here the counter is unbounded. A thread remembers the values of its clicks, the last one first. *)
Inductive tstep := GRead | GWrite | GStore.
Record tpriv := mkTP { local : Z; ticks : list Z }.
Definition exec_tick (o : tstep) (g : Z) (p : tpriv) : Z * tpriv :=
  match o with
  | GRead => (g, mkTP g (ticks p))
  | GWrite => ((local p + 1)%Z, p)
  | GStore => (g, mkTP (local p) (g :: ticks p))
  end.
Definition click_steps : list tstep := [GRead; GWrite; GStore].
Definition clicks (n : nat) : list (list tstep) := repeat click_steps n.
