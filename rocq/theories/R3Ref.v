(** Model of the functions that return references to static variables: R3linalg.hpp, R3linalg.cpp and Lattice.cpp.
    The other files use these functions by value (R3.v, Lattice.v); here the static variables are memory cells, arguments and
    results are references to cells, and the assignments are made one by one as in the source. *)
From Verif Require Import RBase R3 Trig Sphere Lattice BondGen Crystal.
Import ListNotations.
Open Scope R_scope.

(** *** determinant and inverse *)
(** The LU decomposition of GSL with partial pivoting, gsl_linalg_LU_decomp as called in R3linalg.cpp:54 and 75: the rows of the
    decomposed matrix (L below the diagonal), the permutation and its sign. *)
Record lu := mkLU { lu0 : vec; lu1 : vec; lu2 : vec; perm : nat * nat * nat; signum : R }.
(** first column: the largest pivot, the first one of equal size; rows exchanged *)
Definition pivot0 (x : lu) : lu :=
  let '(p, q, r) := perm x in
  let a := Rabs (vx (lu0 x)) in let b := Rabs (vx (lu1 x)) in let c := Rabs (vx (lu2 x)) in
  if Rltb a b then
    if Rltb b c then mkLU (lu2 x) (lu1 x) (lu0 x) (r, q, p) (- signum x) else mkLU (lu1 x) (lu0 x) (lu2 x) (q, p, r) (- signum x)
  else if Rltb a c then mkLU (lu2 x) (lu1 x) (lu0 x) (r, q, p) (- signum x) else x.
(** rows below the first one *)
Definition eliminate0 (x : lu) : lu :=
  let d := vx (lu0 x) in
  if Reqb d 0 then x else
  let e v := let l := vx v / d in V3 l (vy v - l * vy (lu0 x)) (vz v - l * vz (lu0 x)) in
  mkLU (lu0 x) (e (lu1 x)) (e (lu2 x)) (perm x) (signum x).
(** second column *)
Definition pivot1 (x : lu) : lu :=
  let '(p, q, r) := perm x in
  if Rltb (Rabs (vy (lu1 x))) (Rabs (vy (lu2 x))) then mkLU (lu0 x) (lu2 x) (lu1 x) (p, r, q) (- signum x) else x.
Definition eliminate1 (x : lu) : lu :=
  let d := vy (lu1 x) in
  if Reqb d 0 then x else
  let l := vy (lu2 x) / d in
  mkLU (lu0 x) (lu1 x) (V3 (vx (lu2 x)) l (vz (lu2 x) - l * vz (lu1 x))) (perm x) (signum x).
Definition LU_decomp (A : mat) : lu := eliminate1 (pivot1 (eliminate0 (pivot0 (mkLU (row0 A) (row1 A) (row2 A) (0, 1, 2)%nat 1)))).
(** R3linalg.cpp:42-59 determinant; gsl_linalg_LU_det is the product of the diagonal and the sign *)
Definition determinant (A : mat) : R := let x := LU_decomp A in signum x * (vx (lu0 x) * vy (lu1 x) * vz (lu2 x)).
(** one column of gsl_linalg_LU_invert: forward and back substitution for the permuted unit vector [k] *)
Definition LU_column (x : lu) (k : nat) : vec :=
  let '(p, q, r) := perm x in
  let b i := if (i =? k)%nat then 1 else 0 in
  let y0 := b p in
  let y1 := b q - vx (lu1 x) * y0 in
  let y2 := b r - vx (lu2 x) * y0 - vy (lu2 x) * y1 in
  let z2 := y2 / vz (lu2 x) in
  let z1 := (y1 - vz (lu1 x) * z2) / vy (lu1 x) in
  let z0 := (y0 - vy (lu0 x) * z1 - vz (lu0 x) * z2) / vx (lu0 x) in
  V3 z0 z1 z2.
(** gsl_linalg_LU_invert as called in R3linalg.cpp:78; a zero on the diagonal is the error "matrix is singular", and the default
    error handler of GSL aborts the process: [None] *)
Definition LU_invert (x : lu) : option mat :=
  if Reqb (vx (lu0 x)) 0 || Reqb (vy (lu1 x)) 0 || Reqb (vz (lu2 x)) 0 then None
  else Some (cols (LU_column x 0) (LU_column x 1) (LU_column x 2)).

(** *** memory *)
(** the static variables of R3linalg.hpp:204 (floor), 252 and 263 (mxvecproduct), of Lattice.cpp:189 (cartesian), 196 (fractional),
    203 (ucvCartesian), 211 (ucvFractional), the copies of Lattice.hpp:520, 531, 542 and 553, and the variables of the caller *)
Inductive cell := SFloor | SMxVec | SVecMx | SCart | SFrac | SUcvCart | SUcvFrac | SCopyCart | SCopyFrac | SCopyUcvCart | SCopyUcvFrac | Var (n : nat).
(** R3linalg.cpp:64 (inverse), Lattice.cpp:221 and 229 (cartesianMatrix, fractionalMatrix) and the variables of the caller *)
Inductive mcell := SInverse | SCart0 | SCart1 | SFrac0 | SFrac1 | MVar (n : nat).
Definition cell_dec (a b : cell) : {a = b} + {a <> b}. Proof. decide equality. apply Nat.eq_dec. Defined.
Definition mcell_dec (a b : mcell) : {a = b} + {a <> b}. Proof. decide equality. apply Nat.eq_dec. Defined.
Record mem := mkMem { vecs : cell -> vec; mats : mcell -> mat }.
(** assignment of a whole vector or matrix; ublas evaluates the right side into a temporary first *)
Definition put (c : cell) (v : vec) (m : mem) : mem := mkMem (fun d => if cell_dec c d then v else vecs m d) (mats m).
Definition mput (c : mcell) (A : mat) (m : mem) : mem := mkMem (vecs m) (fun d => if mcell_dec c d then A else mats m d).
(** assignments to one element *)
Definition put_x (c : cell) (x : R) (m : mem) : mem := put c (V3 x (vy (vecs m c)) (vz (vecs m c))) m.
Definition put_y (c : cell) (y : R) (m : mem) : mem := put c (V3 (vx (vecs m c)) y (vz (vecs m c))) m.
Definition put_z (c : cell) (z : R) (m : mem) : mem := put c (V3 (vx (vecs m c)) (vy (vecs m c)) z) m.

(** R3linalg.hpp:201-209 floor *)
Definition floorv (v : cell) (m : mem) : mem :=
  let m := put_x SFloor (IZR (Rfloor (vx (vecs m v)))) m in
  let m := put_y SFloor (IZR (Rfloor (vy (vecs m v)))) m in
  put_z SFloor (IZR (Rfloor (vz (vecs m v)))) m.
(** R3linalg.hpp:249-257 mxvecproduct(M, u) *)
Definition mxvec (M : mcell) (u : cell) (m : mem) : mem :=
  let A := mats m M in
  let m := put_x SMxVec (x00 A * vx (vecs m u) + x01 A * vy (vecs m u) + x02 A * vz (vecs m u)) m in
  let m := put_y SMxVec (x10 A * vx (vecs m u) + x11 A * vy (vecs m u) + x12 A * vz (vecs m u)) m in
  put_z SMxVec (x20 A * vx (vecs m u) + x21 A * vy (vecs m u) + x22 A * vz (vecs m u)) m.
(** R3linalg.hpp:260-268 mxvecproduct(u, M); the matrix is not one of the cells that are assigned *)
Definition vecmx (u : cell) (A : mat) (m : mem) : mem :=
  let m := put_x SVecMx (vx (vecs m u) * x00 A + vy (vecs m u) * x10 A + vz (vecs m u) * x20 A) m in
  let m := put_y SVecMx (vx (vecs m u) * x01 A + vy (vecs m u) * x11 A + vz (vecs m u) * x21 A) m in
  put_z SVecMx (vx (vecs m u) * x02 A + vy (vecs m u) * x12 A + vz (vecs m u) * x22 A) m.
(** Lattice.cpp:187-192 cartesian *)
Definition cartesian_ref (L : lattice) (lv : cell) (m : mem) : mem := let m := vecmx lv (base L) m in put SCart (vecs m SVecMx) m.
(** Lattice.cpp:194-199 fractional *)
Definition fractional_ref (L : lattice) (cv : cell) (m : mem) : mem := let m := vecmx cv (recbase L) m in put SFrac (vecs m SVecMx) m.
(** Lattice.cpp:208-217 ucvFractional *)
Definition ucvFractional_ref (lv : cell) (m : mem) : mem :=
  let m := floorv lv m in
  let m := put SUcvFrac (vsub (vecs m lv) (vecs m SFloor)) m in
  let m := if eps_eq (vx (vecs m SUcvFrac)) 1 SQRT_DOUBLE_EPS then put_x SUcvFrac 0 m else m in
  let m := if eps_eq (vy (vecs m SUcvFrac)) 1 SQRT_DOUBLE_EPS then put_y SUcvFrac 0 m else m in
  if eps_eq (vz (vecs m SUcvFrac)) 1 SQRT_DOUBLE_EPS then put_z SUcvFrac 0 m else m.
(** Lattice.cpp:201-206 ucvCartesian *)
Definition ucvCartesian_ref (L : lattice) (cv : cell) (m : mem) : mem :=
  let m := cartesian_ref L SUcvFrac (ucvFractional_ref SFrac (fractional_ref L cv m)) in
  put SUcvCart (vecs m SCart) m.
(** Lattice.hpp:517-525 and the three templates below: a vector of another type is copied, element by element *)
Definition copied (c : cell) (v : vec) (m : mem) : mem := put_z c (vz v) (put_y c (vy v) (put_x c (vx v) m)).
(** Lattice.cpp:219-233 cartesianMatrix, fractionalMatrix *)
Definition cartesianMatrix_ref (L : lattice) (Ml : mcell) (m : mem) : mem :=
  let m := mput SCart0 (mm (mats m Ml) (normbase L)) m in mput SCart1 (mm (tr (normbase L)) (mats m SCart0)) m.
Definition fractionalMatrix_ref (L : lattice) (Mc : mcell) (m : mem) : mem :=
  let m := mput SFrac0 (mm (mats m Mc) (recnormbase L)) m in mput SFrac1 (mm (tr (recnormbase L)) (mats m SFrac0)) m.
(** R3linalg.cpp:62-82 inverse: the argument is copied before the static matrix is assigned *)
Definition inverse_ref (A : mcell) (m : mem) : option mem := option_map (fun B => mput SInverse B m) (LU_invert (LU_decomp (mats m A))).

(** *** calls *)
Inductive call :=
| CFloor (v : cell) | CMxVec (M : mcell) (u : cell) | CVecMx (u : cell) (M : mcell)
| CCartesian (L : lattice) (v : cell) | CFractional (L : lattice) (v : cell) | CUcvCartesian (L : lattice) (v : cell) | CUcvFractional (v : cell)
| CCartesianOf (L : lattice) (v : vec) | CFractionalOf (L : lattice) (v : vec) | CUcvCartesianOf (L : lattice) (v : vec) | CUcvFractionalOf (v : vec)
| CInverse (A : mcell) | CCartesianMatrix (L : lattice) (A : mcell) | CFractionalMatrix (L : lattice) (A : mcell)
| CCopy (n : nat) (v : cell) | CMCopy (n : nat) (A : mcell).  (* a variable of the caller is assigned *)
Definition exec (c : call) (m : mem) : option mem :=
  match c with
  | CFloor v => Some (floorv v m)
  | CMxVec M u => Some (mxvec M u m)
  | CVecMx u M => Some (vecmx u (mats m M) m)
  | CCartesian L v => Some (cartesian_ref L v m)
  | CFractional L v => Some (fractional_ref L v m)
  | CUcvCartesian L v => Some (ucvCartesian_ref L v m)
  | CUcvFractional v => Some (ucvFractional_ref v m)
  | CCartesianOf L v => Some (cartesian_ref L SCopyCart (copied SCopyCart v m))
  | CFractionalOf L v => Some (fractional_ref L SCopyFrac (copied SCopyFrac v m))
  | CUcvCartesianOf L v => Some (ucvCartesian_ref L SCopyUcvCart (copied SCopyUcvCart v m))
  | CUcvFractionalOf v => Some (ucvFractional_ref SCopyUcvFrac (copied SCopyUcvFrac v m))
  | CInverse A => inverse_ref A m
  | CCartesianMatrix L A => Some (cartesianMatrix_ref L A m)
  | CFractionalMatrix L A => Some (fractionalMatrix_ref L A m)
  | CCopy n v => Some (put (Var n) (vecs m v) m)
  | CMCopy n A => Some (mput (MVar n) (mats m A) m)
  end.
Fixpoint run (h : list call) (m : mem) : option mem :=
  match h with [] => Some m | c :: h => match exec c m with Some m => run h m | None => None end end.
(** static variables are zero when the process starts *)
Definition start (m : mem) : Prop := forall c, match c with Var _ => True | _ => vecs m c = vzero end.

(** *** setLatBase with references to the members of the same lattice *)
(** an argument: va(), vb() or vc() of this lattice (Lattice.hpp:304-323), or a vector elsewhere *)
Inductive barg := OwnA | OwnB | OwnC | Other (v : vec).
Definition read (a b c : vec) (x : barg) : vec := match x with OwnA => a | OwnB => b | OwnC => c | Other v => v end.
(** Lattice.cpp:104-167: the rows of the base are read first, the members are assigned one after the other (121-123), and the scalars
    are calculated from the members (124-129) *)
Definition setLatBase_ref (L : lattice) (xa xb xc : barg) : outcome lattice :=
  let B := rows (read (Lva L) (Lvb L) (Lvc L) xa) (read (Lva L) (Lvb L) (Lvc L) xb) (read (Lva L) (Lvb L) (Lvc L) xc) in
  let d := determinant B in
  if Rltb (Rabs d) (/ 100000000) then Throw InvalidArgument (with_base L B)
  else if Rltb d 0 then Throw InvalidArgument (with_base L B)
  else
    let va := read (Lva L) (Lvb L) (Lvc L) xa in
    let vb := read va (Lvb L) (Lvc L) xb in
    let vc := read va vb (Lvc L) xc in
    let a := vnorm va in let b := vnorm vb in let c := vnorm vc in
    let cosa := vdot vb vc / (b * c) in
    let cosb := vdot va vc / (a * c) in
    let cosg := vdot va vb / (a * b) in
    let p := mklatpar a b c cosa cosb cosg (sqrt (1 - cosa * cosa)) (sqrt (1 - cosb * cosb)) (sqrt (1 - cosg * cosg)) in
    let S := mk_stdbase p in
    match LU_invert (LU_decomp S), LU_invert (LU_decomp B) with
    | Some Si, Some Bi =>
      Ok {| sc := p; alpha := acosd cosa; beta := acosd cosb; gamma := acosd cosg;
            alphar := acosd (car p); betar := acosd (cbr p); gammar := acosd (cgr p);
            Lva := va; Lvb := vb; Lvc := vc; Lvar := col0 Bi; Lvbr := col1 Bi; Lvcr := col2 Bi;
            metrics := mk_metrics p; base := B; stdbase := S; baserot := mm Si B; recbase := Bi;
            normbase := mk_normbase p B; recnormbase := mk_recnormbase p Bi |}
    | _, _ => UB
    end.

(** *** the symmetry expansion with memory *)
(** PeriodicStructureAdapter.cpp:92-105: the position of the atom is a variable that is also the argument *)
Definition toCartesian_ref (L : lattice) (a : catom) (m : mem) : mem * catom :=
  let m := cartesian_ref L (Var 0) (put (Var 0) (c_xyz a) m) in
  let x := vecs m SCart in
  let m := cartesianMatrix_ref L (MVar 0) (mput (MVar 0) (c_uij a) m) in
  (m, mkCA x (mats m SCart1) (c_type a) (c_occ a) (c_anis a)).
Definition toFractional_ref (L : lattice) (a : catom) (m : mem) : mem * catom :=
  let m := fractional_ref L (Var 0) (put (Var 0) (c_xyz a) m) in
  let x := vecs m SFrac in
  let m := fractionalMatrix_ref L (MVar 0) (mput (MVar 0) (c_uij a) m) in
  (m, mkCA x (mats m SFrac1) (c_type a) (c_occ a) (c_anis a)).
(** CrystalStructureAdapter.cpp:166-187 one turn of the loop: a0.xyz_cartn is variable 0, a1.xyz_cartn variable 1, op->R matrix variable 1 *)
Definition expand_step_ref (L : lattice) (symeps : R) (a0 : catom) (s : mem * eqstate) (o : symop) : mem * eqstate :=
  let '(m, st) := s in
  let m := mxvec (MVar 1) (Var 0) (put (Var 0) (c_xyz a0) (mput (MVar 1) (op_R o) m)) in
  let m := put (Var 1) (vecs m SMxVec) m in
  let m := put (Var 1) (vadd (vecs m (Var 1)) (op_t o)) m in
  let x := vecs m (Var 1) in
  let '(st1, ieq) := match findEqualPosition L symeps (eqsites st) x with
    | Some k => (st, k)
    | None =>
        let utmp := mm (c_uij a0) (tr (op_R o)) in
        let a1 := mkCA x (mm (op_R o) utmp) (c_type a0) (c_occ a0) (c_anis a0) in
        (mkEq (eqsites st ++ [a1]) (eqsumpos st ++ [vzero]) (eqduplicity st ++ [O]), length (eqsites st))
    end in
  let m := ucvFractional_ref (Var 1) m in
  (m, mkEq (eqsites st1)
       (upd ieq (vadd (nth ieq (eqsumpos st1) vzero) (vecs m SUcvFrac)) (eqsumpos st1))
       (upd ieq (nth ieq (eqduplicity st1) O + 1)%nat (eqduplicity st1))).
Definition expandLatticeAtom_ref (L : lattice) (ops : list symop) (symeps : R) (a0 : catom) (m : mem) : mem * list catom :=
  let '(m, st) := fold_left (expand_step_ref L symeps a0) ops (m, mkEq [] [] []) in
  let st' := match ops with [] => mkEq [a0] [c_xyz a0] [1%nat] | _ => st end in
  (m, mean_sites (eqsites st') (eqsumpos st') (eqduplicity st')).
(** a call for every element of a container, one after the other *)
Fixpoint each {A B} (f : A -> mem -> mem * B) (l : list A) (m : mem) : mem * list B :=
  match l with [] => (m, []) | a :: l => let '(m, b) := f a m in let '(m, r) := each f l m in (m, b :: r) end.
(** CrystalStructureAdapter.cpp:211-230 updateSymmetryPositions: the equivalent atoms of all atoms *)
Definition updateSymmetryPositions_ref (L : lattice) (ops : list symop) (symeps : R) (atoms : list catom) (m : mem) : mem * list (list catom) :=
  let '(m, lcatoms) := each (toFractional_ref L) atoms m in
  each (fun a m => let '(m, l) := expandLatticeAtom_ref L ops symeps a m in each (toCartesian_ref L) l m) lcatoms m.
(** PeriodicStructureAdapter.cpp:143-150: the positions in the unit cell *)
Definition positions_uc_ref (L : lattice) (atoms : list catom) (m : mem) : mem * list vec :=
  each (fun a m => let m := ucvCartesian_ref L (Var 0) (put (Var 0) (c_xyz a) m) in (m, vecs m SUcvCart)) atoms m.
