(** Model of class Lattice. Source: src/diffpy/srreal/Lattice.cpp, Lattice.hpp. *)
From Verif Require Import RBase R3 Trig Sphere.
Open Scope R_scope.

(** Lattice.hpp:143-170. The scalars a, b, c, their cosines and sines and the reciprocal ones are grouped in the
    record [latpar] of Sphere.v: setLatPar and setLatBase compute them with the formulas of LatticeParameters::update. *)
Record lattice := {
  sc : latpar;
  alpha : R; beta : R; gamma : R; alphar : R; betar : R; gammar : R;
  Lva : vec; Lvb : vec; Lvc : vec; Lvar : vec; Lvbr : vec; Lvcr : vec;
  metrics : mat; base : mat; stdbase : mat; baserot : mat; recbase : mat; normbase : mat; recnormbase : mat
}.

(** Lattice.cpp:285-293 updateMetrics *)
Definition mk_metrics (p : latpar) : mat :=
  let g01 := la p * lb p * cg p in let g02 := la p * lc p * cb p in let g12 := lb p * lc p * ca p in
  M3 (la p * la p) g01 g02 g01 (lb p * lb p) g12 g02 g12 (lc p * lc p).
(** Lattice.cpp:295-309 updateStandardBase *)
Definition mk_stdbase (p : latpar) : mat :=
  M3 (1 / ar p) (- cgr p / sgr p / ar p) (cb p * la p)
     0 (lb p * sa p) (lb p * ca p)
     0 0 (lc p).
(** Lattice.cpp:93-95 and 160-162: rows of base times the reciprocal lengths *)
Definition mk_normbase (p : latpar) (B : mat) : mat :=
  rows (vscale (ar p) (row0 B)) (vscale (br p) (row1 B)) (vscale (cr p) (row2 B)).
(** Lattice.cpp:96-98 and 163-165: columns of recbase over the reciprocal lengths *)
Definition mk_recnormbase (p : latpar) (Bi : mat) : mat :=
  cols (vscale (/ ar p) (col0 Bi)) (vscale (/ br p) (col1 Bi)) (vscale (/ cr p) (col2 Bi)).

(** Lattice.cpp:50-99 setLatPar *)
Definition setLatPar (L : lattice) (a b c al be ga : R) : lattice :=
  let p := mklatpar a b c (cosd al) (cosd be) (cosd ga) (sind al) (sind be) (sind ga) in
  let S := mk_stdbase p in
  let B := mm S (baserot L) in
  let Bi := minv B in
  {| sc := p; alpha := al; beta := be; gamma := ga;
     alphar := acosd (car p); betar := acosd (cbr p); gammar := acosd (cgr p);
     Lva := row0 B; Lvb := row1 B; Lvc := row2 B; Lvar := col0 Bi; Lvbr := col1 Bi; Lvcr := col2 Bi;
     metrics := mk_metrics p; base := B; stdbase := S; baserot := baserot L; recbase := Bi;
     normbase := mk_normbase p B; recnormbase := mk_recnormbase p Bi |}.

(** only mbase replaced: the state left by a setLatBase that throws *)
Definition with_base (L : lattice) (B : mat) : lattice :=
  {| sc := sc L; alpha := alpha L; beta := beta L; gamma := gamma L; alphar := alphar L; betar := betar L; gammar := gammar L;
     Lva := Lva L; Lvb := Lvb L; Lvc := Lvc L; Lvar := Lvar L; Lvbr := Lvbr L; Lvcr := Lvcr L;
     metrics := metrics L; base := B; stdbase := stdbase L; baserot := baserot L; recbase := recbase L;
     normbase := normbase L; recnormbase := recnormbase L |}.

(** Lattice.cpp:104-167 setLatBase: the rows of mbase are assigned before the checks. *)
Definition setLatBase (L : lattice) (va vb vc : vec) : outcome lattice :=
  let B := rows va vb vc in
  let d := det B in
  if Rltb (Rabs d) (/ 100000000) then Throw InvalidArgument (with_base L B)
  else if Rltb d 0 then Throw InvalidArgument (with_base L B)
  else
    let a := vnorm va in let b := vnorm vb in let c := vnorm vc in
    let cosa := vdot vb vc / (b * c) in
    let cosb := vdot va vc / (a * c) in
    let cosg := vdot va vb / (a * b) in
    let p := mklatpar a b c cosa cosb cosg (sqrt (1 - cosa * cosa)) (sqrt (1 - cosb * cosb)) (sqrt (1 - cosg * cosg)) in
    let S := mk_stdbase p in
    let Bi := minv B in
    Ok {| sc := p; alpha := acosd cosa; beta := acosd cosb; gamma := acosd cosg;
          alphar := acosd (car p); betar := acosd (cbr p); gammar := acosd (cgr p);
          Lva := va; Lvb := vb; Lvc := vc; Lvar := col0 Bi; Lvbr := col1 Bi; Lvcr := col2 Bi;
          metrics := mk_metrics p; base := B; stdbase := S; baserot := mm (minv S) B; recbase := Bi;
          normbase := mk_normbase p B; recnormbase := mk_recnormbase p Bi |}.

(** Lattice.cpp:34-38 Lattice(): baserot = identity, then setLatPar(1,1,1,90,90,90). The other members are
    uninitialized before setLatPar and overwritten by it; [blank] stands for that memory. *)
Definition blank : lattice :=
  {| sc := mklatpar 1 1 1 0 0 0 1 1 1; alpha := 0; beta := 0; gamma := 0; alphar := 0; betar := 0; gammar := 0;
     Lva := vzero; Lvb := vzero; Lvc := vzero; Lvar := vzero; Lvbr := vzero; Lvcr := vzero;
     metrics := mid; base := mid; stdbase := mid; baserot := mid; recbase := mid; normbase := mid; recnormbase := mid |}.
Definition lattice0 : lattice := setLatPar blank 1 1 1 90 90 90.

(** Lattice.cpp:171-184 volume *)
Definition volume (L : lattice) : R := Vunit (ca (sc L)) (cb (sc L)) (cg (sc L)) * la (sc L) * lb (sc L) * lc (sc L).
(** Lattice.cpp:187-199 cartesian, fractional *)
Definition cartesian (L : lattice) (u : vec) : vec := vm u (base L).
Definition fractional (L : lattice) (u : vec) : vec := vm u (recbase L).
(** Lattice.cpp:208-217 ucvFractional *)
Definition snap (x : R) : R := let y := x - IZR (Rfloor x) in if eps_eq y 1 SQRT_DOUBLE_EPS then 0 else y.
Definition ucvFractional (u : vec) : vec := V3 (snap (vx u)) (snap (vy u)) (snap (vz u)).
(** Lattice.cpp:201-206 ucvCartesian *)
Definition ucvCartesian (L : lattice) (u : vec) : vec := cartesian L (ucvFractional (fractional L u)).
(** Lattice.cpp:219-233 cartesianMatrix, fractionalMatrix *)
Definition cartesianMatrix (L : lattice) (M : mat) : mat := mm (tr (normbase L)) (mm M (normbase L)).
Definition fractionalMatrix (L : lattice) (M : mat) : mat := mm (tr (recnormbase L)) (mm M (recnormbase L)).
(** Lattice.hpp:467-497 dot, norm, distance *)
Definition ldot (L : lattice) (u v : vec) : R :=
  let M := metrics L in
  vx u * vx v * x00 M + vy u * vy v * x11 M + vz u * vz v * x22 M + (vx u * vy v + vy u * vx v) * x01 M
  + (vx u * vz v + vz u * vx v) * x02 M + (vz u * vy v + vy u * vz v) * x12 M.
Definition lnorm (L : lattice) (u : vec) : R := sqrt (ldot L u u).
Definition ldist (L : lattice) (u v : vec) : R := lnorm L (vsub u v).
(** Lattice.hpp:500-514 anglerad, angledeg *)
Definition anglerad (L : lattice) (u v : vec) : R := acos (ldot L u v / (lnorm L u * lnorm L v)).
Definition angledeg (L : lattice) (u v : vec) : R := acosd (ldot L u v / (lnorm L u * lnorm L v)).

(** Lattice.cpp:236-268 ucMaxDiagonal, ucMaxDiagonalLength *)
Definition diagonals : list vec := [V3 1 1 1; V3 (-1) 1 1; V3 1 (-1) 1; V3 1 1 (-1)].
Definition ucMaxDiagonal (L : lattice) : vec :=
  snd (fold_left (fun (acc : R * vec) v => if Rltb (fst acc) (lnorm L v) then (lnorm L v, v) else acc) diagonals (-1, vzero)).
Definition ucMaxDiagonalLength (L : lattice) : R := lnorm L (ucMaxDiagonal L).

(** PointsInSphere.hpp:221-229: the LatticeParameters made from a Lattice object, through its angles in degrees *)
Definition latpar_of (L : lattice) : latpar :=
  mklatpar (la (sc L)) (lb (sc L)) (lc (sc L)) (cosd (alpha L)) (cosd (beta L)) (cosd (gamma L))
           (sind (alpha L)) (sind (beta L)) (sind (gamma L)).

(** calls that modify a lattice *)
Inductive lat_op := SetPar (a b c al be ga : R) | SetBase (va vb vc : vec).
Definition lat_step (L : lattice) (o : lat_op) : lattice :=
  match o with
  | SetPar a b c al be ga => setLatPar L a b c al be ga
  | SetBase va vb vc => match setLatBase L va vb vc with Ok L' => L' | Throw _ L' => L' | UB => L end
  end.
Definition lat_run (ops : list lat_op) : lattice := fold_left lat_step ops lattice0.
