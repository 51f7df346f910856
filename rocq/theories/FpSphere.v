(** PointsInSphere in double arithmetic: every operation on doubles rounds its exact result (Fp.v), an int is exact as a double, ceil and floor
    are exact; overflow, of doubles and of int, is left out. Source: src/diffpy/srreal/PointsInSphere.cpp, PointsInSphere.hpp. *)
From Flocq Require Import Core.
From Verif Require Import RBase Fp.
Import ListNotations.
Open Scope R_scope.

(** PointsInSphere.hpp:61-86 LatticeParameters, the members that init() and the loops use *)
Record fp_latpar := { f_b : R; f_c : R; f_ca : R; f_sa : R; f_ar : R; f_br : R; f_cr : R; f_cbr : R; f_cgr : R }.
(** PointsInSphere.cpp:44-61 update(), given what cosd and sind return for the three angles *)
Definition fp_vunit (ca cb cg : R) : R :=
  rnd (sqrt (rnd (rnd (rnd (rnd (1 + rnd (rnd (2 * ca * cb) * cg)) - rnd (ca * ca)) - rnd (cb * cb)) - rnd (cg * cg)))).
Definition fp_update (a b c ca cb cg sa sb sg : R) : fp_latpar :=
  let V := fp_vunit ca cb cg in
  {| f_b := b; f_c := c; f_ca := ca; f_sa := sa;
     f_ar := rnd (sa / rnd (a * V)); f_br := rnd (sb / rnd (b * V)); f_cr := rnd (sg / rnd (c * V));
     f_cbr := rnd (rnd (rnd (ca * cg) - cb) / rnd (sa * sg)); f_cgr := rnd (rnd (rnd (ca * cb) - cg) / rnd (sa * sb)) |}.

(** PointsInSphere.hpp:118-129: ar and the constants that init() computes *)
Record fp_par := { ar : R; dn0dm : R; do0dm : R; b2r : R; do0dn : R; c1r : R }.
(** PointsInSphere.cpp:257-270 init() *)
Definition fp_init (L : fp_latpar) : fp_par :=
  let b2 := rnd (1 / rnd (f_b L * f_sa L)) in
  {| ar := f_ar L; dn0dm := rnd (rnd (f_cgr L * f_br L) / f_ar L); do0dm := rnd (rnd (f_cbr L * f_cr L) / f_ar L);
     b2r := b2; do0dn := rnd (rnd (- f_ca L * rnd (1 / rnd (f_c L * f_sa L))) / b2); c1r := rnd (1 / f_c L) |}.

Section Sphere.
  Context (Rmin Rmax : R) (L : fp_par).
  (** PointsInSphere.cpp:259-260 *)
  Definition RminSquare : R := if Rltb Rmin 0 then - rnd (Rmin * Rmin) else rnd (Rmin * Rmin).
  Definition RmaxSquare : R := if Rltb Rmax 0 then - rnd (Rmax * Rmax) else rnd (Rmax * Rmax).
  (** pow(x, 2): the compiler multiplies (PointsInSphere.cpp:200, 218) *)
  Definition fp_sq (x : R) : R := rnd (x * x).
  (** sqrt(x)*scale where it is used, PointsInSphere.cpp:201, 219, 222 *)
  Definition fp_half (x scale : R) : R := if Rltb 0 x then rnd (rnd (sqrt x) * scale) else 0.

  (** PointsInSphere.hpp:118-141, the loop variables *)
  Record sph := {
    m : Z; n : Z; o : Z; hi_m : Z; hi_n : Z; hi_o : Z; outside_o : Z;
    n0plane : R; o0plane : R; o0line : R; RplaneSquare : R; oExclHalfSpan : R
  }.
  (** PointsInSphere.cpp:137-140 finished() *)
  Definition finished (s : sph) : bool := negb (m s <? hi_m s)%Z.

  (** PointsInSphere.cpp:190-204 next_m *)
  Definition next_m (s : sph) : sph :=
    let m' := (m s + 1)%Z in
    if negb (m' <? hi_m s)%Z then
      {| m := m'; n := n s; o := o s; hi_m := hi_m s; hi_n := hi_n s; hi_o := hi_o s; outside_o := outside_o s;
         n0plane := n0plane s; o0plane := o0plane s; o0line := o0line s; RplaneSquare := RplaneSquare s;
         oExclHalfSpan := oExclHalfSpan s |}
    else
      let n0 := rnd (IZR m' * dn0dm L) in
      let o0 := rnd (IZR m' * do0dm L) in
      let Rp := rnd (RmaxSquare - fp_sq (rnd (IZR m' / ar L))) in
      let nHalfSpan := fp_half Rp (b2r L) in
      {| m := m'; n := Rfloor (rnd (n0 - nHalfSpan)); o := o s; hi_m := hi_m s; hi_n := Rceil (rnd (n0 + nHalfSpan));
         hi_o := hi_o s; outside_o := outside_o s; n0plane := n0; o0plane := o0; o0line := o0line s;
         RplaneSquare := Rp; oExclHalfSpan := oExclHalfSpan s |}.

  (** PointsInSphere.cpp:211-229, the branch for a new line [n' < hi_n] *)
  Definition start_line (s : sph) (n' : Z) : sph :=
    let o0 := rnd (o0plane s + rnd (rnd (IZR n' - n0plane s) * do0dn L)) in
    let Rl := rnd (RplaneSquare s - fp_sq (rnd (rnd (IZR n' - n0plane s) / b2r L))) in
    let oHalfSpan := fp_half Rl (c1r L) in
    let RExcl := rnd (rnd (Rl - RmaxSquare) + RminSquare) in
    let excl := fp_half RExcl (c1r L) in
    let outside := Rceil (rnd (o0 + oHalfSpan)) in
    let hole := Rceil (rnd (o0 - excl)) in
    let hi := if Reqb excl 0 then outside
              else if Rltb (Rabs (rnd (IZR hole - o0))) excl then hole else outside in
    {| m := m s; n := n'; o := Rfloor (rnd (o0 - oHalfSpan)); hi_m := hi_m s; hi_n := hi_n s; hi_o := hi;
       outside_o := outside; n0plane := n0plane s; o0plane := o0plane s; o0line := o0;
       RplaneSquare := RplaneSquare s; oExclHalfSpan := excl |}.

  Definition set_n (s : sph) (n' : Z) : sph :=
    {| m := m s; n := n'; o := o s; hi_m := hi_m s; hi_n := hi_n s; hi_o := hi_o s; outside_o := outside_o s;
       n0plane := n0plane s; o0plane := o0plane s; o0line := o0line s; RplaneSquare := RplaneSquare s;
       oExclHalfSpan := oExclHalfSpan s |}.
  Definition set_o (s : sph) (o' hi : Z) : sph :=
    {| m := m s; n := n s; o := o'; hi_m := hi_m s; hi_n := hi_n s; hi_o := hi; outside_o := outside_o s;
       n0plane := n0plane s; o0plane := o0plane s; o0line := o0line s; RplaneSquare := RplaneSquare s;
       oExclHalfSpan := oExclHalfSpan s |}.

  (** PointsInSphere.cpp:207-233 next_n, a do-while loop: [None] when [fuel] iterations are not enough. *)
  Fixpoint next_n (fuel : nat) (s : sph) : option sph :=
    match fuel with
    | O => None
    | S f =>
        let n' := (n s + 1)%Z in
        if (n' <? hi_n s)%Z then Some (start_line s n')
        else let s' := next_m (set_n s n') in
             if finished s' then Some s' else next_n f s'
    end.

  (** PointsInSphere.cpp:236-254 next_o *)
  Fixpoint next_o (fuel : nat) (s : sph) : option sph :=
    match fuel with
    | O => None
    | S f =>
        let o' := (o s + 1)%Z in
        if (o' <? hi_o s)%Z then Some (set_o s o' (hi_o s))
        else if negb (hi_o s =? outside_o s)%Z then
          let s' := set_o s (Rceil (rnd (o0line s + oExclHalfSpan s)) - 1) (outside_o s) in
          if finished s' then Some s' else next_o f s'
        else match next_n fuel (set_o s o' (hi_o s)) with
             | None => None
             | Some s' => if finished s' then Some s' else next_o f s'
             end
    end.

  (** PointsInSphere.cpp:115-128 rewind() *)
  Definition rewind (fuel : nat) : option sph :=
    let h := Rceil (rnd (Rmax * ar L)) in
    next_o fuel {| m := - h; n := 0; o := 0; hi_m := h; hi_n := 0; hi_o := 0; outside_o := 0;
                   n0plane := 0; o0plane := 0; o0line := 0; RplaneSquare := 0; oExclHalfSpan := 0 |}.

  (** for (; !sph.finished(); sph.next()) collecting mno() *)
  Fixpoint collect (fuel : nat) (s : sph) : option (list (Z * Z * Z)) :=
    match fuel with
    | O => None
    | S f =>
        if finished s then Some []
        else match next_o fuel s with
             | None => None
             | Some s' => match collect f s' with None => None | Some l => Some ((m s, n s, o s) :: l) end
             end
    end.
  (** The points visited by "for (sph.rewind(); !sph.finished(); sph.next())". *)
  Definition points (fuel : nat) : option (list (Z * Z * Z)) :=
    match rewind fuel with None => None | Some s => collect fuel s end.

End Sphere.
