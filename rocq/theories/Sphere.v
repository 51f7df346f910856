(** Model of PointsInSphere and ReflectionsInQminQmax.
    Source: src/diffpy/srreal/PointsInSphere.cpp, PointsInSphere.hpp. *)
From Verif Require Import RBase.
Open Scope R_scope.

(** PointsInSphere.hpp:61-86 LatticeParameters: lengths, cosines and sines; the angles themselves are only
    used to compute these (cosd, sind: Trig.v) and are not repeated. *)
Record latpar := {
  la : R; lb : R; lc : R;
  ca : R; cb : R; cg : R; sa : R; sb : R; sg : R;
  ar : R; br : R; cr : R;
  car : R; cbr : R; cgr : R; sar : R; sbr : R; sgr : R
}.

(** PointsInSphere.cpp:44-61 update(), given the cosines and sines of the angles. *)
Definition Vunit (ca cb cg : R) : R := sqrt (1 + 2 * ca * cb * cg - ca * ca - cb * cb - cg * cg).
Definition mklatpar (a b c ca cb cg sa sb sg : R) : latpar :=
  let V := Vunit ca cb cg in
  let car := (cb * cg - ca) / (sb * sg) in
  let cbr := (ca * cg - cb) / (sa * sg) in
  let cgr := (ca * cb - cg) / (sa * sb) in
  {| la := a; lb := b; lc := c; ca := ca; cb := cb; cg := cg; sa := sa; sb := sb; sg := sg;
     ar := sa / (a * V); br := sb / (b * V); cr := sg / (c * V);
     car := car; cbr := cbr; cgr := cgr;
     sar := sqrt (1 - car * car); sbr := sqrt (1 - cbr * cbr); sgr := sqrt (1 - cgr * cgr) |}.

(** PointsInSphere.cpp:64-81 reciprocal() *)
Definition reciprocal (L : latpar) : latpar :=
  {| la := ar L; lb := br L; lc := cr L; ca := car L; cb := cbr L; cg := cgr L;
     sa := sar L; sb := sbr L; sg := sgr L;
     ar := la L; br := lb L; cr := lc L; car := ca L; cbr := cb L; cgr := cg L;
     sar := sa L; sbr := sb L; sgr := sg L |}.

Section Sphere.
  Context (Rmin Rmax : R) (L : latpar).

  (** PointsInSphere.cpp:257-270 init() *)
  Definition RminSquare : R := if Rltb Rmin 0 then - (Rmin * Rmin) else Rmin * Rmin.
  Definition RmaxSquare : R := if Rltb Rmax 0 then - (Rmax * Rmax) else Rmax * Rmax.
  Definition dn0dm : R := cgr L * br L / ar L.
  Definition do0dm : R := cbr L * cr L / ar L.
  Definition b2r : R := 1 / (lb L * sa L).
  Definition c2r : R := 1 / (lc L * sa L).
  Definition ca2r : R := - ca L.
  Definition do0dn : R := ca2r * c2r / b2r.
  Definition c1r : R := 1 / lc L.

  (** PointsInSphere.hpp:118-141, the loop variables *)
  Record sph := {
    m : Z; n : Z; o : Z; hi_m : Z; hi_n : Z; hi_o : Z; outside_o : Z;
    n0plane : R; o0plane : R; o0line : R; RplaneSquare : R; oExclHalfSpan : R
  }.
  (** PointsInSphere.cpp:137-140 finished() *)
  Definition finished (s : sph) : bool := negb (m s <? hi_m s)%Z.

  (** PointsInSphere.cpp:190-204 next_m *)
  Definition next_m (s : sph) : sph :=
    let m' := (m s + 1)%Z in
    if negb (m' <? hi_m s)%Z then
      {| m := m'; n := n s; o := o s; hi_m := hi_m s; hi_n := hi_n s; hi_o := hi_o s; outside_o := outside_o s;
         n0plane := n0plane s; o0plane := o0plane s; o0line := o0line s; RplaneSquare := RplaneSquare s;
         oExclHalfSpan := oExclHalfSpan s |}
    else
      let n0 := IZR m' * dn0dm in
      let o0 := IZR m' * do0dm in
      let Rp := RmaxSquare - (IZR m' / ar L) ^ 2 in
      let nHalfSpan := if Rltb 0 Rp then sqrt Rp * b2r else 0 in
      {| m := m'; n := Rfloor (n0 - nHalfSpan); o := o s; hi_m := hi_m s; hi_n := Rceil (n0 + nHalfSpan);
         hi_o := hi_o s; outside_o := outside_o s; n0plane := n0; o0plane := o0; o0line := o0line s;
         RplaneSquare := Rp; oExclHalfSpan := oExclHalfSpan s |}.

  (** PointsInSphere.cpp:211-229, the branch for a new line [n' < hi_n] *)
  Definition start_line (s : sph) (n' : Z) : sph :=
    let o0 := o0plane s + (IZR n' - n0plane s) * do0dn in
    let Rl := RplaneSquare s - ((IZR n' - n0plane s) / b2r) ^ 2 in
    let oHalfSpan := if Rltb 0 Rl then sqrt Rl * c1r else 0 in
    let RExcl := (Rl - RmaxSquare) + RminSquare in
    let excl := if Rltb 0 RExcl then sqrt RExcl * c1r else 0 in
    let outside := Rceil (o0 + oHalfSpan) in
    let hole := Rceil (o0 - excl) in
    let hi := if Reqb excl 0 then outside
              else if Rltb (Rabs (IZR hole - o0)) excl then hole else outside in
    {| m := m s; n := n'; o := Rfloor (o0 - oHalfSpan); hi_m := hi_m s; hi_n := hi_n s; hi_o := hi;
       outside_o := outside; n0plane := n0plane s; o0plane := o0plane s; o0line := o0;
       RplaneSquare := RplaneSquare s; oExclHalfSpan := excl |}.

  Definition set_n (s : sph) (n' : Z) : sph :=
    {| m := m s; n := n'; o := o s; hi_m := hi_m s; hi_n := hi_n s; hi_o := hi_o s; outside_o := outside_o s;
       n0plane := n0plane s; o0plane := o0plane s; o0line := o0line s; RplaneSquare := RplaneSquare s;
       oExclHalfSpan := oExclHalfSpan s |}.
  Definition set_o (s : sph) (o' hi : Z) : sph :=
    {| m := m s; n := n s; o := o'; hi_m := hi_m s; hi_n := hi_n s; hi_o := hi; outside_o := outside_o s;
       n0plane := n0plane s; o0plane := o0plane s; o0line := o0line s; RplaneSquare := RplaneSquare s;
       oExclHalfSpan := oExclHalfSpan s |}.

  (** PointsInSphere.cpp:207-233 next_n, a do-while loop: [None] when [fuel] iterations are not enough. *)
  Fixpoint next_n (fuel : nat) (s : sph) : option sph :=
    match fuel with
    | O => None
    | S f =>
        let n' := (n s + 1)%Z in
        if (n' <? hi_n s)%Z then Some (start_line s n')
        else let s' := next_m (set_n s n') in
             if finished s' then Some s' else next_n f s'
    end.

  (** PointsInSphere.cpp:236-254 next_o *)
  Fixpoint next_o (fuel : nat) (s : sph) : option sph :=
    match fuel with
    | O => None
    | S f =>
        let o' := (o s + 1)%Z in
        if (o' <? hi_o s)%Z then Some (set_o s o' (hi_o s))
        else if negb (hi_o s =? outside_o s)%Z then
          let s' := set_o s (Rceil (o0line s + oExclHalfSpan s) - 1) (outside_o s) in
          if finished s' then Some s' else next_o f s'
        else match next_n fuel (set_o s o' (hi_o s)) with
             | None => None
             | Some s' => if finished s' then Some s' else next_o f s'
             end
    end.

  (** PointsInSphere.cpp:115-128 rewind() *)
  Definition rewind (fuel : nat) : option sph :=
    let h := Rceil (Rmax * ar L) in
    next_o fuel {| m := - h; n := 0; o := 0; hi_m := h; hi_n := 0; hi_o := 0; outside_o := 0;
                   n0plane := 0; o0plane := 0; o0line := 0; RplaneSquare := 0; oExclHalfSpan := 0 |}.

  (** for (; !sph.finished(); sph.next()) collecting mno() *)
  Fixpoint collect (fuel : nat) (s : sph) : option (list (Z * Z * Z)) :=
    match fuel with
    | O => None
    | S f =>
        if finished s then Some []
        else match next_o fuel s with
             | None => None
             | Some s' => match collect f s' with None => None | Some l => Some ((m s, n s, o s) :: l) end
             end
    end.
  (** The points visited by "for (sph.rewind(); !sph.finished(); sph.next())". *)
  Definition points (fuel : nat) : option (list (Z * Z * Z)) :=
    match rewind fuel with None => None | Some s => collect fuel s end.

  (** PointsInSphere.cpp:180-186 r() *)
  Definition r_of (p : Z * Z * Z) : R :=
    let '(m, n, o) := p in
    let m := IZR m in let n := IZR n in let o := IZR o in
    sqrt (m * m * la L * la L + n * n * lb L * lb L + o * o * lc L * lc L
          + 2 * m * n * la L * lb L * cg L + 2 * m * o * la L * lc L * cb L + 2 * n * o * lb L * lc L * ca L).
End Sphere.

(** ReflectionsInQminQmax: PointsInSphere.cpp:278-292 constructors, 353-362 Q() and d(). M_1_PI is 1/PI. *)
Definition reflections (qmin qmax : R) (L : latpar) (fuel : nat) : option (list (Z * Z * Z)) :=
  points (qmin * (1 / PI) / 2) (qmax * (1 / PI) / 2) (reciprocal L) fuel.

(** PointsInSphere.cpp:353-362 ReflectionsInQminQmax::Q() and d(): sph is a sphere of the reciprocal lattice. *)
Definition Q_of (L : latpar) (h : Z * Z * Z) : R := 2 * PI * r_of (reciprocal L) h.
Definition d_of (L : latpar) (h : Z * Z * Z) : R := 1 / r_of (reciprocal L) h.
(** PointsInSphere.cpp:370-384 ReflectionsInDmaxDmin constructors *)
Definition reflections_d (dmax dmin : R) (L : latpar) (fuel : nat) : option (list (Z * Z * Z)) :=
  reflections (2 * PI / dmax) (2 * PI / dmin) L fuel.
