(** Copies of PointsInSphere. The class keeps the indices in an array _mno[3] and refers to its elements by the references _m, _n, _o
    (PointsInSphere.hpp:118-124). It has no copy constructor of its own; the implicit one copies the array and binds the references to what
    the references of the source refer to: the array of the original. All assignments to the indices go through the references, while m(),
    n() and o() read the object's own array (PointsInSphere.cpp:162-177). Source: src/diffpy/srreal/PointsInSphere.hpp, PointsInSphere.cpp.
    Originals are alive as long as their copies are used here; otherwise the references dangle. *)
From Verif Require Import RBase Sphere.
Open Scope R_scope.

Definition point := (Z * Z * Z)%type.
(** the array _mno of an object *)
Definition mno (s : sph) : point := (m s, n s, o s).
Definition with_mno (p : point) (s : sph) : sph :=
  let '(a, b, c) := p in
  {| m := a; n := b; o := c; hi_m := hi_m s; hi_n := hi_n s; hi_o := hi_o s; outside_o := outside_o s; n0plane := n0plane s;
     o0plane := o0plane s; o0line := o0line s; RplaneSquare := RplaneSquare s; oExclHalfSpan := oExclHalfSpan s |}.

Section Copy.
  Context (Rmin Rmax : R) (L : latpar).
  (** [own]: the references of the object refer to its own array. *)
  Context (own : bool).
  (** The object, and the array its references refer to *)
  Record view := mkView { here : sph; there : point }.
  (** an assignment through the references *)
  Definition write (f : point -> point) (v : view) : view :=
    let p := f (there v) in mkView (if own then with_mno p (here v) else here v) p.
  Definition add_m (p : point) : point := let '(a, b, c) := p in ((a + 1)%Z, b, c).
  Definition add_n (p : point) : point := let '(a, b, c) := p in (a, (b + 1)%Z, c).
  Definition add_o (p : point) : point := let '(a, b, c) := p in (a, b, (c + 1)%Z).
  Definition put_n (z : Z) (p : point) : point := let '(a, b, c) := p in (a, z, c).
  Definition put_o (z : Z) (p : point) : point := let '(a, b, c) := p in (a, b, z).
  (** assignments to the other members *)
  Definition inside (f : sph -> sph) (v : view) : view := mkView (f (here v)) (there v).

  (** PointsInSphere.cpp:190-204 next_m *)
  Definition vnext_m (v : view) : view :=
    let v := write add_m v in
    if finished (here v) then v
    else
      let v := inside (fun s =>
        {| m := m s; n := n s; o := o s; hi_m := hi_m s; hi_n := hi_n s; hi_o := hi_o s; outside_o := outside_o s;
           n0plane := IZR (m s) * dn0dm L; o0plane := IZR (m s) * do0dm L; o0line := o0line s;
           RplaneSquare := RmaxSquare Rmax - (IZR (m s) / ar L) ^ 2; oExclHalfSpan := oExclHalfSpan s |}) v in
      let s := here v in
      let nHalfSpan := if Rltb 0 (RplaneSquare s) then sqrt (RplaneSquare s) * b2r L else 0 in
      let v := write (put_n (Rfloor (n0plane s - nHalfSpan))) v in
      inside (fun s =>
        {| m := m s; n := n s; o := o s; hi_m := hi_m s; hi_n := Rceil (n0plane s + nHalfSpan); hi_o := hi_o s;
           outside_o := outside_o s; n0plane := n0plane s; o0plane := o0plane s; o0line := o0line s;
           RplaneSquare := RplaneSquare s; oExclHalfSpan := oExclHalfSpan s |}) v.

  (** PointsInSphere.cpp:211-229, the branch for a new line *)
  Definition vstart_line (v : view) : view :=
    let s := here v in
    let o0 := o0plane s + (IZR (n s) - n0plane s) * do0dn L in
    let Rl := RplaneSquare s - ((IZR (n s) - n0plane s) / b2r L) ^ 2 in
    let oHalfSpan := if Rltb 0 Rl then sqrt Rl * c1r L else 0 in
    let RExcl := (Rl - RmaxSquare Rmax) + RminSquare Rmin in
    let excl := if Rltb 0 RExcl then sqrt RExcl * c1r L else 0 in
    let v := write (put_o (Rfloor (o0 - oHalfSpan))) v in
    let outside := Rceil (o0 + oHalfSpan) in
    let hole := Rceil (o0 - excl) in
    let hi := if Reqb excl 0 then outside
              else if Rltb (Rabs (IZR hole - o0)) excl then hole else outside in
    inside (fun s =>
      {| m := m s; n := n s; o := o s; hi_m := hi_m s; hi_n := hi_n s; hi_o := hi; outside_o := outside; n0plane := n0plane s;
         o0plane := o0plane s; o0line := o0; RplaneSquare := RplaneSquare s; oExclHalfSpan := excl |}) v.

  (** PointsInSphere.cpp:207-233 next_n *)
  Fixpoint vnext_n (fuel : nat) (v : view) : option view :=
    match fuel with
    | O => None
    | S f =>
        let v := write add_n v in
        if (n (here v) <? hi_n (here v))%Z then Some (vstart_line v)
        else let v := vnext_m v in if finished (here v) then Some v else vnext_n f v
    end.

  (** PointsInSphere.cpp:236-254 next_o, which is next() *)
  Fixpoint vnext_o (fuel : nat) (v : view) : option view :=
    match fuel with
    | O => None
    | S f =>
        let v := write add_o v in
        if (o (here v) <? hi_o (here v))%Z then Some v
        else if negb (hi_o (here v) =? outside_o (here v))%Z then
          let v := inside (fun s =>
            {| m := m s; n := n s; o := o s; hi_m := hi_m s; hi_n := hi_n s; hi_o := outside_o s; outside_o := outside_o s;
               n0plane := n0plane s; o0plane := o0plane s; o0line := o0line s; RplaneSquare := RplaneSquare s;
               oExclHalfSpan := oExclHalfSpan s |}) v in
          let v := write (put_o (Rceil (o0line (here v) + oExclHalfSpan (here v)) - 1)) v in
          if finished (here v) then Some v else vnext_o f v
        else match vnext_n fuel v with
             | None => None
             | Some v => if finished (here v) then Some v else vnext_o f v
             end
    end.

  (** PointsInSphere.cpp:115-128 rewind(); RplaneSquare keeps its value there, which is not read before next_m sets a new one. *)
  Definition vrewind (fuel : nat) (v : view) : option view :=
    let h := Rceil (Rmax * ar L) in
    let v := write (fun _ => ((- h)%Z, 0%Z, 0%Z)) v in
    vnext_o fuel (inside (fun s =>
      {| m := m s; n := n s; o := o s; hi_m := h; hi_n := 0; hi_o := 0; outside_o := 0; n0plane := 0; o0plane := 0; o0line := 0;
         RplaneSquare := 0; oExclHalfSpan := 0 |}) v).
End Copy.

(** ** A program with several iterators *)
(** PointsInSphere.hpp:115-141: the arguments of the constructor, the other data and where the references refer to *)
Record iter := mkIter { i_rmin : R; i_rmax : R; i_lat : latpar; i_data : sph; i_ref : nat }.
Inductive iop := INew (rmin rmax : R) (L : latpar) | ICopy (k : nat) | INext (k : nat) | IRewind (k : nat).
(** the members before the constructor runs: PointsInSphere.cpp:89-109 *)
Definition blank : sph :=
  {| m := 0; n := 0; o := 0; hi_m := 0; hi_n := 0; hi_o := 0; outside_o := 0; n0plane := 0; o0plane := 0; o0line := 0;
     RplaneSquare := 0; oExclHalfSpan := 0 |}.
Definition with_data (s : sph) (i : iter) : iter := mkIter (i_rmin i) (i_rmax i) (i_lat i) s (i_ref i).
(** [f] run on the k-th object; what it wrote through the references goes to the array they refer to. *)
Definition on (k : nat) (f : iter -> bool -> view -> option view) (w : list iter) : option (list iter) :=
  match nth_error w k with
  | None => None
  | Some i => match nth_error w (i_ref i) with
    | None => None
    | Some t => match f i (i_ref i =? k)%nat (mkView (i_data i) (mno (i_data t))) with
      | None => None
      | Some v => let w' := upd (i_ref i) (with_data (with_mno (there v) (i_data t)) t) w in
                  Some (upd k (with_data (here v) i) w')
      end
    end
  end.
(** One statement of the program; [None]: it does not end within [fuel] iterations of the loops *)
Definition istep (fuel : nat) (a : iop) (w : list iter) : option (list iter) :=
  match a with
  | INew rmin rmax L => on (length w) (fun i own v => vrewind (i_rmin i) (i_rmax i) (i_lat i) own fuel v) (w ++ [mkIter rmin rmax L blank (length w)])
  | ICopy k => match nth_error w k with Some i => Some (w ++ [i]) | None => None end
  | INext k => on k (fun i own v => vnext_o (i_rmin i) (i_rmax i) (i_lat i) own fuel v) w
  | IRewind k => on k (fun i own v => vrewind (i_rmin i) (i_rmax i) (i_lat i) own fuel v) w
  end.
Fixpoint irun (fuel : nat) (l : list iop) (w : list iter) : option (list iter) :=
  match l with [] => Some w | a :: r => match istep fuel a w with Some w' => irun fuel r w' | None => None end end.
