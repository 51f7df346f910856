(** Specification for DebyePDFCalculator (C34, C68-C72): the Debye equation, its transform and the r-range. *)
From Coq Require Import String.
From Verif Require Import RBase Trig Sums PdfGrid Debye.
Open Scope R_scope.

(** The settings a user can reach with the public setters. *)
Definition dsettings_ok (c : dconf) : Prop :=
  0 <= k_rmin c /\ 0 <= k_rmax c /\ SQRT_DOUBLE_EPS < k_rstep c /\ 0 <= k_qmin c /\ 0 <= k_qmax c /\ SQRT_DOUBLE_EPS < k_qstep c /\ 0 <= k_maxext c.

(** *** Debye equation; [f i q]: scattering factor of site i *)
Definition own_sf (c : dconf) (s : dstru) (i : nat) (q : R) : R := k_sf c (d_type s i) q * d_occ s i.
(** amplitude of a pair: f_i f_j / r_ij times the Debye-Waller factor for the peak width *)
Definition amplitude (f : nat -> R -> R) (b : pbond) (z : Z) (q : R) : R :=
  IZR z * b_mult b * f (b_s0 b) q * f (b_s1 b) q / b_dist b * exp (- (b_fwhm b / (2 * sqrt (2 * ln 2)) * q) ^ 2 / 2).
(** atoms at the same position do not count *)
Definition apart (b : pbond) : bool := Rltb SQRT_DOUBLE_EPS (Rabs (b_dist b)).
Definition debye (f : nat -> R -> R) (t : list (pbond * Z)) (q : R) : R :=
  sumf (fun e => if apart (fst e) then amplitude f (fst e) (snd e) q * sin (q * b_dist (fst e)) else 0) t.
(** With a precision, a pair is left out from the first grid point on at which its amplitude is not above the precision. *)
Definition kept (f : nat -> R -> R) (prec dq : R) (b : pbond) (z : Z) (k : Z) : bool :=
  forallb (fun j => Rltb prec (Rabs (amplitude f b z (IZR j * dq)))) (zrange 0 (k + 1)).
Definition debye_cut (f : nat -> R -> R) (prec dq : R) (t : list (pbond * Z)) (k : Z) : R :=
  sumf (fun e => if apart (fst e) && kept f prec dq (fst e) (snd e) k
                 then amplitude f (fst e) (snd e) (IZR k * dq) * sin (IZR k * dq * b_dist (fst e)) else 0) t.
Definition pairs_ok (s : dstru) (t : list (pbond * Z)) : Prop := forall b z, In (b, z) t -> (b_s0 b < d_n s)%nat /\ (b_s1 b < d_n s)%nat.
(** all sites of one atom type have the same occupancy *)
Definition occ_by_type (s : dstru) : Prop :=
  forall i j, (i < d_n s)%nat -> (j < d_n s)%nat -> d_type s i = d_type s j -> d_occ s i = d_occ s j.
(** the first site of the same type *)
Definition first_site (s : dstru) (i : nat) : nat :=
  hd i (filter (fun j => if string_dec (d_type s j) (d_type s i) then true else false) (seq 0 i)).
(** the scattering factors never grow with q *)
Definition decreasing_sf (f : nat -> R -> R) : Prop := forall i p q, 0 <= p <= q -> Rabs (f i q) <= Rabs (f i p).
Definition atoms (s : dstru) : R := sumf (fun i => d_occ s i * INR (d_mult s i)) (seq 0 (d_n s)).
Definition mean_of (f : nat -> R -> R) (s : dstru) (q : R) : R := sumf (fun i => f i q * INR (d_mult s i)) (seq 0 (d_n s)) / atoms s.
(** F(Q) for the sum S *)
Definition normalised (f : nat -> R -> R) (s : dstru) (q S : R) : R :=
  if Reqb (mean_of f s q * atoms s) 0 then 0 else S / (atoms s * mean_of f s q ^ 2).

(** *** Transform to r: sine transform of F on the grid k dq, k >= first *)
Definition sine_transform (dq : R) (F : list R) (first : Z) (r : R) : R :=
  2 / PI * dq * sumf (fun k => if (first <=? k)%Z then nth (Z.to_nat k) F 0 * sin (IZR k * dq * r) else 0) (zrange 0 (Z.of_nat (length F))).
(** linear interpolation of g between multiples of d *)
Definition interpolated (d : R) (g : R -> R) (r : R) : R :=
  let i := Rfloor (r / d) in
  let w := r / d - IZR i in
  (1 - w) * g (IZR i * d) + w * g (IZR (i + 1) * d).
Definition envelope (c : dconf) (r : R) : R := fold_right (fun f a => f r * a) 1 (k_env c).

(** *** State right after a structure was set or evaluated *)
Definition evaluates (o : dop) (s : dstru) (t : list (pbond * Z)) : Prop := (o = DSetStructure s /\ t = []) \/ o = DEval s t.

(** *** Fast updates: taking pairs back *)
Definition taken_back (t : list (pbond * Z)) : list (pbond * Z) := map (fun e => (fst e, (- snd e)%Z)) t.
(** the sites of these pairs have the same scattering factors in both structures *)
Definition same_sites (c : dconf) (s0 s : dstru) (t : list (pbond * Z)) : Prop :=
  forall b z i q, In (b, z) t -> i = b_s0 b \/ i = b_s1 b -> own_sf c s0 (first_site s0 i) q = own_sf c s (first_site s i) q.
