(** Specification for PDFCalculator (C30-C33, C61-C66): the radial distribution function as a sum of peaks, in terms
    of the structure, the settings and the list of counted pairs only. *)
From Coq Require Import String.
From Verif Require Import RBase Trig Sums PdfGrid.
Open Scope R_scope.

(** The settings a user can reach with the public setters. *)
Definition settings_ok (c : conf) : Prop :=
  0 <= c_rmin c /\ 0 <= c_rmax c /\ SQRT_DOUBLE_EPS < c_rstep c /\ 0 <= c_qmin c /\ 0 < c_qmax c /\ 0 <= c_maxext c.

(** A list of reals is the increasing sequence of exactly those multiples n of dr for which P n holds. *)
Definition multiples (dr : R) (P : Z -> Prop) (l : list R) : Prop :=
  exists a b : Z, l = map (fun n => IZR n * dr) (zrange a b) /\ forall n, (a <= n < b)%Z <-> P n.

(** Scattering power of a site, total occupancy and average scattering power of a structure. *)
Definition site_sf (c : conf) (s : pstru) (i : nat) : R := c_sftable c (p_type s i) * p_occ s i.
Definition tot_occ (s : pstru) : R := sumf (fun i => p_occ s i * INR (p_mult s i)) (seq 0 (p_n s)).
Definition mean_sf (c : conf) (s : pstru) : R :=
  sumf (fun i => site_sf c s i * INR (p_mult s i)) (seq 0 (p_n s)) / tot_occ s.

(** The grid points at which a peak is added: those in the cutoff bounds of the profile and the last one below. *)
Definition peak_lo (c : conf) (b : pbond) : R := b_dist b + xboundlo (c_pk c) (b_fwhm b).
Definition peak_hi (c : conf) (b : pbond) : R := b_dist b + xboundhi (c_pk c) (b_fwhm b).
Definition reached (c : conf) (b : pbond) (r : R) : bool :=
  Rltb (peak_lo c b - c_rstep c) r && Rleb r (peak_hi c b).
(** Contribution of one pair at r: the peak times r/d, so that division by r gives a peak of height 1/d. *)
Definition peak_at (c : conf) (s : pstru) (b : pbond) (r : R) : R :=
  if reached c b r
  then site_sf c s (b_s0 b) * site_sf c s (b_s1 b) * b_mult b * (pkf (c_pk c) (r - b_dist b) (b_fwhm b) * (r / b_dist b))
  else 0.
Definition peaks (c : conf) (s : pstru) (t : list (pbond * Z)) (r : R) : R :=
  sumf (fun e => IZR (snd e) * peak_at c s (fst e) r) t.
(** Pairs of sites of the structure at a positive distance. *)
Definition pairs_ok (s : pstru) (t : list (pbond * Z)) : Prop :=
  forall b z, In (b, z) t -> (b_s0 b < p_n s)%nat /\ (b_s1 b < p_n s)%nat /\ 0 < b_dist b.
(** The RDF for the sum of peaks P, normalised by the number of atoms and the average scattering power squared. *)
Definition rdf (c : conf) (s : pstru) (P : R -> R) (r : R) : R :=
  P r * (if Reqb (tot_occ s * mean_sf c s) 0 then 0 else / (tot_occ s * mean_sf c s ^ 2)).
(** RDF/r with the value 0 at r = 0 *)
Definition rdf_per_r (c : conf) (s : pstru) (P : R -> R) (r : R) : R :=
  if Rltb SQRT_DOUBLE_EPS r then rdf c s P r / r else 0.
(** product of the envelopes *)
Definition envelope (c : conf) (r : R) : R := fold_right (fun f a => f r * a) 1 (c_env c).

(** Sum over the ordered pairs of sites that are not masked out; [mask i j] is what getPairMask(i, j) returns. *)
Definition allowed_occ (mask : nat -> nat -> bool) (s : pstru) : R :=
  sumf (fun i => sumf (fun j => if mask i j then p_occ s i * INR (p_mult s i) * (p_occ s j * INR (p_mult s j)) else 0)
                      (seq 0 (p_n s))) (seq 0 (p_n s)).

(** The baseline of the calculator: slope -4 pi rho0 times the fraction of pairs that are not masked out. *)
Definition linear_slope (mask : nat -> nat -> bool) (s : pstru) : R :=
  -4 * PI * p_numdens s * (allowed_occ mask s / (tot_occ s * tot_occ s)).

(** Discrete sine transforms between r-space and Q-space. *)
Definition sine_sum (step : R) (f : R -> R) (xs : list R) (y : R) : R := step * sumf (fun x => f x * sin (y * x)) xs.
(** F(Q): the sine transform of RDF/r plus baseline bl over the extended r-grid rext. *)
Definition F_of (c : conf) (s : pstru) (bl P : R -> R) (rext : list R) (q : R) : R :=
  sine_sum (c_rstep c) (fun r => rdf_per_r c s P r + bl r) rext q.
(** The whole Q-range of the r-grid is requested, no more than the first step is below qmin. *)
Definition full_band (c : conf) (dq : R) : bool :=
  Rleb (PI / c_rstep c - SQRT_DOUBLE_EPS) (c_qmax c) && Rleb (c_qmin c - SQRT_DOUBLE_EPS) dq.
(** The PDF: RDF/r plus baseline, or its part between qmin and qmax, times the envelopes. *)
Definition pdf_of (c : conf) (s : pstru) (bl P : R -> R) (rext qs : list R) (dq r : R) : R :=
  (if full_band c dq then rdf_per_r c s P r + bl r
   else 2 / PI * sine_sum dq (fun q => if Rleb (c_qmin c - SQRT_DOUBLE_EPS) q then F_of c s bl P rext q else 0) qs r)
  * envelope c r.
(** The value of the baseline at r *)
Definition baseline_value (b : baseline) (r : R) : R := match b with Linear slope => slope * r | OtherBaseline f => f r end.
(** The calculator x presents the RDF, RDF/r and F(Q) of structure s for the sum of peaks P. *)
Definition presents (x : pdfc) (s : pstru) (P : R -> R) : Prop :=
  getRDF x = Ok (map (rdf (cf x) s P) (getRgrid x)) /\
  getRDFperR x = Ok (map (rdf_per_r (cf x) s P) (getRgrid x)) /\
  getF x = Ok (map (F_of (cf x) s (baseline_value (base x)) P (getExtendedRgrid x)) (getQgrid x)).
Definition presents_pdf (x : pdfc) (s : pstru) (P : R -> R) : Prop :=
  getPDF x = Ok (map (pdf_of (cf x) s (baseline_value (base x)) P (getExtendedRgrid x) (getQgrid x) (getQstep x)) (getRgrid x)).

(** Updates of an evaluated calculator: contributions t0 of the old structure are added, those of t1 of the new one. *)
Record update := { u_t0 : list (pbond * Z); u_s : pstru; u_t1 : list (pbond * Z) }.
Fixpoint tracked (c : conf) (s : pstru) (P : R -> R) (us : list update) : pstru * (R -> R) :=
  match us with
  | [] => (s, P)
  | u :: us' => tracked c (u_s u) (fun r => P r + peaks c s (u_t0 u) r + peaks c (u_s u) (u_t1 u) r) us'
  end.
Fixpoint updates_ok (s : pstru) (us : list update) : Prop :=
  match us with [] => True | u :: us' => pairs_ok s (u_t0 u) /\ pairs_ok (u_s u) (u_t1 u) /\ updates_ok (u_s u) us' end.
Definition update_ops (us : list update) : list pop := map (fun u => PFast (u_t0 u) (u_s u) (u_t1 u)) us.

(** r lies in the cutoff bounds of the peak *)
Definition inside (c : conf) (b : pbond) (r : R) : Prop := peak_lo c b <= r <= peak_hi c b.
(** The peak is no wider than the widest one announced by the peak width model. *)
Definition tails_bounded (c : conf) (s : pstru) (b : pbond) : Prop :=
  Rabs (xboundlo (c_pk c) (b_fwhm b)) <= extFromPeakTails c s /\ Rabs (xboundhi (c_pk c) (b_fwhm b)) <= extFromPeakTails c s.

(** *** Extension of the range *)
(** six periods of the termination ripples, when Qmax cuts below what the grid can carry *)
Definition ripple_width (c : conf) : R :=
  let Q := Rmin (c_qmax c) (PI / c_rstep c) in
  if Rlt_dec SQRT_DOUBLE_EPS Q then if Rlt_dec Q (PI / c_rstep c - SQRT_DOUBLE_EPS) then 6 * (2 * PI / Q) else 0 else 0.
(** the tails of the widest peak *)
Definition tail_width (c : conf) (s : pstru) : R :=
  let w := p_maxwidth s (c_rmin c) (c_rmax c) in Rmax (Rabs (xboundlo (c_pk c) w)) (Rabs (xboundhi (c_pk c) w)).
(** both are reduced in proportion to keep to the maximum extension *)
Definition ripple_part (c : conf) (s : pstru) : R :=
  let w := ripple_width c in let t := tail_width c s in if Rle_dec (w + t) (c_maxext c) then w else w * (c_maxext c / (w + t)).
Definition whole_extension (c : conf) (s : pstru) : R := Rmin (ripple_width c + tail_width c s) (c_maxext c).
