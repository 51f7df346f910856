(** Specification for C87, C88: results of the calculators as sums over the neighbours in a structure. *)
From Coq Require Import String.
From Verif Require Masks.
From Verif Require Import RBase R3 Trig Sums Lattice Crystal CrystalSpec StructDiff StructDiffSpec PeakWidth PeakWidthSpec PdfGrid PdfSpec Debye DebyeSpec BondGen BondGenSpec World WorldSpec OrbitSpec Visited.
Import ListNotations.
Open Scope R_scope.
Notation length := List.length.

(** [P i j] lists, each once, the images of atom j at lo..hi from atom i *)
Definition neighbours_in (lo hi : R) (x : adp) (P : nat -> nat -> list image) : Prop :=
  let (cls, M) := createBondGenerator x in
  forall i j, (i < length (atoms_of x))%nat -> (j < length (atoms_of x))%nat ->
    NoDup (P i j) /\ forall y, In y (P i j) <-> image_ok cls M [j] y /\ in_range lo hi (image_distance cls M i [j] y).
(** sum over the ordered pairs of atoms that are not masked out and all images; [g i j b]: for the bond b from atom i to an
    image of atom j *)
Definition over_pairs (x : adp) (mask : nat -> nat -> bool) (P : nat -> nat -> list image) (g : nat -> nat -> bond -> R) : R :=
  let (cls, M) := createBondGenerator x in
  let n := length (atoms_of x) in
  sumf (fun i => sumf (fun j => if mask i j then sumf (fun y => g i j (bond_at cls M i [j] y)) (P i j) else 0) (seq 0 n)) (seq 0 n).
(** the number of pairs: each symmetry-independent atom stands for the [multiplicity] atoms of its kind *)
Definition pair_count (x : adp) (mask : nat -> nat -> bool) (P : nat -> nat -> list image) : R :=
  over_pairs x mask P (fun i _ _ => INR (multiplicity (env_of x) (atom_at x i))).
(** width of the peak for the bond b from atom i to an image of atom j; r01 and the tensor of the image are in b *)
Definition width_of (w : pwmodel) (x : adp) (i j : nat) (b : bond) : R :=
  pw_calculate w (mkUB (BondGen.b_r01 b) (c_uij (atom_at x i)) (c_anis (atom_at x i)) (b_u1 b) (c_anis (atom_at x j))).

(** *** Half sums: each pair of atoms is seen from one end *)
(** Tensors that are symmetric; those of isotropic atoms are multiples of the identity. *)
Definition proper_tensor (a : catom) : Prop := if c_anis a then tr (c_uij a) = c_uij a else spherical (c_uij a).
Definition half_ok (w : pwmodel) (x : adp) : Prop :=
  match w with
  | PWConstant _ => orderly false x
  | _ => orderly true x /\ forall a, In a (atoms_of x) -> proper_tensor a
  end.
(** masks are symmetric; without one all pairs count *)
Definition good_mask (masked : bool) (mask : nat -> nat -> bool) : Prop :=
  (forall i j, mask i j = mask j i) /\ (masked = false -> forall i j, mask i j = true).

(** Full sums need neither; without a mask all pairs count. *)
Definition sums_ok (w : pwmodel) (x : adp) (masked : bool) (mask : nat -> nat -> bool) (full : bool) : Prop :=
  if full then masked = false -> forall i j, mask i j = true else half_ok w x /\ good_mask masked mask.
(** the mask settings of a calculator *)
Definition user_mask (m : Masks.pq) (i j : nat) : bool := Masks.getPairMask m (Z.of_nat i) (Z.of_nat j).

(** *** Peak width, for symmetric tensors: mean square displacement along the bond, and its full width at half maximum *)
Definition along_bond (anis : bool) (U : mat) (r : vec) : R :=
  if anis then vdot r (mv U r) / vnorm r ^ 2 else (x00 U + x11 U + x22 U) / 3.
Definition bond_msd (x : adp) (i j : nat) (b : bond) : R :=
  along_bond (c_anis (atom_at x i)) (c_uij (atom_at x i)) (BondGen.b_r01 b) + along_bond (c_anis (atom_at x j)) (b_u1 b) (BondGen.b_r01 b).
Definition fwhm (variance : R) : R := sqrt (8 * ln 2 * Rmax 0 variance).
(** 1 - delta1/r - delta2/r^2 + (qbroad r)^2 scales the variance *)
Definition sharpening (j : jeong) (r : R) : R := 1 - j_delta1 j / r - j_delta2 j / r ^ 2 + (j_qbroad j * r) ^ 2.
Definition expected_width (w : pwmodel) (x : adp) (i j : nat) (b : bond) : R :=
  let r := b_distance b in
  match w with
  | PWConstant c => cw_width c
  | PWDebyeWaller => fwhm (bond_msd x i j b)
  | PWJeong p => if Rlt_dec 0 (sharpening p r) then fwhm (sharpening p r * bond_msd x i j b) + (j_qbroad_sep p * r) ^ 2 else 0
  end.

(** *** DebyePDFCalculator *)
(** f(Q) of atom i: from the table, times the occupancy *)
Definition atom_f (c : dconf) (x : adp) (i : nat) (q : R) : R := k_sf c (c_type (atom_at x i)) q * c_occ (atom_at x i).
Definition same_type_occ (x : adp) : Prop :=
  forall a b, In a (atoms_of x) -> In b (atoms_of x) -> c_type a = c_type b -> c_occ a = c_occ b.
(** scattering factors that never grow with Q, as those of x-rays and neutrons *)
Definition decreasing_table (c : dconf) : Prop := forall ty p q, 0 <= p <= q -> Rabs (k_sf c ty q) <= Rabs (k_sf c ty p).
(** sum of f_i f_j sin(Q r_ij) / r_ij exp(-sigma_ij^2 Q^2 / 2) over the atoms i of the cell (the molecule) and all their
    neighbours; each symmetry-independent atom stands for the [multiplicity] atoms of its kind *)
Definition debye_equation (c : dconf) (w : pwmodel) (x : adp) (mask : nat -> nat -> bool) (P : nat -> nat -> list image) (q : R) : R :=
  over_pairs x mask P (fun i j b =>
    INR (multiplicity (env_of x) (atom_at x i)) * atom_f c x i q * atom_f c x j q *
    (sin (q * b_distance b) / b_distance b) * exp (- (width_of w x i j b / (2 * sqrt (2 * ln 2)) * q) ^ 2 / 2)).
(** occupancy of the cell and its mean scattering factor *)
Definition cell_occ (x : adp) : R := sumf (fun a => c_occ a * INR (multiplicity (env_of x) a)) (atoms_of x).
Definition cell_mean (c : dconf) (x : adp) (q : R) : R :=
  sumf (fun a => k_sf c (c_type a) q * c_occ a * INR (multiplicity (env_of x) a)) (atoms_of x) / cell_occ x.

(** *** PDFCalculator *)
Definition atom_b (c : conf) (x : adp) (i : nat) : R := c_sftable c (c_type (atom_at x i)) * c_occ (atom_at x i).
(** the sum of peaks at r: profile times r over distance for each pair whose peak reaches r *)
Definition peak_sum (c : conf) (w : pwmodel) (x : adp) (mask : nat -> nat -> bool) (P : nat -> nat -> list image) (r : R) : R :=
  over_pairs x mask P (fun i j b =>
    let d := b_distance b in let fwhm := width_of w x i j b in
    if Rltb (d + xboundlo (c_pk c) fwhm - c_rstep c) r && Rleb r (d + xboundhi (c_pk c) fwhm)
    then INR (multiplicity (env_of x) (atom_at x i)) * atom_b c x i * atom_b c x j * (pkf (c_pk c) (r - d) fwhm * (r / d))
    else 0).
(** its normalisation: occupancy of the cell and mean scattering power *)
Definition cell_b (c : conf) (x : adp) : R := sumf (fun a => c_sftable c (c_type a) * c_occ a * INR (multiplicity (env_of x) a)) (atoms_of x) / cell_occ x.
(** atoms per volume, 0 for isolated atoms *)
Definition atom_density (x : adp) : R :=
  match env_of x with Lattice_only L | Symmetric L _ _ => cell_occ x / Rabs (det (Lattice.base L)) | _ => 0 end.
(** RDF(r) and RDF(r)/r for the sum of peaks *)
Definition cell_rdf (c : conf) (x : adp) (S : R -> R) (r : R) : R :=
  if Req_EM_T (cell_occ x * cell_b c x) 0 then 0 else S r / (cell_occ x * cell_b c x ^ 2).
(** fraction of pairs of atoms in the cell that the mask lets through *)
Definition open_fraction (x : adp) (mask : nat -> nat -> bool) : R :=
  let n := length (atoms_of x) in
  let c i := c_occ (atom_at x i) * INR (multiplicity (env_of x) (atom_at x i)) in
  sumf (fun i => sumf (fun j => if mask i j then c i * c j else 0) (seq 0 n)) (seq 0 n) / cell_occ x ^ 2.
