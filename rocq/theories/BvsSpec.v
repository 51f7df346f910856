(** Specification for bond valence sums (C35-C37, C50, C51, C67). *)
From Coq Require Import Ascii String.
From Verif Require Import RBase Sums Bvs.
Open Scope R_scope.
Open Scope list_scope.

(** *** Atom symbols *)
Definition chars (s : string) : str := list_ascii_of_string s.
Definition tab : ascii := "009"%char.
(** characters that may belong to an isotope prefix and to a charge suffix *)
Definition prefix_char (c : ascii) : Prop := In c (tab :: chars "0123456789- ").
Definition suffix_char (c : ascii) : Prop := In c (tab :: chars "+-012345678 ").
(** A symbol: it is not empty and neither its first nor its last character could belong to the prefix or suffix. *)
Definition symbol (s : str) : Prop :=
  exists a z, head s = Some a /\ head (rev s) = Some z /\ ~ prefix_char a /\ ~ suffix_char z.
(** the string without white space *)
Definition nospace (s : str) : str :=
  filter (fun c => if in_dec ascii_dec c (tab :: "010" :: "011" :: "012" :: "013" :: chars " ")%char then false else true) s.
Definition charge_digit (k : nat) : ascii := nth k (chars "012345678") "0"%char.
Definition is_sign (c : ascii) : Prop := c = "+"%char \/ c = "-"%char.
Definition sign_value (c : ascii) : Z := if ascii_dec c "+"%char then 1 else (-1).

(** *** Parameter tables: keys are ordered bonds *)
Definition key := (str * Z * str * Z)%type.
Definition bond_key (a0 : str) (v0 : Z) (a1 : str) (v1 : Z) : key := if (v0 <? v1)%Z then (a1, v1, a0, v0) else (a0, v0, a1, v1).
Definition key_dec (k l : key) : {k = l} + {k <> l}.
Proof. repeat (decide equality; try apply ascii_dec). Defined.
Arguments key_dec : simpl never.
Definition key_of (p : bvparam) : key := (matom0 p, mvalence0 p, matom1 p, mvalence1 p).
(** the value set by the newest relevant call, the calls are listed newest first *)
Fixpoint last_custom (h : list tabop) (k : key) : option (R * R) :=
  match h with
  | [] => None
  | TSet a0 v0 a1 v1 Ro B :: h => if key_dec (bond_key a0 v0 a1 v1) k then Some (Ro, B) else last_custom h k
  | TReset a0 v0 a1 v1 :: h => if key_dec (bond_key a0 v0 a1 v1) k then None else last_custom h k
  | TResetAll :: _ => None
  | _ :: h => last_custom h k
  end.
Fixpoint std_param (std : list bvparam) (k : key) : option (R * R) :=
  match std with [] => None | p :: r => if key_dec (key_of p) k then Some (mRo p, mB p) else std_param r k end.
Definition entry (ops : list tabop) (std : list bvparam) (k : key) : option (R * R) :=
  match last_custom (rev ops) k with Some x => Some x | None => std_param std k end.
(** what a lookup returns: the bond it belongs to and its Ro and B *)
Definition best_entry (ops : list tabop) (std : list bvparam) (k : key) : option (key * (R * R)) :=
  match entry ops std k with
  | Some x => Some (k, x)
  | None =>
    let '(a0, v0, a1, v1) := k in
    if (0 <? v0)%Z then option_map (fun x => ((a0, 9%Z, a1, v1), x)) (entry ops std (a0, 9%Z, a1, v1)) else None
  end.
Fixpoint last_valence (h : list tabop) (s : str) : option Z :=
  match h with
  | [] => None
  | TSetValence s' v :: h => if str_dec s' s then Some v else last_valence h s
  | TResetValences :: _ => None
  | _ :: h => last_valence h s
  end.

(** *** Bond valence sums *)
Definition sgn (v : Z) : R := if (0 <=? v)%Z then 1 else -1.
(** the valence of the bond from site i to site j of length d *)
Definition bond (c : bvs) (s : bstru) (i j : nat) (d : R) : R :=
  match lookup (btab c) (baresymbol c s i) (valence c s i) (baresymbol c s j) (valence c s j) with
  | Some p => bondvalence p d
  | None => 0
  end.
(** sum over all bonds from site i to site j not longer than rmax *)
Definition bonds_upto (c : bvs) (s : bstru) (rmax : R) (i j : nat) : R :=
  sumf (fun d => if Rle_dec d rmax then bond c s i j d else 0) (bdist s i j).
Definition site_bvs (c : bvs) (s : bstru) (rmax : R) (i : nat) : R :=
  sgn (valence c s i) * sumf (fun j => bocc s j * bonds_upto c s rmax i j) (seq 0 (bn s)).
(** the iteration order of the set of all (symbol, valence) in the structure *)
Definition enumerates (c : bvs) (s : bstru) (ord : list (str * Z)) : Prop :=
  forall e, In e ord <-> exists i, (i < bn s)%nat /\ e = (baresymbol c s i, valence c s i).
(** the pair can be looked up in either order *)
Definition ordered_pair (c : bvs) (s : bstru) (i j : nat) : Prop :=
  valence c s i <> valence c s j \/ baresymbol c s i = baresymbol c s j.
(** distances are positive, and as many bonds of a length lead from i to j as from j to i *)
Definition lengths_ok (s : bstru) : Prop := forall i j d, In d (bdist s i j) -> 0 <= d.
Definition equal_counts (s : bstru) : Prop := forall i j, (i < bn s)%nat -> (j < bn s)%nat -> Permutation (bdist s i j) (bdist s j i).
