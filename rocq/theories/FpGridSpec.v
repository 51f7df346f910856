(** Specification for the grids in double arithmetic. [dbl x]: x is a double; [rnd x]: the double nearest to x. *)
From Flocq Require Import Core.
From Verif Require Import RBase Trig Fp PdfGrid.
Open Scope R_scope.

(** settings a calculator accepts and whose step counts fit an int: the minimum is tiny against the machine's range *)
Record grid_settings (rmin rmax rstep : R) : Prop := {
  gs_rmin : dbl rmin /\ 0 <= rmin;
  gs_rmax : dbl rmax /\ 0 <= rmax;
  gs_rstep : dbl rstep /\ / 67108864 < rstep <= bpow radix2 1000;
  gs_steps : rmin <= 2147483000 * rstep /\ rmax <= 2147483000 * rstep
}.
(** with the extension of the range; [tails]: half width of the widest peak *)
Record range_settings (rmin rmax rstep maxext qmax tails : R) : Prop := {
  rs_grid : grid_settings rmin rmax rstep;
  rs_ext : dbl maxext /\ 0 <= maxext;
  rs_qmax : dbl qmax;
  rs_tails : 0 <= tails;
  rs_steps : maxext <= 2147483000 * rstep /\ rmax + maxext <= 2147483000 * rstep
}.
