(** Model of the degree trigonometry and the round-off aware comparisons. Source: src/diffpy/mathutils.ipp. *)
From Verif Require Import RBase.
Open Scope R_scope.

(** C fmod for x >= 0, y > 0 *)
Definition fmod (x y : R) : R := x - y * IZR (Rfloor (x / y)).
(** the test "remainder(x, y) == 0.0": x is an integral multiple of y (exact arithmetic) *)
Definition is_multiple (x y : R) : bool := Reqb (y * IZR (Rfloor (x / y))) x.
(** int(round(x)): to nearest, halves away from zero *)
Definition Rround (x : R) : Z := if Rleb 0 x then Rfloor (x + 1/2) else Rceil (x - 1/2).

(** mathutils.ipp:48-67 cosd *)
Definition cosd (x : R) : R :=
  let xp := fmod (Rabs x) 360 in
  if is_multiple xp 60 || is_multiple xp 90 then
    match Rround xp with
    | 0%Z => 1
    | 60%Z | 300%Z => 1/2
    | 90%Z | 270%Z => 0
    | 120%Z | 240%Z => - (1/2)
    | 180%Z => -1
    | _ => cos (x / 180 * PI)
    end
  else cos (x / 180 * PI).
(** mathutils.ipp:70-74 sind *)
Definition sind (x : R) : R := cosd (90 - x).
(** mathutils.ipp:77-92 acosd *)
Definition acosd (x : R) : R :=
  if is_multiple x (1/2) then
    match Rround (x / (1/2)) with
    | 0%Z => 90 | 1%Z => 60 | (-1)%Z => 120 | 2%Z => 0 | (-2)%Z => 180
    | _ => acos x / PI * 180
    end
  else acos x / PI * 180.
(** mathutils.ipp:95-110 asind; the last line does call acos. *)
Definition asind (x : R) : R :=
  if is_multiple x (1/2) then
    match Rround (x / (1/2)) with
    | 0%Z => 0 | 1%Z => 30 | (-1)%Z => -30 | 2%Z => 90 | (-2)%Z => -90
    | _ => acos x / PI * 180
    end
  else acos x / PI * 180.

(** mathutils.ipp:113-131 eps_eq, eps_gt, eps_lt *)
Definition eps_eq (x y eps : R) : bool := Rleb (Rabs (x - y)) eps.
Definition eps_gt (x y eps : R) : bool := Rltb (y + eps) x.
Definition eps_lt (x y eps : R) : bool := Rltb x (y - eps).
(** mathutils.hpp:33-34 SQRT_DOUBLE_EPS = 2^-26, exact for IEEE doubles: (2^-26 + 1) - 1. *)
Definition SQRT_DOUBLE_EPS : R := / 67108864.
