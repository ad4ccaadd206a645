(** * Double precision models of functions that work on numbers directly:
    circular_distance (objectiveSE.py:21-40), the folding of delta (dataSE.py:102-105),
    custom_round (dataSE.py:354-372), nm_eV_conversion (structureSE.py:925-934).

    IEEE binary64 with one NaN, infinities and signed zeros (Flocq); every operation rounds to
    nearest, ties to even, as numpy does.  One value at a time: numpy maps them over arrays. *)

Require Import ZArith Bool.
From Flocq Require Import Core.
From Flocq.IEEE754 Require Import BinarySingleNaN.

Definition f64 : Set := binary_float 53 1024.
Definition prec_ok : Prec_gt_0 53 := eq_refl.
Definition emax_ok : Prec_lt_emax 53 1024 := eq_refl.

Definition fadd : f64 -> f64 -> f64 := @Bplus 53 1024 prec_ok emax_ok mode_NE.
Definition fsub : f64 -> f64 -> f64 := @Bminus 53 1024 prec_ok emax_ok mode_NE.
Definition fmul : f64 -> f64 -> f64 := @Bmult 53 1024 prec_ok emax_ok mode_NE.
Definition fdiv : f64 -> f64 -> f64 := @Bdiv 53 1024 prec_ok emax_ok mode_NE.
Definition fabs : f64 -> f64 := @Babs 53 1024.
(** np.rint: to the nearest integer, ties to even *)
Definition frint : f64 -> f64 := @Bnearbyint 53 1024 emax_ok mode_NE.
(** the number z, correctly rounded *)
Definition fZ (z : Z) : f64 := binary_normalize 53 1024 prec_ok emax_ok mode_NE z 0 false.
(** a > b; false for nan *)
Definition fgt (a b : f64) : bool := Bltb b a.
(** np.minimum: nan if one of the arguments is nan *)
Definition fminimum (a b : f64) : f64 :=
  if (is_nan a || is_nan b)%bool then B754_nan else if Bleb a b then a else b.

(** objectiveSE.py:39-40 *)
Definition fl_circular_distance (angle1 angle2 period : f64) : f64 :=
  let diff := fabs (fsub angle1 angle2) in
  fminimum diff (fsub period diff).

(** dataSE.py:103-104: delta[delta > 180] = 360 - delta[delta > 180] *)
Definition fl_fold (delta : f64) : f64 :=
  if fgt delta (fZ 180) then fsub (fZ 360) delta else delta.

(** np.round(x, 2): x * 100, rint, / 100 *)
Definition fl_round2 (x : f64) : f64 := fdiv (frint (fmul x (fZ 100))) (fZ 100).
(** dataSE.py:372 *)
Definition fl_custom_round (x base : f64) : f64 := fl_round2 (fmul base (frint (fdiv x base))).
(** the default base 0.25 *)
Definition quarter : f64 := fdiv (fZ 1) (fZ 4).

(** structureSE.py:934: the literal 1239.841984055 is rounded to nearest, as is the quotient
    of two integers below 2^53 *)
Definition hc : f64 := fdiv (fZ 1239841984055) (fZ 1000000000).
Definition fl_nm_eV (val : f64) : f64 := fdiv hc val.
