(** * Properties of the functions that work on numbers directly, in double precision
    (C96 circular_distance, C97 folding of delta, C98 custom_round, C99 nm_eV_conversion) *)

Require Import Reals ZArith Lra Lia.
From Flocq Require Import Core.
From Flocq.IEEE754 Require Import BinarySingleNaN.
From Verif Require Import Spec_objective M_ep4 Spec_ep4 M_float Spec_float P_float P_float2.
Open Scope R_scope.

(** ** C96: circular_distance *)
Theorem C96_circular_distance : forall a b : f64, finite a -> finite b -> Rabs (val a - val b) <= 360 ->
  let r := fl_circular_distance a b (fZ 360) in
  finite r /\ 0 <= val r <= 180 /\
  val (fl_circular_distance b a (fZ 360)) = val r /\
  (exists d, circle_distance 360 (val a) (val b) d /\ Rabs (val r - d) <= / 2 ^ 45) /\
  (val b / 2 <= val a <= 2 * val b -> circle_distance 360 (val a) (val b) (val r)) /\
  (val r = 0 -> val a = val b \/ Rabs (360 - Rabs (val a - val b)) <= / 2 ^ 45).
Proof. exact cd_float. Qed.
Print Assumptions C96_circular_distance.

Theorem C96_nan : forall a b p : f64, nan a \/ nan b \/ nan p -> nan (fl_circular_distance a b p).
Proof. exact cd_nan. Qed.
Print Assumptions C96_nan.

Example C96_example : finite (fZ 350) /\ finite (fZ 20) /\ Rabs (val (fZ 350) - val (fZ 20)) <= 360.
Proof.
  destruct (finite_Z 350 ltac:(lia)) as [A ->]. destruct (finite_Z 20 ltac:(lia)) as [B ->].
  split; [|split]; auto. rewrite Rabs_pos_eq; lra.
Qed.
Example C96_example_value : val (fl_circular_distance (fZ 350) (fZ 20) (fZ 360)) = 30.
Proof. apply (val_Z _ 30); [lia|vm_compute; reflexivity..]. Qed.
Example C96_example_nan : nan (B754_nan : f64).
Proof. reflexivity. Qed.

(** ** C97: folding of delta *)
Theorem C97_fold : forall d : f64, finite d ->
  (val d <= 180 -> fl_fold d = d) /\
  (180 < val d <= 720 -> finite (fl_fold d) /\ val (fl_fold d) = 360 - val d) /\
  (0 <= val d <= 360 -> 0 <= val (fl_fold d) <= 180 /\ fl_fold (fl_fold d) = fl_fold d).
Proof. exact fold_float. Qed.
Print Assumptions C97_fold.

Theorem C97_nan : forall d : f64, nan d -> nan (fl_fold d).
Proof. exact fold_nan. Qed.
Print Assumptions C97_nan.

Example C97_example : finite (fZ 270) /\ 180 < val (fZ 270) <= 360 /\ val (fl_fold (fZ 270)) = 90.
Proof.
  destruct (finite_Z 270 ltac:(lia)) as [A ->]. split; [auto|]. split; [lra|].
  apply (val_Z _ 90); [lia|vm_compute; reflexivity..].
Qed.

(** ** C98: custom_round with its default base *)
Theorem C98_custom_round : forall x : f64, finite x -> Rabs (val x) <= 2 ^ 45 ->
  let r := fl_custom_round x quarter in
  finite r /\ (exists k, val r = IZR k / 4 /\ nearest_even (val x * 4) k) /\
  custom_round (val x) (1 / 4) = Some (val r) /\ val (fl_custom_round r quarter) = val r.
Proof. exact custom_round_float. Qed.
Print Assumptions C98_custom_round.

Example C98_example : finite (fZ 65) /\ Rabs (val (fZ 65)) <= 2 ^ 45 /\ val (fl_custom_round (fZ 65) quarter) = 65.
Proof.
  destruct (finite_Z 65 ltac:(lia)) as [A ->]. split; [auto|]. split.
  - rewrite Rabs_pos_eq by lra. rewrite pow2_45. apply IZR_le. lia.
  - apply (val_Z _ 65); [lia|vm_compute; reflexivity..].
Qed.
(** 65.1 is rounded to 65 *)
Example C98_example_tenth : val (fl_custom_round (fdiv (fZ 651) (fZ 10)) quarter) = 65.
Proof. apply (val_Z _ 65); [lia|vm_compute; reflexivity..]. Qed.

(** ** C99: nm_eV_conversion *)
Theorem C99_nm_eV : forall v : f64, bpow radix2 (-800) <= Rabs (val v) <= bpow radix2 800 ->
  let e := fl_nm_eV v in
  finite e /\ finite (fl_nm_eV e) /\
  Rabs (val e - 1239841984055 / 1000000000 / val v) <= 3 * u * Rabs (1239841984055 / 1000000000 / val v) /\
  Rabs (val (fl_nm_eV e) - val v) <= 3 * u * Rabs (val v).
Proof. exact nm_eV_float. Qed.
Print Assumptions C99_nm_eV.

Theorem C99_decreasing : forall v w : f64,
  bpow radix2 (-800) <= val v <= val w -> val w <= bpow radix2 800 ->
  0 < val (fl_nm_eV w) <= val (fl_nm_eV v).
Proof. exact nm_eV_float_mono. Qed.
Print Assumptions C99_decreasing.

Theorem C99_special : (forall v : f64, nan v -> nan (fl_nm_eV v)) /\
  fl_nm_eV (B754_zero false) = B754_infinity false /\ fl_nm_eV (B754_zero true) = B754_infinity true /\
  fl_nm_eV (B754_infinity false) = B754_zero false.
Proof. exact nm_eV_float_special. Qed.
Print Assumptions C99_special.

(** converting to eV and back does not always return the wavelength: 207 nm *)
Theorem C99_involution_refuted : exists v : f64, finite v /\ val v = 207 /\ val (fl_nm_eV (fl_nm_eV v)) <> val v.
Proof. exact nm_eV_not_involution. Qed.
Print Assumptions C99_involution_refuted.

Example C99_example : bpow radix2 (-800) <= Rabs (val (fZ 633)) <= bpow radix2 800 /\
  bpow radix2 (-800) <= val (fZ 400) <= val (fZ 633).
Proof.
  destruct (finite_Z 633 ltac:(lia)) as [_ ->]. destruct (finite_Z 400 ltac:(lia)) as [_ ->].
  assert (bpow radix2 (-800) <= bpow radix2 0) by (apply bpow_le; lia).
  assert (bpow radix2 10 <= bpow radix2 800) by (apply bpow_le; lia).
  change (bpow radix2 0) with 1 in *. change (bpow radix2 10) with 1024 in *.
  rewrite Rabs_pos_eq by lra. lra.
Qed.
