(** * Proofs about the double precision functions *)

Require Import Reals ZArith Bool Lra Lia Psatz.
From Flocq Require Import Core.
From Flocq.IEEE754 Require Import BinarySingleNaN.
From Flocq.Prop Require Import Sterbenz Relative Plus_error.
From Verif Require Import M_objective Spec_objective P_objective M_float Spec_float.
Open Scope R_scope.

Notation rnd := (round radix2 (FLT_exp (-1074) 53) ZnearestE).
Notation fmt := (generic_format radix2 (FLT_exp (-1074) 53)).

Global Instance vexp : Valid_exp (FLT_exp (-1074) 53).
Proof. apply FLT_exp_valid. reflexivity. Qed.
Global Instance mexp : Monotone_exp (FLT_exp (-1074) 53).
Proof. apply FLT_exp_monotone. Qed.

Lemma val_fmt x : fmt (val x).
Proof. exact (generic_format_B2R 53 1024 x). Qed.

Lemma big : bpow radix2 1000 < bpow radix2 1024.
Proof. apply bpow_lt. lia. Qed.
Lemma fmt_big : fmt (bpow radix2 1000).
Proof. apply generic_format_bpow. unfold FLT_exp. lia. Qed.

Lemma rnd_big x : Rabs x <= bpow radix2 1000 -> Rlt_bool (Rabs (rnd x)) (bpow radix2 1024) = true.
Proof.
  intros H. apply Rlt_bool_true. eapply Rle_lt_trans; [|exact big].
  apply abs_round_le_generic; auto using fmt_big; typeclasses eauto.
Qed.

Lemma fsub_val x y : finite x -> finite y -> Rabs (val x - val y) <= bpow radix2 1000 ->
  val (fsub x y) = rnd (val x - val y) /\ finite (fsub x y).
Proof.
  intros X Y H. pose proof (Bminus_correct 53 1024 prec_ok emax_ok mode_NE x y X Y) as E.
  change (Rlt_bool (Rabs (rnd (val x - val y))) (bpow radix2 1024)) with
         (Rlt_bool (Rabs (round radix2 (SpecFloat.fexp 53 1024) (round_mode mode_NE) (B2R x - B2R y))) (bpow radix2 1024)) in *.
  pose proof (rnd_big _ H) as B.
  change (rnd (val x - val y)) with (round radix2 (SpecFloat.fexp 53 1024) (round_mode mode_NE) (B2R x - B2R y)) in B.
  rewrite B in E. destruct E as (E1 & E2 & _). split; [exact E1|exact E2].
Qed.
Lemma fmul_val x y : finite x -> finite y -> Rabs (val x * val y) <= bpow radix2 1000 ->
  val (fmul x y) = rnd (val x * val y) /\ finite (fmul x y).
Proof.
  intros X Y H. pose proof (Bmult_correct 53 1024 prec_ok emax_ok mode_NE x y) as E.
  pose proof (rnd_big _ H) as B.
  change (rnd (val x * val y)) with (round radix2 (SpecFloat.fexp 53 1024) (round_mode mode_NE) (B2R x * B2R y)) in B.
  rewrite B in E. destruct E as (E1 & E2 & _). split; [exact E1|].
  unfold finite in *. unfold fmul. rewrite E2, X, Y. reflexivity.
Qed.
Lemma fdiv_val x y : finite x -> val y <> 0 -> Rabs (val x / val y) <= bpow radix2 1000 ->
  val (fdiv x y) = rnd (val x / val y) /\ finite (fdiv x y).
Proof.
  intros X Y H. pose proof (Bdiv_correct 53 1024 prec_ok emax_ok mode_NE x y Y) as E.
  pose proof (rnd_big _ H) as B.
  change (rnd (val x / val y)) with (round radix2 (SpecFloat.fexp 53 1024) (round_mode mode_NE) (B2R x / B2R y)) in B.
  rewrite B in E. destruct E as (E1 & E2 & _). split; [exact E1|].
  unfold finite in *. unfold fdiv. rewrite E2, X. reflexivity.
Qed.

(** integers below 2^53 are exact *)
Lemma fmt_Z z : (Z.abs z <= 2 ^ 53)%Z -> fmt (IZR z).
Proof.
  intros H. destruct (Z.eq_dec (Z.abs z) (2 ^ 53)) as [E|N].
  - assert (E' : IZR z = bpow radix2 53 \/ IZR z = - bpow radix2 53).
    { change (bpow radix2 53) with (IZR (2 ^ 53)). rewrite <- opp_IZR. destruct (Z.abs_eq_or_opp z); [left|right]; f_equal; lia. }
    destruct E' as [->| ->]; [|apply generic_format_opp]; apply generic_format_bpow; unfold FLT_exp; lia.
  - apply generic_format_FLT. exists (Float radix2 z 0); [unfold F2R; cbn; ring|cbn [Fnum]|cbn; lia].
    change (Zpower radix2 53) with (2 ^ 53)%Z. lia.
Qed.
Lemma fZ_val z : (Z.abs z <= 2 ^ 53)%Z -> val (fZ z) = IZR z /\ finite (fZ z).
Proof.
  intros H. pose proof (binary_normalize_correct 53 1024 prec_ok emax_ok mode_NE z 0 false) as E. cbv zeta in E.
  assert (F : F2R (Float radix2 z 0) = IZR z) by (unfold F2R; cbn; ring).
  rewrite F in E.
  assert (B : Rabs (IZR z) <= bpow radix2 1000).
  { rewrite <- abs_IZR. apply Rle_trans with (IZR (2 ^ 53)); [apply IZR_le; auto|].
    change (IZR (2 ^ 53)) with (bpow radix2 53). apply bpow_le. lia. }
  pose proof (rnd_big _ B) as B'.
  change (rnd (IZR z)) with (round radix2 (SpecFloat.fexp 53 1024) (round_mode mode_NE) (IZR z)) in B'.
  rewrite B' in E. destruct E as (E1 & E2 & _). split; [|exact E2].
  unfold val, fZ. rewrite E1. change (rnd (IZR z) = IZR z). apply round_generic; try typeclasses eauto. apply fmt_Z; auto.
Qed.

Lemma small x : Rabs x <= IZR (2 ^ 60) -> Rabs x <= bpow radix2 1000.
Proof. intros H. eapply Rle_trans; [exact H|]. change (IZR (2 ^ 60)) with (bpow radix2 60). apply bpow_le. lia. Qed.

Lemma finite_not_nan x : finite x -> is_nan x = false.
Proof. unfold finite. destruct x; auto; discriminate. Qed.

Lemma fminimum_val x y : finite x -> finite y ->
  finite (fminimum x y) /\ val (fminimum x y) = Rmin (val x) (val y).
Proof.
  intros X Y. unfold fminimum. rewrite (finite_not_nan x), (finite_not_nan y) by auto. cbn [orb].
  rewrite Bleb_correct by auto. unfold val. case Rle_bool_spec; intros H; split; auto.
  - rewrite Rmin_left; auto.
  - rewrite Rmin_right; lra.
Qed.

(** ** circular_distance *)
Lemma rnd_le x y : x <= y -> rnd x <= rnd y.
Proof. apply round_le; typeclasses eauto. Qed.
Lemma rnd_id x : fmt x -> rnd x = x.
Proof. intros. apply round_generic; auto; typeclasses eauto. Qed.

Lemma pow2_45 : 2 ^ 45 = IZR (2 ^ 45).
Proof. rewrite (pow_IZR 2 45). reflexivity. Qed.
Lemma rnd_err x : Rabs x <= 360 -> Rabs (rnd x - x) <= / 2 ^ 45.
Proof.
  intros H. eapply Rle_trans; [apply error_le_half_ulp; typeclasses eauto|].
  destruct (Req_dec x 0) as [->|N].
  - rewrite ulp_FLT_0 by reflexivity. change (-1074)%Z with (-1029 + -45)%Z. rewrite bpow_plus.
    change (bpow radix2 (-45)) with (/ IZR (2 ^ 45)).
    assert (bpow radix2 (-1029) <= 1) by (change 1 with (bpow radix2 0); apply bpow_le; lia).
    pose proof (bpow_gt_0 radix2 (-1029)).
    rewrite pow2_45.
    assert (0 < / IZR (2 ^ 45)) by (apply Rinv_0_lt_compat, IZR_lt; reflexivity). nra.
  - rewrite ulp_neq_0 by auto.
    assert (C : (cexp radix2 (FLT_exp (-1074) 53) x <= -44)%Z).
    { unfold cexp, FLT_exp.
      assert ((mag radix2 x <= 9)%Z). { apply mag_le_bpow; auto. change (bpow radix2 9) with 512. lra. }
      lia. }
    apply (bpow_le radix2) in C. change (bpow radix2 (-44)) with (/ IZR (2 ^ 44)) in C.
    replace (/ 2 ^ 45) with (/ 2 * / IZR (2 ^ 44)); [lra|].
    rewrite pow2_45. replace (IZR (2 ^ 45)) with (2 * IZR (2 ^ 44)); [|rewrite <- mult_IZR; reflexivity].
    rewrite Rinv_mult. reflexivity.
Qed.

Lemma Rmin_lip x y c : Rabs (Rmin x (c - x) - Rmin y (c - y)) <= Rabs (x - y).
Proof. unfold Rmin, Rabs. repeat destruct Rle_dec; repeat destruct Rcase_abs; lra. Qed.

Lemma v360 : val (fZ 360) = 360 /\ finite (fZ 360).
Proof. apply (fZ_val 360). cbn. lia. Qed.
Lemma v180 : val (fZ 180) = 180 /\ finite (fZ 180).
Proof. apply (fZ_val 180). cbn. lia. Qed.
Lemma fmt360 : fmt 360. Proof. apply (fmt_Z 360). cbn. lia. Qed.
Lemma fmt180 : fmt 180. Proof. apply (fmt_Z 180). cbn. lia. Qed.
Lemma fmt0 : fmt 0. Proof. apply generic_format_0. Qed.

Lemma finite_fabs x : finite x -> finite (fabs x).
Proof. unfold finite, fabs. rewrite is_finite_Babs. auto. Qed.
Lemma val_fabs x : val (fabs x) = Rabs (val x).
Proof. apply B2R_Babs. Qed.
Lemma rnd_abs x : Rabs (rnd x) = rnd (Rabs x).
Proof. symmetry. apply round_NE_abs. typeclasses eauto. Qed.

(** the one rounding that matters is that of the difference *)
Lemma cd_val a b : finite a -> finite b -> Rabs (val a - val b) <= 360 ->
  let r := fl_circular_distance a b (fZ 360) in
  let D := rnd (Rabs (val a - val b)) in
  finite r /\ 0 <= D <= 360 /\ val r = Rmin D (360 - D).
Proof.
  intros A B H r D.
  assert (H60 : Rabs (val a - val b) <= IZR (2 ^ 60)) by (eapply Rle_trans; [exact H|]; apply IZR_le; lia).
  destruct (fsub_val a b A B (small _ H60)) as [V F].
  assert (D0 : 0 <= D <= 360).
  { unfold D. split.
    - rewrite <- (rnd_id 0 fmt0). apply rnd_le, Rabs_pos.
    - rewrite <- (rnd_id 360 fmt360). apply rnd_le. exact H. }
  assert (VD : val (fabs (fsub a b)) = D) by (rewrite val_fabs, V; apply rnd_abs).
  destruct v360 as [V3 F3].
  assert (S6 : Rabs (val (fZ 360) - val (fabs (fsub a b))) <= IZR (2 ^ 60)).
  { rewrite V3, VD. rewrite Rabs_pos_eq by lra. apply Rle_trans with 360; [lra|]. apply IZR_le. lia. }
  destruct (fsub_val (fZ 360) (fabs (fsub a b)) F3 (finite_fabs _ F) (small _ S6)) as [V2 F2].
  rewrite V3, VD in V2.
  destruct (fminimum_val _ _ (finite_fabs _ F) F2) as [FM VM].
  split; [exact FM|]. split; auto. unfold r, fl_circular_distance. rewrite VM, VD, V2.
  destruct (Rle_dec 180 D) as [G|G].
  - rewrite (rnd_id (360 - D)); auto. apply sterbenz; try typeclasses eauto.
    + exact fmt360.
    + rewrite <- VD. apply val_fmt.
    + lra.
  - assert (180 <= rnd (360 - D)). { rewrite <- (rnd_id 180 fmt180). apply rnd_le. lra. }
    rewrite Rmin_left, Rmin_left; lra.
Qed.

Lemma circle_min x y : Rabs (x - y) <= 360 -> circle_distance 360 x y (Rmin (Rabs (x - y)) (360 - Rabs (x - y))).
Proof. intros H. exact (proj1 (circ_is_distance x y 360 ltac:(lra) H)). Qed.

Theorem cd_float a b : finite a -> finite b -> Rabs (val a - val b) <= 360 ->
  let r := fl_circular_distance a b (fZ 360) in
  finite r /\ 0 <= val r <= 180 /\
  val (fl_circular_distance b a (fZ 360)) = val r /\
  (exists d, circle_distance 360 (val a) (val b) d /\ Rabs (val r - d) <= / 2 ^ 45) /\
  (val b / 2 <= val a <= 2 * val b -> circle_distance 360 (val a) (val b) (val r)) /\
  (val r = 0 -> val a = val b \/ Rabs (360 - Rabs (val a - val b)) <= / 2 ^ 45).
Proof.
  intros A B H. destruct (cd_val a b A B H) as (F & D0 & V).
  assert (H' : Rabs (val b - val a) <= 360) by (rewrite Rabs_minus_sym; exact H).
  destruct (cd_val b a B A H') as (_ & _ & V').
  cbv zeta in *. set (x := Rabs (val a - val b)) in *. set (D := rnd x) in *.
  assert (X0 : 0 <= x) by apply Rabs_pos.
  assert (ER : Rabs (D - x) <= / 2 ^ 45). { apply rnd_err. rewrite Rabs_pos_eq; auto. }
  split; auto. split; [rewrite V; unfold Rmin; destruct Rle_dec; lra|].
  split; [rewrite V', V; unfold D, x; rewrite (Rabs_minus_sym (val b)); reflexivity|].
  split; [|split].
  - exists (Rmin x (360 - x)). split; [apply circle_min; exact H|].
    rewrite V. eapply Rle_trans; [apply Rmin_lip|exact ER].
  - intros S. assert (E : D = x).
    { unfold D. apply rnd_id. apply generic_format_abs. apply sterbenz; try typeclasses eauto; auto using val_fmt. }
    rewrite V, E. apply circle_min. exact H.
  - rewrite V. unfold Rmin. destruct Rle_dec as [L|L]; intros Z.
    + left. unfold D, x in Z. rewrite <- rnd_abs in Z. apply Rminus_diag_uniq.
      assert (Z' : rnd (val a + - val b) = 0).
      { destruct (Req_dec (rnd (val a - val b)) 0) as [E|N]; [exact E|]. apply Rabs_no_R0 in N. contradiction. }
      apply (round_plus_eq_0 radix2 (FLT_exp (-1074) 53) ZnearestE); auto using val_fmt.
      apply generic_format_opp, val_fmt.
    + right. replace 360 with D by lra. exact ER.
Qed.

Theorem cd_nan a b p : nan a \/ nan b \/ nan p -> nan (fl_circular_distance a b p).
Proof.
  unfold nan. intros H. unfold fl_circular_distance, fminimum.
  assert (E : is_nan (fabs (fsub a b)) = true \/ is_nan p = true).
  { destruct H as [H|[H|H]]; auto; left; destruct a, b; try discriminate; reflexivity. }
  destruct E as [E|E]; [rewrite E; reflexivity|].
  assert (E' : is_nan (fsub p (fabs (fsub a b))) = true) by (destruct p; try discriminate; destruct (fabs (fsub a b)); reflexivity).
  rewrite E', orb_true_r. reflexivity.
Qed.

(** ** folding *)
Theorem fold_float d : finite d ->
  (val d <= 180 -> fl_fold d = d) /\
  (180 < val d <= 720 -> finite (fl_fold d) /\ val (fl_fold d) = 360 - val d) /\
  (0 <= val d <= 360 -> 0 <= val (fl_fold d) <= 180 /\ fl_fold (fl_fold d) = fl_fold d).
Proof.
  intros F. destruct v180 as [V1 F1]. destruct v360 as [V3 F3].
  assert (G : fgt d (fZ 180) = Rlt_bool 180 (val d)).
  { unfold fgt. rewrite Bltb_correct by auto. change (B2R (fZ 180)) with (val (fZ 180)). rewrite V1. reflexivity. }
  assert (P1 : val d <= 180 -> fl_fold d = d).
  { intros L. unfold fl_fold. rewrite G. rewrite Rlt_bool_false by auto. reflexivity. }
  assert (P2 : 180 < val d <= 720 -> finite (fl_fold d) /\ val (fl_fold d) = 360 - val d).
  { intros L. unfold fl_fold. rewrite G, Rlt_bool_true by lra.
    assert (S6 : Rabs (val (fZ 360) - val d) <= IZR (2 ^ 60)).
    { rewrite V3. apply Rle_trans with 360; [apply Rabs_le; lra|]. apply IZR_le. lia. }
    destruct (fsub_val (fZ 360) d F3 F (small _ S6)) as [V Fi]. split; auto.
    rewrite V, V3. apply rnd_id. apply sterbenz; try typeclasses eauto; auto using fmt360, val_fmt. lra. }
  split; auto. split; auto. intros L. destruct (Rle_dec (val d) 180) as [E|E].
  - rewrite !P1; auto. split; [lra|reflexivity].
  - destruct (P2 ltac:(lra)) as [Fi V]. rewrite V. split; [lra|].
    unfold fl_fold at 1. replace (fgt (fl_fold d) (fZ 180)) with false; auto.
    symmetry. unfold fgt. rewrite Bltb_correct by auto. change (Rlt_bool (val (fZ 180)) (val (fl_fold d)) = false).
    rewrite V, V1. apply Rlt_bool_false. lra.
Qed.
Theorem fold_nan d : nan d -> nan (fl_fold d).
Proof. unfold nan. destruct d; try discriminate. reflexivity. Qed.
