(** * Double precision: custom_round and nm_eV_conversion *)

Require Import Reals ZArith Bool Lra Lia Psatz.
From Flocq Require Import Core.
From Flocq.IEEE754 Require Import BinarySingleNaN.
From Flocq.Prop Require Import Sterbenz Relative Plus_error Mult_error.
From Verif Require Import M_ep4 Spec_ep4 P_ep4e M_float Spec_float P_float.
Open Scope R_scope.

Lemma nearest_even_Z x : nearest_even x (ZnearestE x).
Proof.
  split.
  - rewrite Rabs_minus_sym. replace (1 / 2) with (/ 2) by lra. rewrite Rabs_minus_sym. apply Znearest_half.
  - intros H. unfold Znearest in *.
    pose proof (Zfloor_lb x). pose proof (Zfloor_ub x).
    destruct (Rcompare_spec (x - IZR (Zfloor x)) (/ 2)) as [L|E|G].
    + rewrite Rabs_pos_eq in H by lra. lra.
    + destruct (Z.even (Zfloor x)) eqn:Ev; cbn [negb]; auto.
      rewrite Zceil_floor_neq by lra. rewrite Z.even_add, Ev. reflexivity.
    + exfalso. rewrite Zceil_floor_neq in H by lra. rewrite plus_IZR in H.
      rewrite <- Rabs_Ropp, Rabs_pos_eq in H by lra. lra.
Qed.

Lemma rint_val x : val (frint x) = IZR (ZnearestE (val x)) /\ (finite x -> finite (frint x)).
Proof.
  destruct (Bnearbyint_correct 53 1024 emax_ok mode_NE x) as (E & F & _). split.
  - unfold val, frint. rewrite E. unfold round, scaled_mantissa, cexp, FIX_exp, F2R. cbn. rewrite !Rmult_1_r. reflexivity.
  - unfold finite, frint. rewrite F. auto.
Qed.

Lemma quarter_val : val quarter = 1 / 4 /\ finite quarter.
Proof.
  destruct (fZ_val 1) as [A1 A2]; [cbn; lia|]. destruct (fZ_val 4) as [B1 B2]; [cbn; lia|].
  unfold quarter.
  destruct (fdiv_val (fZ 1) (fZ 4)) as [V F]; auto.
  - rewrite B1. lra.
  - rewrite A1, B1. apply small. rewrite Rabs_pos_eq by lra. apply Rle_trans with 1; [lra|]. apply IZR_le. lia.
  - split; auto. rewrite V, A1, B1. apply rnd_id.
    replace (1 / 4) with (bpow radix2 (-2)) by (cbn; lra). apply generic_format_bpow. unfold FLT_exp. lia.
Qed.

Lemma fmt_quarters m : (Z.abs m < 2 ^ 53)%Z -> fmt (IZR m / 4).
Proof.
  intros H. apply generic_format_FLT. exists (Float radix2 m (-2)); [unfold F2R; cbn; lra|exact H|cbn; lia].
Qed.

Lemma Rabs_60 x y : Rabs x <= y -> y <= IZR (2 ^ 60) -> Rabs x <= bpow radix2 1000.
Proof. intros. apply small. lra. Qed.

Lemma custom_round_val x : finite x -> Rabs (val x) <= 2 ^ 45 ->
  let m := ZnearestE (4 * val x) in
  finite (fl_custom_round x quarter) /\ val (fl_custom_round x quarter) = IZR m / 4 /\ (Z.abs m <= 2 ^ 47)%Z.
Proof.
  intros F H m. rewrite pow2_45 in H. destruct quarter_val as [Q1 Q2]. destruct (fZ_val 100) as [C1 C2]; [cbn; lia|].
  assert (B60 : IZR (2 ^ 45) <= IZR (2 ^ 60)) by (apply IZR_le; lia).
  (* x / 0.25 *)
  assert (E4 : val x / val quarter = 4 * val x) by (rewrite Q1; field).
  assert (H4 : Rabs (4 * val x) <= IZR (2 ^ 47)).
  { rewrite Rabs_mult, Rabs_pos_eq by lra. change (2 ^ 47)%Z with (4 * 2 ^ 45)%Z. rewrite mult_IZR. lra. }
  destruct (fdiv_val x quarter F) as [V1 F1]; [rewrite Q1; lra|rewrite E4; eapply Rabs_60; [exact H4|apply IZR_le; lia]|].
  rewrite E4 in V1. rewrite rnd_id in V1.
  2:{ replace (4 * val x) with (val x * bpow radix2 2) by (cbn; ring). apply mult_bpow_pos_exact_FLT; [apply val_fmt|lia]. }
  (* rint *)
  destruct (rint_val (fdiv x quarter)) as [V2 F2]. rewrite V1 in V2. fold m in V2. specialize (F2 F1).
  assert (HM : (Z.abs m <= 2 ^ 47)%Z).
  { apply le_IZR. rewrite abs_IZR. unfold m. apply Rabs_le_inv in H4.
    assert (L : (ZnearestE (4 * val x) <= 2 ^ 47)%Z).
    { rewrite <- (@Zrnd_IZR ZnearestE _ (2 ^ 47)). apply (@Zrnd_le ZnearestE _); lra. }
    assert (L' : (- 2 ^ 47 <= ZnearestE (4 * val x))%Z).
    { rewrite <- (@Zrnd_IZR ZnearestE _ (- 2 ^ 47)). apply (@Zrnd_le ZnearestE _). rewrite opp_IZR. lra. }
    apply Rabs_le. split; [rewrite <- opp_IZR|]; apply IZR_le; auto. }
  assert (HMR : Rabs (IZR m) <= IZR (2 ^ 47)) by (rewrite <- abs_IZR; apply IZR_le; auto).
  (* 0.25 * ... *)
  destruct (fmul_val quarter (frint (fdiv x quarter)) Q2 F2) as [V3 F3].
  { rewrite Q1, V2. apply (Rabs_60 _ (IZR (2 ^ 47))); [|apply IZR_le; lia].
    rewrite Rabs_mult, (Rabs_pos_eq (1 / 4)) by lra. pose proof (Rabs_pos (IZR m)). lra. }
  rewrite Q1, V2 in V3. replace (1 / 4 * IZR m) with (IZR m / 4) in V3 by field.
  rewrite rnd_id in V3 by (apply fmt_quarters; lia).
  set (y := fmul quarter (frint (fdiv x quarter))) in *.
  (* ... * 100 *)
  assert (E25 : val y * val (fZ 100) = IZR (25 * m)) by (rewrite V3, C1, mult_IZR; field).
  assert (H25 : (Z.abs (25 * m) <= 2 ^ 53)%Z) by lia.
  destruct (fmul_val y (fZ 100) F3 C2) as [V4 F4].
  { rewrite E25. apply (Rabs_60 _ (IZR (2 ^ 53))); [rewrite <- abs_IZR; apply IZR_le; lia|apply IZR_le; lia]. }
  rewrite E25, rnd_id in V4 by (apply fmt_Z; auto).
  destruct (rint_val (fmul y (fZ 100))) as [V5 F5]. rewrite V4, (@Zrnd_IZR ZnearestE _) in V5. specialize (F5 F4).
  destruct (fdiv_val (frint (fmul y (fZ 100))) (fZ 100) F5) as [V6 F6].
  { rewrite C1. lra. }
  { rewrite V5, C1. apply (Rabs_60 _ (IZR (2 ^ 53))); [|apply IZR_le; lia].
    unfold Rdiv. rewrite Rabs_mult, (Rabs_pos_eq (/ 100)) by lra.
    assert (Rabs (IZR (25 * m)) <= IZR (2 ^ 53)) by (rewrite <- abs_IZR; apply IZR_le; lia).
    pose proof (Rabs_pos (IZR (25 * m))). lra. }
  rewrite V5, C1 in V6. replace (IZR (25 * m) / 100) with (IZR m / 4) in V6 by (rewrite mult_IZR; field).
  rewrite rnd_id in V6 by (apply fmt_quarters; lia).
  unfold fl_custom_round, fl_round2. fold y. auto.
Qed.

Theorem custom_round_float x : finite x -> Rabs (val x) <= 2 ^ 45 ->
  let r := fl_custom_round x quarter in
  finite r /\ (exists k, val r = IZR k / 4 /\ nearest_even (val x * 4) k) /\
  custom_round (val x) (1 / 4) = Some (val r) /\ val (fl_custom_round r quarter) = val r.
Proof.
  intros F H r. destruct (custom_round_val x F H) as (F' & V & B).
  pose proof (nearest_even_Z (4 * val x)) as N.
  split; auto. split; [|split].
  - exists (ZnearestE (4 * val x)). split; [exact V|]. rewrite Rmult_comm. exact N.
  - destruct (custom_round_spec (val x) 25) as (y & k & E1 & E2 & E3 & _); [lia|].
    replace (IZR 25 / 100) with (1 / 4) in * by (cbn; field). rewrite E1. f_equal.
    unfold r. rewrite V, E2. replace (val x / (1 / 4)) with (4 * val x) in E3 by field.
    assert (k = ZnearestE (4 * val x)); [|subst k; field].
    eapply even_unique; eauto.
  - assert (H' : Rabs (val r) <= 2 ^ 45).
    { unfold r. rewrite V, pow2_45. unfold Rdiv. rewrite Rabs_mult, (Rabs_pos_eq (/ 4)) by lra. rewrite <- abs_IZR.
      apply IZR_le in B. change (2 ^ 47)%Z with (4 * 2 ^ 45)%Z in B. rewrite mult_IZR in B. lra. }
    destruct (custom_round_val r F' H') as (_ & V' & _). rewrite V'. unfold r at 1. rewrite V.
    replace (4 * (IZR (ZnearestE (4 * val x)) / 4)) with (IZR (ZnearestE (4 * val x))) by field.
    rewrite (@Zrnd_IZR ZnearestE _). unfold r. rewrite V. reflexivity.
Qed.

(** ** nm_eV_conversion *)
Notation c0 := (1239841984055 / 1000000000).

Lemma pow2_53 : 2 ^ 53 = IZR (2 ^ 53).
Proof. rewrite (pow_IZR 2 53). reflexivity. Qed.
Lemma u_pos : 0 < u < 1 / 1000.
Proof. unfold u. rewrite pow2_53. cbn. lra. Qed.
Lemma u_bpow : / 2 * bpow radix2 (- 53 + 1) = u.
Proof. unfold u. rewrite pow2_53. cbn. lra. Qed.

Lemma rnd_rel x : bpow radix2 (-1022) <= Rabs x -> exists e, Rabs e <= u /\ rnd x = x * (1 + e).
Proof.
  intros H. rewrite <- u_bpow.
  apply (relative_error_N_FLT_ex radix2 (-1074) 53 eq_refl (fun x => negb (Z.even x)) x). exact H.
Qed.

Lemma hc_val : finite hc /\ exists e, Rabs e <= u /\ val hc = c0 * (1 + e).
Proof.
  destruct (fZ_val 1239841984055) as [A1 A2]; [cbn; lia|]. destruct (fZ_val 1000000000) as [B1 B2]; [cbn; lia|].
  destruct (fdiv_val (fZ 1239841984055) (fZ 1000000000)) as [V F]; auto.
  - rewrite B1. lra.
  - rewrite A1, B1. apply small. rewrite Rabs_pos_eq by lra. apply Rle_trans with 2000; [lra|]. apply IZR_le. lia.
  - split; auto. unfold hc. rewrite V, A1, B1. apply rnd_rel.
    rewrite Rabs_pos_eq by lra. apply Rle_trans with (bpow radix2 0); [apply bpow_le; lia|cbn; lra].
Qed.
Lemma hc_range : 1000 <= val hc <= 2000.
Proof.
  destruct hc_val as (_ & e & B & ->). pose proof u_pos. apply Rabs_le_inv in B. nra.
Qed.

(** division of hc by a double that is neither huge nor tiny *)
Lemma hc_div v : bpow radix2 (-900) <= Rabs (val v) <= bpow radix2 900 ->
  finite (fl_nm_eV v) /\ val (fl_nm_eV v) = rnd (val hc / val v) /\
  exists e, Rabs e <= u /\ val (fl_nm_eV v) = val hc / val v * (1 + e).
Proof.
  intros (L & U). destruct hc_val as (F & _). pose proof hc_range as R.
  pose proof (bpow_gt_0 radix2 (-900)) as P. pose proof (bpow_gt_0 radix2 900) as P'.
  assert (N : val v <> 0) by (intros E; rewrite E, Rabs_R0 in L; lra).
  assert (AP : 0 < Rabs (val v)) by lra.
  assert (Q : Rabs (val hc / val v) = val hc * / Rabs (val v)).
  { unfold Rdiv. rewrite Rabs_mult, Rabs_inv, (Rabs_pos_eq (val hc)) by lra. reflexivity. }
  assert (I1 : / Rabs (val v) <= bpow radix2 900).
  { change 900%Z with (- - (900))%Z. rewrite bpow_opp. apply Rinv_le; auto. }
  assert (I2 : bpow radix2 (-900) <= / Rabs (val v)).
  { change (-900)%Z with (- (900))%Z. rewrite bpow_opp. apply Rinv_le; auto. }
  destruct (fdiv_val hc v F N) as [V Fi].
  { rewrite Q. change 1000%Z with (100 + 900)%Z. rewrite bpow_plus. apply Rmult_le_compat; try lra.
    apply Rle_trans with (bpow radix2 11); [change (bpow radix2 11) with 2048; lra|apply bpow_le; lia]. }
  split; auto. unfold fl_nm_eV. split; auto. rewrite V. apply rnd_rel. rewrite Q.
  apply Rle_trans with (1 * bpow radix2 (-900)); [rewrite Rmult_1_l; apply bpow_le; lia|].
  apply Rmult_le_compat; lra.
Qed.

Theorem nm_eV_float v : bpow radix2 (-800) <= Rabs (val v) <= bpow radix2 800 ->
  let e := fl_nm_eV v in
  finite e /\ finite (fl_nm_eV e) /\
  Rabs (val e - c0 / val v) <= 3 * u * Rabs (c0 / val v) /\
  Rabs (val (fl_nm_eV e) - val v) <= 3 * u * Rabs (val v).
Proof.
  intros (L & U) e. pose proof u_pos as UP. pose proof hc_range as HR.
  assert (L0 : bpow radix2 (-900) < bpow radix2 (-800)) by (apply bpow_lt; lia).
  assert (U0 : bpow radix2 800 < bpow radix2 900) by (apply bpow_lt; lia).
  pose proof (bpow_gt_0 radix2 (-900)) as P.
  assert (N : val v <> 0) by (intros E; rewrite E, Rabs_R0 in L; lra).
  destruct (hc_div v) as (F & _ & e1 & B1 & E1); [lra|]. fold e in F, E1.
  destruct hc_val as (_ & e0 & B0 & E0).
  assert (AE : Rabs (val e) = val hc * / Rabs (val v) * (1 + e1)).
  { apply Rabs_le_inv in B1. rewrite E1, Rabs_mult, (Rabs_pos_eq (1 + e1)) by lra. unfold Rdiv.
    rewrite Rabs_mult, Rabs_inv, (Rabs_pos_eq (val hc)) by lra. reflexivity. }
  assert (I1 : / Rabs (val v) <= bpow radix2 800).
  { change 800%Z with (- - (800))%Z. rewrite bpow_opp. apply Rinv_le; auto. apply bpow_gt_0. }
  assert (I2 : bpow radix2 (-800) <= / Rabs (val v)).
  { change (-800)%Z with (- (800))%Z. rewrite bpow_opp. apply Rinv_le; auto. apply Rabs_pos_lt; auto. }
  assert (RG : bpow radix2 (-900) <= Rabs (val e) <= bpow radix2 900).
  { rewrite AE. apply Rabs_le_inv in B1. split.
    - apply Rle_trans with (1 * bpow radix2 (-800)); [lra|]. replace (val hc * / Rabs (val v) * (1 + e1)) with (val hc * (1 + e1) * / Rabs (val v)) by ring.
      apply Rmult_le_compat; [lra|apply bpow_ge_0|nra|exact I2].
    - change 900%Z with (100 + 800)%Z. rewrite bpow_plus. replace (val hc * / Rabs (val v) * (1 + e1)) with (val hc * (1 + e1) * / Rabs (val v)) by ring.
      pose proof (bpow_gt_0 radix2 (-800)). apply Rmult_le_compat; [nra|lra| |exact I1].
      apply Rle_trans with (bpow radix2 12); [change (bpow radix2 12) with 4096; nra|apply bpow_le; lia]. }
  destruct (hc_div e RG) as (F2 & _ & e2 & B2 & E2).
  apply Rabs_le_inv in B0, B1, B2.
  split; auto. split; auto. split.
  - rewrite E1, E0. replace (c0 * (1 + e0) / val v * (1 + e1) - c0 / val v) with ((e0 + e1 + e0 * e1) * (c0 / val v)) by (field; auto).
    rewrite Rabs_mult. apply Rmult_le_compat_r; [apply Rabs_pos|]. apply Rabs_le. nra.
  - rewrite E2, E1. replace (val hc / (val hc / val v * (1 + e1)) * (1 + e2) - val v) with (((1 + e2) / (1 + e1) - 1) * val v)
      by (field; repeat split; lra).
    rewrite Rabs_mult. apply Rmult_le_compat_r; [apply Rabs_pos|].
    replace ((1 + e2) / (1 + e1) - 1) with ((e2 - e1) * / (1 + e1)) by (field; lra).
    assert (I : 0 < / (1 + e1) <= 1002 / 1000).
    { split; [apply Rinv_0_lt_compat; lra|]. apply Rmult_le_reg_r with (1 + e1); [lra|]. rewrite Rinv_l by lra. nra. }
    apply Rabs_le. nra.
Qed.

Theorem nm_eV_float_mono v w : bpow radix2 (-800) <= val v <= val w -> val w <= bpow radix2 800 ->
  0 < val (fl_nm_eV w) <= val (fl_nm_eV v).
Proof.
  intros (L & M) U. pose proof hc_range as HR. pose proof (bpow_gt_0 radix2 (-800)) as P. pose proof u_pos.
  assert (L0 : bpow radix2 (-900) < bpow radix2 (-800)) by (apply bpow_lt; lia).
  assert (U0 : bpow radix2 800 < bpow radix2 900) by (apply bpow_lt; lia).
  destruct (hc_div v) as (_ & V & _); [rewrite Rabs_pos_eq; lra|].
  destruct (hc_div w) as (_ & W & e & B & E); [rewrite Rabs_pos_eq; lra|].
  split.
  - rewrite E. apply Rabs_le_inv in B. apply Rmult_lt_0_compat; [|lra]. apply Rdiv_lt_0_compat; lra.
  - rewrite V, W. apply rnd_le. unfold Rdiv. apply Rmult_le_compat_l; [lra|]. apply Rinv_le; lra.
Qed.

Theorem nm_eV_float_special : (forall v, nan v -> nan (fl_nm_eV v)) /\
  fl_nm_eV (B754_zero false) = B754_infinity false /\ fl_nm_eV (B754_zero true) = B754_infinity true /\
  fl_nm_eV (B754_infinity false) = B754_zero false.
Proof.
  split; [intros v; unfold nan; destruct v; try discriminate; reflexivity|].
  repeat split; vm_compute; reflexivity.
Qed.

(** the conversion back is not always exact *)
Lemma nm_eV_not_involution : exists v, finite v /\ val v = 207 /\ val (fl_nm_eV (fl_nm_eV v)) <> val v.
Proof.
  exists (fZ 207). destruct (fZ_val 207) as [A B]; [cbn; lia|]. split; auto. split; auto.
  intros E. assert (X : Beqb (fl_nm_eV (fl_nm_eV (fZ 207))) (fZ 207) = true).
  { rewrite Beqb_correct; [apply Req_bool_true; exact E|vm_compute; reflexivity|exact B]. }
  vm_compute in X. discriminate X.
Qed.

(** ** examples *)
Lemma finite_Z z : (Z.abs z <= 2 ^ 53)%Z -> finite (fZ z) /\ val (fZ z) = IZR z.
Proof. intros H. destruct (fZ_val z H). auto. Qed.
Lemma val_Z x z : (Z.abs z <= 2 ^ 53)%Z -> is_finite x = true -> Beqb x (fZ z) = true -> val x = IZR z.
Proof.
  intros H F E. destruct (finite_Z z H) as [G V]. rewrite Beqb_correct in E by auto.
  rewrite <- V. unfold val. destruct (Req_bool_spec (B2R x) (B2R (fZ z))); [assumption|discriminate].
Qed.
