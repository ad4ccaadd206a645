(** * Proofs about single precision in the FilmSense loader *)

Require Import Reals ZArith List Bool Lra Lia Psatz.
Import ListNotations.
From Flocq Require Import Core.
From Flocq.Prop Require Import Relative.
From Coquelicot Require Import Complex.
From Verif Require Import Base Cplx M_model M_data M_ep4 M_instr M_single Spec_optics Spec_objective Spec_instr Spec_accept Spec_single P_tmm P_instr P_instr2 P_accept.
Open Scope R_scope.

Notation fexp32 := (FLT_exp (-149) 24).
Notation fmt32 := (generic_format radix2 fexp32).
Global Instance vexp32 : Valid_exp fexp32.
Proof. apply FLT_exp_valid. reflexivity. Qed.

Lemma single_le x y : x <= y -> single x <= single y.
Proof. apply round_le; typeclasses eauto. Qed.
Lemma single_id x : fmt32 x -> single x = x.
Proof. intros. apply round_generic; auto; typeclasses eauto. Qed.
Lemma fmt32_1 : fmt32 1.
Proof. change 1 with (bpow radix2 0). apply generic_format_bpow. unfold FLT_exp. lia. Qed.
Lemma fmt32_m1 : fmt32 (-1).
Proof. change (-1) with (- (1)). apply generic_format_opp, fmt32_1. Qed.
Lemma single_0 : single 0 = 0.
Proof. apply round_0. typeclasses eauto. Qed.
Lemma single_range x : Rabs x <= 1 -> Rabs (single x) <= 1.
Proof.
  intros H. apply Rabs_le_inv in H. apply Rabs_le. split.
  - change (-1) with (- (1)). rewrite <- (single_id (- (1))) by exact fmt32_m1. apply single_le. lra.
  - rewrite <- (single_id 1) by exact fmt32_1. apply single_le. lra.
Qed.
(** error below 1 *)
Lemma single_err x : Rabs x <= 1 -> Rabs (single x - x) <= / 2 ^ 25.
Proof.
  intros H. assert (B : bpow radix2 (-25) = / 2 ^ 25) by (rewrite (pow_IZR 2 25); reflexivity).
  destruct (Req_dec (Rabs x) 1) as [E|NE].
  - assert (F : fmt32 x).
    { destruct (Rcase_abs x) as [L|L].
      - rewrite Rabs_left in E by auto. replace x with (-1) by lra. exact fmt32_m1.
      - rewrite Rabs_right in E by auto. rewrite E. exact fmt32_1. }
    rewrite (single_id _ F), Rminus_eq_0, Rabs_R0, <- B. apply bpow_ge_0.
  - eapply Rle_trans; [apply error_le_half_ulp; typeclasses eauto|]. rewrite <- B.
    destruct (Req_dec x 0) as [->|Z].
    + rewrite (@ulp_FLT_0 radix2 (-149) 24 eq_refl). change (-25)%Z with (-1 + -24)%Z. rewrite bpow_plus. change (bpow radix2 (-1)) with (/ 2).
      assert (bpow radix2 (-149) <= bpow radix2 (-24)) by (apply bpow_le; lia). lra.
    + rewrite ulp_neq_0 by auto. change (-25)%Z with (-1 + -24)%Z. rewrite bpow_plus. change (bpow radix2 (-1)) with (/ 2).
      assert (C : (Generic_fmt.cexp radix2 fexp32 x <= -24)%Z).
      { unfold Generic_fmt.cexp, FLT_exp. assert ((mag radix2 x <= 0)%Z); [|lia]. apply mag_le_bpow; auto. change (bpow radix2 0) with 1. lra. }
      apply (bpow_le radix2) in C. lra.
Qed.
Lemma two_bpow e : two_to e = bpow radix2 e.
Proof. unfold two_to. rewrite bpow_powerRZ. reflexivity. Qed.
Lemma normal_iff x : normal x <-> x = 0 \/ bpow radix2 (-126) <= Rabs x.
Proof. unfold normal. rewrite two_bpow. tauto. Qed.
(** normal numbers have a relative error *)
Lemma single_rel x : normal x -> exists e, Rabs e <= / 2 ^ 24 /\ single x = x * (1 + e).
Proof.
  intros N0. apply normal_iff in N0. destruct N0 as [->|H].
  - exists 0. rewrite single_0, Rabs_R0. split; [|ring]. left. apply Rinv_0_lt_compat, pow_lt. lra.
  - destruct (relative_error_N_FLT_ex radix2 (-149) 24 eq_refl (fun z => negb (Z.even z)) x H) as (e & E & K).
    exists e. split; [|exact K]. eapply Rle_trans; [exact E|]. right.
    change (/ 2 * bpow radix2 (-23) = / 2 ^ 24). rewrite (pow_IZR 2 24). change (bpow radix2 (-23)) with (/ IZR (2 ^ 23)). cbn. lra.
Qed.

(** ** sin and acos *)
Lemma sin_ge d : 0 <= d -> d <= 4 -> d - d * d * d / 6 <= sin d.
Proof.
  intros A B. destruct (pre_sin_bound d 0 A B) as [H _].
  unfold sin_approx, sum_f_R0, sin_term in H. cbn [Nat.mul Nat.add pow fact INR] in H.
  eapply Rle_trans; [|exact H]. right. cbn. field.
Qed.
Lemma arc_small d s : 0 <= d <= PI / 2 -> sin d <= s -> s <= 1 / 5 -> d <= 101 / 100 * s.
Proof.
  intros D H S0. pose proof PI_4 as P4. pose proof PI_RGT_0 as P0.
  assert (SP : 0 <= sin d) by (apply sin_ge_0; lra).
  destruct (Rle_dec d (101 / 100 * s)) as [L|L]; [auto|exfalso].
  assert (K : sin (101 / 100 * s) < sin d) by (apply sin_increasing_1; lra).
  pose proof (sin_ge (101 / 100 * s) ltac:(lra) ltac:(lra)) as G.
  assert (Q : s * s <= 1 / 25) by nra. assert (0 <= s * (1 / 25 - s * s)) by nra.
  assert (s = 0 \/ 0 < s) as [Z|Z] by lra.
  - subst s. rewrite Rmult_0_r, sin_0 in K. lra.
  - nra.
Qed.
Lemma acos_close x y h : Rabs x <= 1 -> Rabs y <= 1 -> Rabs (x - y) <= 2 * (h * h) -> 0 <= h <= 1 / 5 ->
  Rabs (acos x - acos y) <= 2 * (101 / 100 * h).
Proof.
  intros X Y D Hh. pose proof (acos_bound x) as AX. pose proof (acos_bound y) as AY.
  apply Rabs_le_inv in X. apply Rabs_le_inv in Y.
  assert (W : forall a b, 0 <= a <= PI -> 0 <= b <= PI -> a <= b -> Rabs (cos a - cos b) <= 2 * (h * h) -> b - a <= 2 * (101 / 100 * h)).
  { intros a b A B L E. set (d := (b - a) / 2). set (m := (a + b) / 2).
    assert (Da : 0 <= d <= PI / 2) by (unfold d; lra).
    assert (F : cos a - cos b = 2 * sin m * sin d).
    { unfold m, d. rewrite (form2 a b). replace ((a - b) / 2) with (- ((b - a) / 2)) by field. rewrite sin_neg. ring. }
    assert (S1 : sin d <= sin m).
    { destruct (Rle_dec m (PI / 2)) as [M|M].
      - apply sin_incr_1; unfold m, d in *; lra.
      - rewrite <- (sin_PI_x m). apply sin_incr_1; unfold m, d in *; lra. }
    assert (S0 : 0 <= sin d) by (apply sin_ge_0; lra).
    assert (S2 : sin d * sin d <= h * h).
    { rewrite F, Rabs_pos_eq in E by nra. nra. }
    assert (S3 : sin d <= h) by nra.
    pose proof (arc_small d h Da S3 ltac:(lra)). unfold d in *. lra. }
  destruct (Rle_dec (acos x) (acos y)) as [L|L].
  - rewrite Rabs_minus_sym, Rabs_pos_eq by lra. apply W; auto. rewrite !cos_acos by lra. exact D.
  - rewrite Rabs_pos_eq by lra. apply W; auto; [lra|]. rewrite !cos_acos by lra. rewrite Rabs_minus_sym. exact D.
Qed.

(** ** psi *)
Lemma deg3 : 0 < 180 / PI < 60.
Proof.
  pose proof PI_RGT_0. pose proof PI2_3_2 as P3. split; [apply Rdiv_lt_0_compat; lra|].
  apply Rmult_lt_reg_r with PI; [auto|]. unfold Rdiv. rewrite Rmult_assoc, Rinv_l by lra. lra.
Qed.

Theorem psi_single N : Rabs N <= 1 ->
  exists psi psi', fs_psi (Some N) = Some psi /\ fs32_psi (Some N) = Some psi' /\ Rabs (psi' - psi) <= 75 / 10000.
Proof.
  intros H. pose proof (single_range N H) as H'. pose proof (single_err N H) as E.
  exists (acos N / 2 * (180 / PI)), (acos (single N) / 2 * (180 / PI)). unfold fs32_psi, fs_psi. cbn [omap obind].
  destruct (Rle_dec (Rabs N) 1); [|contradiction]. destruct (Rle_dec (Rabs (single N)) 1); [|contradiction].
  split; [auto|]. split; [auto|]. pose proof deg3 as D.
  assert (P13 : 0 < / 8192 <= 1 / 5) by lra.
  pose proof (acos_close (single N) N (/ 8192) H' H) as K.
  assert (Q : / 2 ^ 25 = 2 * (/ 8192 * / 8192)) by (rewrite (pow_IZR 2 25); cbn; lra).
  rewrite Q in E. specialize (K E ltac:(lra)).
  replace (acos (single N) / 2 * (180 / PI) - acos N / 2 * (180 / PI)) with ((acos (single N) - acos N) * (180 / PI / 2)) by (field; apply PI_neq0).
  rewrite Rabs_mult, (Rabs_pos_eq (180 / PI / 2)) by lra.
  apply Rle_trans with (2 * (101 / 100 * / 8192) * (60 / 2)); [|lra].
  apply Rmult_le_compat; auto using Rabs_pos; lra.
Qed.

(** the error is reached: N just below 1 *)
Lemma single_near1 x : 0 <= x < / 2 ^ 25 -> single (1 - x) = 1 /\ single (-1 + x) = -1.
Proof.
  intros [A B]. assert (T : / 2 ^ 25 = bpow radix2 (-25)) by (rewrite (pow_IZR 2 25); reflexivity). rewrite T in B.
  assert (U : single (1 - x) = 1).
  { apply Rle_antisym.
    - apply Rle_trans with (single 1); [apply single_le; lra|right; apply single_id, fmt32_1].
    - unfold single. apply round_N_ge_midp; try typeclasses eauto; [exact fmt32_1|].
      assert (PR : pred radix2 fexp32 1 = 1 - bpow radix2 (-24)).
      { change 1 with (bpow radix2 0) at 1. rewrite pred_bpow. reflexivity. }
      rewrite PR. replace (bpow radix2 (-24)) with (2 * bpow radix2 (-25)); [lra|].
      change (-24)%Z with (1 + -25)%Z. rewrite bpow_plus. reflexivity. }
  split; [exact U|]. replace (-1 + x) with (- (1 - x)) by ring. unfold single in *. rewrite round_NE_opp, U. reflexivity.
Qed.

Theorem psi_single_refuted : exists N psi psi', Rabs N <= 1 /\ fs_psi (Some N) = Some psi /\ fs32_psi (Some N) = Some psi' /\
  5 / 1000 < Rabs (psi' - psi).
Proof.
  (* N = cos of 0.0105 degrees, psi = 0.00525 *)
  pose (t := 105 / 10000 * (PI / 180)). pose proof PI_RGT_0 as P0. pose proof PI_4 as P4. pose proof PI2_3_2 as P3.
  assert (T : 0 < t < 24 / 100000) by (unfold t; lra).
  pose proof (COS_bound t) as CB.
  assert (L : 1 - cos t < / 2 ^ 25).
  { destruct (pre_cos_bound t 0) as [G _]; [lra|lra|]. unfold cos_approx, sum_f_R0, cos_term in G. cbn in G.
    assert (Q : / 2 ^ 25 = / 33554432) by (rewrite (pow_IZR 2 25); reflexivity). rewrite Q.
    assert (t * t < 57600 / 1000000000000 + 1 / 1000000000000). { nra. }
    assert (1 - t * t / 2 <= cos t) by lra. lra. }
  destruct (single_near1 (1 - cos t)) as [E _]; [lra|]. replace (1 - (1 - cos t)) with (cos t) in E by ring.
  exists (cos t), (t / 2 * (180 / PI)), 0. split; [apply Rabs_le; lra|].
  unfold fs32_psi, fs_psi. cbn [omap obind]. rewrite E.
  destruct (Rle_dec (Rabs (cos t)) 1) as [|X]; [|exfalso; apply X; apply Rabs_le; lra].
  destruct (Rle_dec (Rabs 1) 1) as [|X]; [|exfalso; apply X; rewrite Rabs_R1; lra].
  rewrite acos_cos by lra. rewrite acos_1. split; [reflexivity|]. split; [f_equal; lra|].
  replace (t / 2 * (180 / PI)) with (105 / 20000) by (unfold t; field; lra). rewrite Rminus_0_l, Rabs_Ropp, Rabs_pos_eq; lra.
Qed.

(** ** delta *)
Lemma angle_close a b r r' s : 0 <= a < 360 -> 0 <= b < 360 -> 0 < r -> 0 < r' ->
  Rabs (r * cos (rad a) * (r' * sin (rad b)) - r * sin (rad a) * (r' * cos (rad b))) <= s * (r * r') ->
  0 < r * cos (rad a) * (r' * cos (rad b)) + r * sin (rad a) * (r' * sin (rad b)) -> s <= 1 / 5 ->
  exists d, circle_distance 360 a b d /\ d <= 101 / 100 * s * (180 / PI).
Proof.
  intros A B R0 R1 HS HC Hs. pose proof PI_RGT_0 as P0.
  assert (RR : 0 < r * r') by nra.
  assert (S0 : Rabs (sin (rad (b - a))) <= s).
  { replace (rad (b - a)) with (rad b - rad a) by (unfold rad; field). rewrite sin_minus.
    replace (r * cos (rad a) * (r' * sin (rad b)) - r * sin (rad a) * (r' * cos (rad b)))
      with ((r * r') * (sin (rad b) * cos (rad a) - cos (rad b) * sin (rad a))) in HS by ring.
    rewrite Rabs_mult, (Rabs_pos_eq (r * r')) in HS by lra. nra. }
  assert (C0 : 0 < cos (rad (b - a))).
  { replace (rad (b - a)) with (rad b - rad a) by (unfold rad; field). rewrite cos_minus. nra. }
  assert (K : exists k : Z, let x := (b - a) + 360 * IZR k in -180 <= x <= 180).
  { destruct (Rlt_dec (b - a) (-180)); [exists 1%Z; cbn; lra|]. destruct (Rlt_dec 180 (b - a)); [exists (-1)%Z; cbn; lra|].
    exists 0%Z. cbn. lra. }
  destruct K as (k & K). cbv zeta in K. set (x := b - a + 360 * IZR k) in *.
  assert (RX : rad x = rad (b - a) + 2 * IZR k * PI) by (unfold x, rad; field).
  assert (SX : Rabs (sin (rad x)) <= s /\ 0 < cos (rad x)).
  { rewrite RX. replace (2 * IZR k * PI) with (IZR k * (2 * PI)) by ring.
    assert (forall y, sin (y + IZR k * (2 * PI)) = sin y /\ cos (y + IZR k * (2 * PI)) = cos y) as PE.
    { intros y. split.
      - rewrite sin_plus. replace (IZR k * (2 * PI)) with (2 * IZR k * PI) by ring. rewrite (sin_eq_0_1 (2 * IZR k * PI)) by (exists (2 * k)%Z; rewrite mult_IZR; ring).
        replace (2 * IZR k * PI) with (2 * (IZR k * PI)) by ring. rewrite cos_2a_sin, (sin_eq_0_1 (IZR k * PI)) by (exists k; ring). ring.
      - rewrite cos_plus. replace (IZR k * (2 * PI)) with (2 * IZR k * PI) by ring. rewrite (sin_eq_0_1 (2 * IZR k * PI)) by (exists (2 * k)%Z; rewrite mult_IZR; ring).
        replace (2 * IZR k * PI) with (2 * (IZR k * PI)) by ring. rewrite cos_2a_sin, (sin_eq_0_1 (IZR k * PI)) by (exists k; ring). ring. }
    destruct (PE (rad (b - a))) as [-> ->]. auto. }
  destruct SX as [SX CX].
  assert (RB : - PI <= rad x <= PI). { unfold rad. split; [replace (- PI) with (-180 * (PI / 180)) by field|replace PI with (180 * (PI / 180)) at 2 by field]; apply Rmult_le_compat_r; lra. }
  set (d := Rabs (rad x)).
  assert (CD : 0 < cos d). { unfold d. destruct (Rcase_abs (rad x)); [rewrite Rabs_left by auto; rewrite cos_neg|rewrite Rabs_right by auto]; auto. }
  assert (SD : sin d <= s).
  { unfold d. destruct (Rcase_abs (rad x)) as [Lx|Lx]; [rewrite Rabs_left by auto; rewrite sin_neg|rewrite Rabs_right by auto];
      apply Rabs_le_inv in SX; lra. }
  assert (DB : 0 <= d <= PI). { unfold d. split; [apply Rabs_pos|apply Rabs_le; lra]. }
  assert (D2 : d <= PI / 2). { destruct (Rle_dec d (PI / 2)) as [|Q]; [auto|exfalso]. pose proof (cos_le_0 d ltac:(lra) ltac:(lra)). lra. }
  pose proof (arc_small d s ltac:(lra) SD Hs) as F.
  exists (Rabs x). split.
  - split.
    + exists (- k)%Z. rewrite opp_IZR. unfold x. rewrite <- (Rabs_Ropp (b - a + 360 * IZR k)). f_equal. ring.
    + intros k'. destruct (Z.eq_dec k' (- k)) as [->|NE].
      * rewrite opp_IZR. unfold x. rewrite <- (Rabs_Ropp (b - a + 360 * IZR k)). right. f_equal. ring.
      * replace (a - b + IZR k' * 360) with (IZR (k' + k) * 360 - x) by (unfold x; rewrite plus_IZR; ring).
        apply Rle_trans with 180; [apply Rabs_le; lra|].
        assert (G : IZR (k' + k) <= -1 \/ 1 <= IZR (k' + k)).
        { assert (k' + k <= -1 \/ 1 <= k' + k)%Z as [G|G] by lia; [left|right]; apply IZR_le in G; exact G. }
        destruct G as [G|G]; [rewrite Rabs_left by lra; lra|rewrite Rabs_pos_eq by lra; lra].
  - assert (E : Rabs x = d * (180 / PI)). { unfold d, rad. rewrite Rabs_mult, (Rabs_pos_eq (PI / 180)) by lra. field. lra. }
    rewrite E. apply Rmult_le_compat_r; [|auto]. left. apply Rdiv_lt_0_compat; lra.
Qed.

Lemma normal_single x : normal x -> single x = 0 -> x = 0.
Proof.
  intros N0 H. destruct (single_rel x N0) as (e & E & K). rewrite K in H. apply Rabs_le_inv in E.
  assert (Q : / 2 ^ 24 < 1 / 2) by (rewrite (pow_IZR 2 24); cbn; lra). apply Rmult_integral in H. destruct H; lra.
Qed.

Theorem delta_single N Cc S psi delta : encoded (Some N) (Some Cc) (Some S) psi delta -> single N <> -1 -> normal Cc -> normal S ->
  exists delta' d, fs32_delta (Some N) (Some Cc) (Some S) = Some delta' /\ circle_distance 360 delta delta' d /\ d <= 1 / 100000.
Proof.
  intros (Hp & Hd & EN & EC & ES) NE NC NS. assert (EN' : N = cos (rad (2 * psi))) by congruence.
  assert (EC' : Cc = sin (rad (2 * psi)) * cos (rad delta)) by congruence.
  assert (ES' : S = sin (rad (2 * psi)) * sin (rad delta)) by congruence. clear EN EC ES.
  assert (B : 0 < rad (2 * psi) < PI).
  { split; [apply rad_pos; lra|]. rewrite <- rad_180. apply rad_lt. lra. }
  assert (Sp : 0 < sin (rad (2 * psi))) by (apply sin_gt_0; lra). set (r0 := sin (rad (2 * psi))) in *.
  assert (N1 : Rabs (single N) <= 1). { apply single_range. rewrite EN'. apply Rabs_le. pose proof (COS_bound (rad (2 * psi))). lra. }
  apply Rabs_le_inv in N1.
  destruct (single_rel Cc NC) as (e1 & E1 & K1). destruct (single_rel S NS) as (e2 & E2 & K2).
  assert (Q : / 2 ^ 24 = / 16777216) by (rewrite (pow_IZR 2 24); reflexivity). rewrite Q in E1, E2. clear Q.
  apply Rabs_le_inv in E1. apply Rabs_le_inv in E2.
  pose proof (delta_decodes (Some (single N)) (Some (single Cc)) (Some (single S))) as DD.
  change (fs_delta (Some (single N)) (Some (single Cc)) (Some (single S))) with (fs32_delta (Some N) (Some Cc) (Some S)) in DD.
  cbn [delta_from] in DD. destruct DD as [DD _]. destruct DD as (a & r & E & Ha & Hr & HC & HS & _); [lra|].
  exists a. set (r' := r * (1 + single N)) in *.
  assert (R' : 0 <= r') by (unfold r'; apply Rmult_le_pos; lra).
  assert (T1 : cos (rad delta) * cos (rad delta) + sin (rad delta) * sin (rad delta) = 1).
  { pose proof (sin2_cos2 (rad delta)) as T. unfold Rsqr in T. lra. }
  assert (T2 : cos (rad a) * cos (rad a) + sin (rad a) * sin (rad a) = 1).
  { pose proof (sin2_cos2 (rad a)) as T. unfold Rsqr in T. lra. }
  set (ca := cos (rad delta)) in *. set (sa := sin (rad delta)) in *. set (cb := cos (rad a)) in *. set (sb := sin (rad a)) in *.
  assert (RR : r' * r' = single Cc * single Cc + single S * single S) by (rewrite HC, HS; transitivity (r' * r' * (cb * cb + sb * sb)); [rewrite T2; ring|ring]).
  assert (R0 : r0 * r0 = Cc * Cc + S * S) by (rewrite EC', ES'; transitivity (r0 * r0 * (ca * ca + sa * sa)); [rewrite T1; ring|ring]).
  set (ep := / 16777216) in *. assert (EP : 0 < ep < 1 / 1000000) by (unfold ep; lra).
  assert (GE : (1 - ep) * (1 - ep) * (r0 * r0) <= r' * r').
  { rewrite RR, R0, K1, K2.
    assert ((1 - ep) * (1 - ep) <= (1 + e1) * (1 + e1)) by nra. assert ((1 - ep) * (1 - ep) <= (1 + e2) * (1 + e2)) by nra.
    assert (0 <= Cc * Cc) by apply Rle_0_sqr. assert (0 <= S * S) by apply Rle_0_sqr.
    replace (Cc * (1 + e1) * (Cc * (1 + e1)) + S * (1 + e2) * (S * (1 + e2))) with ((1 + e1) * (1 + e1) * (Cc * Cc) + (1 + e2) * (1 + e2) * (S * S)) by ring.
    rewrite Rmult_plus_distr_l. apply Rplus_le_compat; apply Rmult_le_compat_r; auto. }
  assert (GL : (1 - ep) * r0 <= r').
  { apply Rsqr_incr_0_var; [|auto]. unfold Rsqr. eapply Rle_trans; [|exact GE]. right. ring. }
  assert (RP : 0 < r') by (assert (0 < (1 - ep) * r0) by (apply Rmult_lt_0_compat; lra); lra).
  destruct (angle_close delta a r0 r' (2 * ep) Hd Ha Sp RP) as (d & D1 & D2).
  - fold ca sa cb sb. rewrite <- EC', <- ES', <- HC, <- HS, K1, K2.
    replace (Cc * (S * (1 + e2)) - S * (Cc * (1 + e1))) with (Cc * S * (e2 - e1)) by ring. rewrite Rabs_mult.
    assert (X1 : Rabs (e2 - e1) <= 2 * ep) by (apply Rabs_le; lra).
    assert (X2 : Rabs (Cc * S) <= r0 * r0 / 2).
    { rewrite R0. apply Rabs_le. assert (0 <= (Cc - S) * (Cc - S)) by apply Rle_0_sqr. assert (0 <= (Cc + S) * (Cc + S)) by apply Rle_0_sqr. lra. }
    apply Rle_trans with (r0 * r0 / 2 * (2 * ep)); [apply Rmult_le_compat; [apply Rabs_pos|apply Rabs_pos|exact X2|exact X1]|].
    assert (X3 : r0 <= 2 * r') by nra. assert (0 <= ep * r0) by nra. nra.
  - fold ca sa cb sb. rewrite <- EC', <- ES', <- HC, <- HS, K1, K2.
    assert (0 < r0 * r0) by nra. assert (0 <= Cc * Cc) by apply Rle_0_sqr. assert (0 <= S * S) by apply Rle_0_sqr.
    assert (Cc * (Cc * (1 + e1)) + S * (S * (1 + e2)) >= (1 - ep) * (Cc * Cc + S * S)) by nra. nra.
  - lra.
  - exists d. split; [exact E|]. split; [exact D1|]. eapply Rle_trans; [exact D2|]. pose proof deg3 as D3.
    apply Rle_trans with (101 / 100 * (2 * ep) * 60); [apply Rmult_le_compat_l; lra|]. unfold ep. lra.
Qed.

(** near psi = 90 the direction of delta is lost *)
Theorem delta_single_refuted : exists N Cc S psi delta, encoded (Some N) (Some Cc) (Some S) psi delta /\ normal Cc /\ normal S /\
  fs_delta (Some N) (Some Cc) (Some S) = Some 1 /\ delta = 1 /\ fs32_delta (Some N) (Some Cc) (Some S) = Some 45.
Proof.
  set (psi := 89999 / 1000). set (t := 2 / 1000 * (PI / 180)). pose proof PI_RGT_0 as P0. pose proof PI_4 as P4. pose proof PI2_3_2 as P3.
  assert (RE : rad (2 * psi) = PI - t) by (unfold rad, psi, t; field).
  assert (T : 3 / 100000 < t < 5 / 100000) by (unfold t; lra).
  assert (CN : cos (rad (2 * psi)) = -1 + (1 - cos t)). { rewrite RE, Rtrigo_facts.cos_pi_minus. ring. }
  assert (SN : sin (rad (2 * psi)) = sin t). { rewrite RE. apply sin_PI_x. }
  pose proof (COS_bound t) as CB.
  assert (L : 1 - cos t < / 2 ^ 25).
  { destruct (pre_cos_bound t 0) as [G _]; [lra|lra|]. unfold cos_approx, sum_f_R0, cos_term in G. cbn in G.
    assert (Q : / 2 ^ 25 = / 33554432) by (rewrite (pow_IZR 2 25); reflexivity). rewrite Q.
    assert (t * t < 25 / 10000000000) by nra. assert (1 - t * t / 2 <= cos t) by lra. lra. }
  destruct (single_near1 (1 - cos t)) as [_ E]; [lra|]. rewrite <- CN in E.
  set (one := rad 1). assert (O1 : 1 / 100 < one < 1 / 40) by (unfold one, rad; lra).
  assert (CO : 1 / 2 < cos one).
  { destruct (pre_cos_bound one 0) as [G _]; [lra|lra|]. unfold cos_approx, sum_f_R0, cos_term in G. cbn in G.
    assert (one * one < 1 / 1600) by nra. lra. }
  assert (SO : 1 / 200 < sin one). { pose proof (sin_ge one ltac:(lra) ltac:(lra)). assert (one * one < 1 / 1600) by nra. nra. }
  assert (ST : 1 / 100000 < sin t). { pose proof (sin_ge t ltac:(lra) ltac:(lra)). assert (t * t < 1 / 1600) by nra. nra. }
  assert (SM : bpow radix2 (-126) <= 1 / 100000 * (1 / 200)).
  { apply Rle_trans with (bpow radix2 (-30)); [apply bpow_le; lia|]. change (bpow radix2 (-30)) with (/ IZR (2 ^ 30)). cbn. lra. }
  set (Cc := sin (rad (2 * psi)) * cos (rad 1)). set (S := sin (rad (2 * psi)) * sin (rad 1)).
  assert (HC : bpow radix2 (-126) <= Cc). { unfold Cc. rewrite SN. fold one. nra. }
  assert (HS : bpow radix2 (-126) <= S). { unfold S. rewrite SN. fold one. nra. }
  pose proof (bpow_gt_0 radix2 (-126)) as BP.
  assert (NC : normal Cc) by (apply normal_iff; right; rewrite Rabs_pos_eq; lra). assert (NS : normal S) by (apply normal_iff; right; rewrite Rabs_pos_eq; lra).
  assert (EN : encoded (Some (cos (rad (2 * psi)))) (Some Cc) (Some S) psi 1).
  { split; [unfold psi; lra|]. split; [lra|]. split; [auto|]. split; auto. }
  exists (cos (rad (2 * psi))), Cc, S, psi, 1. split; [exact EN|]. split; [auto|]. split; [auto|].
  split; [exact (encoded_delta _ _ _ _ _ EN)|]. split; [auto|].
  pose proof (delta_decodes (Some (single (cos (rad (2 * psi))))) (Some (single Cc)) (Some (single S))) as DD.
  change (fs_delta (Some (single (cos (rad (2 * psi))))) (Some (single Cc)) (Some (single S))) with (fs32_delta (Some (cos (rad (2 * psi)))) (Some Cc) (Some S)) in DD.
  cbn [delta_from] in DD. destruct DD as [_ DD]. rewrite E in DD. destruct DD as [_ DD]; [ring|].
  assert (PC : 0 < single Cc).
  { destruct (single_rel Cc NC) as (e & He & ->). apply Rabs_le_inv in He. assert (Q : / 2 ^ 24 < 1 / 2) by (rewrite (pow_IZR 2 24); cbn; lra). nra. }
  assert (PS : 0 < single S).
  { destruct (single_rel S NS) as (e & He & ->). apply Rabs_le_inv in He. assert (Q : / 2 ^ 24 < 1 / 2) by (rewrite (pow_IZR 2 24); cbn; lra). nra. }
  destruct DD as (a & EA & A & QC & QS & QQ); [lra|lra|]. rewrite EA. f_equal.
  assert (PCa : 0 < cos (rad a)) by nra. assert (PSa : 0 < sin (rad a)) by nra.
  assert (EQ : cos (rad a) = sin (rad a)) by nra.
  assert (R45 : rad 45 = PI / 4) by (unfold rad; field).
  pose proof (sin2_cos2 (rad a)) as T1. unfold Rsqr in T1.
  assert (V : cos (rad a) = cos (rad 45)).
  { rewrite R45. assert (PC4 : 0 < cos (PI / 4)) by (apply cos_gt_0; lra).
    pose proof (sin2_cos2 (PI / 4)) as T2. unfold Rsqr in T2. rewrite sin_cos_PI4 in T2. nra. }
  apply same_angle; [auto|lra|exact V|]. rewrite <- EQ, V, R45. symmetry. apply sin_cos_PI4.
Qed.

(** ** A file *)
Lemma psi_true N Cc S psi delta : encoded (Some N) (Some Cc) (Some S) psi delta ->
  exists psi', fs32_psi (Some N) = Some psi' /\ Rabs (psi' - psi) <= 75 / 10000.
Proof.
  intros En. assert (H : Rabs N <= 1).
  { destruct En as (_ & _ & EN & _). assert (EN' : N = cos (rad (2 * psi))) by congruence. rewrite EN'. apply Rabs_le. pose proof (COS_bound (rad (2 * psi))). lra. }
  destruct (psi_single N H) as (p & p' & A & B & D). exists p'. split; [auto|].
  rewrite (encoded_psi _ _ _ _ _ En) in A. assert (A' : psi = p) by congruence. rewrite A'. exact D.
Qed.

Lemma single_nearest x : nearest_single x (single x).
Proof.
  split.
  - assert (F : fmt32 (single x)) by (apply generic_format_round; typeclasses eauto).
    apply FLT_format_generic in F; [|reflexivity]. destruct F as [f E1 E2 E3]. exists (Fnum f), (Fexp f). split; [|split; auto].
    rewrite E1. unfold F2R. rewrite two_bpow. reflexivity.
  - intros z (m & e & E & B & L). apply (round_N_pt radix2 fexp32 (fun t => negb (Z.even t)) x).
    apply generic_format_FLT. exists (Float radix2 m e); cbn [Fnum Fexp]; auto. rewrite E, two_bpow. reflexivity.
Qed.

Lemma file_single wavs aoi (ncs : list (list num)) (truth : list (R * R)) :
  Forall2 (fun row t => exists N Cc S rest, row = Some N :: Some Cc :: Some S :: rest /\ encoded (Some N) (Some Cc) (Some S) (fst t) (snd t) /\
    single N <> -1 /\ normal Cc /\ normal S) ncs truth ->
  ld_wav (fs32_loaded wavs aoi ncs) = wavs /\ ld_aoi (fs32_loaded wavs aoi ncs) = map (fun _ => aoi) ncs /\
  Forall2 (fun o t => exists psi, o = Some psi /\ Rabs (psi - fst t) <= 75 / 10000) (ld_psi (fs32_loaded wavs aoi ncs)) truth /\
  Forall2 (fun o t => exists delta d, o = Some delta /\ circle_distance 360 (snd t) delta d /\ d <= 1 / 100000) (ld_delta (fs32_loaded wavs aoi ncs)) truth.
Proof.
  intros F. unfold fs32_loaded, fs_loaded. cbn [ld_wav ld_aoi ld_psi ld_delta]. split; [auto|]. split; [apply map_map|]. rewrite !map_map.
  split; induction F as [|row t rows ts (N & Cc & S & rest & E & En & H1 & H2 & H3) F IH]; cbn [map]; constructor; auto; rewrite E; cbn [map nth].
  - exact (psi_true _ _ _ _ _ En).
  - exact (delta_single _ _ _ _ _ En H1 H2 H3).
Qed.

Lemma example_single : Forall2 (fun row t => exists N Cc S rest, row = Some N :: Some Cc :: Some S :: rest /\ encoded (Some N) (Some Cc) (Some S) (fst t) (snd t) /\
    single N <> -1 /\ normal Cc /\ normal S) [[Some 0; Some 1; Some 0]; [Some (1 / 2); Some 0; Some (sqrt 3 / 2); Some 7]] [(45, 0); (30, 90)].
Proof.
  assert (A1 : rad (2 * 45) = PI / 2) by (unfold rad; field). assert (A2 : rad (2 * 30) = PI / 3) by (unfold rad; field).
  assert (A3 : rad 90 = PI / 2) by (unfold rad; field). assert (A4 : rad 0 = 0) by (unfold rad; field).
  assert (SM : bpow radix2 (-126) <= / 2). { change (/ 2) with (bpow radix2 (-1)). apply bpow_le. lia. }
  assert (S3 : 1 <= sqrt 3). { rewrite <- sqrt_1 at 1. apply sqrt_le_1; lra. }
  constructor; [|constructor; [|constructor]]; cbn [fst snd].
  - exists 0, 1, 0, []. split; [auto|]. split; [|split; [rewrite single_0; lra|split]].
    + split; [lra|]. split; [lra|]. rewrite A1, A4, cos_PI2, sin_PI2, cos_0, sin_0. split; [auto|]. split; f_equal; ring.
    + apply normal_iff. right. rewrite Rabs_R1. lra.
    + left. auto.
  - exists (1 / 2), 0, (sqrt 3 / 2), [Some 7]. split; [auto|]. split; [|split; [|split]].
    + split; [lra|]. split; [lra|]. rewrite A2, A3, cos_PI2, sin_PI2, cos_PI3, sin_PI3. split; [auto|]. split; f_equal; ring.
    + assert (0 <= single (1 / 2)) by (rewrite <- single_0; apply single_le; lra). lra.
    + left. auto.
    + apply normal_iff. right. rewrite Rabs_pos_eq; lra.
Qed.
