(** * Rounding errors of Sellmeier: proofs *)

Require Import Reals ZArith Bool Lra Lia Psatz.
From Flocq Require Import Core.
From Flocq.IEEE754 Require Import BinarySingleNaN.
From Verif Require Import M_float Spec_float P_float P_float2 M_float2 Spec_float2 P_float3.
Open Scope R_scope.

Lemma milli_val : finite milli /\ rel 1 (val milli) (1 / 1000).
Proof.
  destruct (fZ_val 1) as [A1 A2]; [lia|]. destruct (fZ_val 1000) as [B1 B2]; [lia|].
  destruct (fdiv_rel (fZ 1) (fZ 1000) A2) as [F E].
  - rewrite B1. lra.
  - rewrite A1, B1. right. rewrite Rabs_pos_eq by lra. split.
    + apply Rle_trans with (bpow radix2 (-10)); [apply bpow_le; lia|cbn; lra].
    + apply Rle_trans with (bpow radix2 0); [cbn; lra|apply bpow_le; lia].
  - split; [exact F|]. rewrite A1, B1 in E. exact E.
Qed.
Lemma sized_milli : sized 10 (1 / 1000).
Proof. right. rewrite Rabs_pos_eq by lra. split; cbn; lra. Qed.
Lemma um_rel w : finite w -> sized 80 (val w) ->
  let m := fmul w milli in finite m /\ rel 2 (val m) (val w / 1000) /\ moderate (val m).
Proof.
  intros F S m. destruct milli_val as [FM RM].
  pose proof (rel_mult 0 1 _ _ _ _ (rel_refl (val w)) RM) as R1. cbn [Nat.add] in R1.
  pose proof (sized_mult 80 10 _ _ S sized_milli) as S1.
  pose proof (sized_rel 1 _ _ _ ltac:(lia) R1 S1) as S2.
  destruct (fmul_rel w milli F FM) as [FW R2]; [apply (sized_mono 91); [lia|exact S2]|].
  pose proof (rel_trans _ _ _ _ _ R2 R1) as R3. cbn [Nat.add] in R3.
  split; [exact FW|]. split.
  - replace (val w / 1000) with (val w * (1 / 1000)) by field. exact R3.
  - change (sized 100 (val m)). apply (sized_mono 91); [lia|]. exact (sized_rel 2 90 _ _ ltac:(lia) R3 S1).
Qed.

(** the difference of two nearby squares *)
Lemma cancel a b x y K : 0 <= a -> 0 <= b -> fac 6 x -> fac 6 y -> a + b <= K * Rabs (a - b) -> a - b <> 0 ->
  exists t, Rabs t <= 13 * u * K /\ a * x - b * y = (a - b) * (1 + t).
Proof.
  intros A B X Y H N. exists (((a * x - a) - (b * y - b)) / (a - b)). split.
  - unfold Rdiv. rewrite Rabs_mult, Rabs_inv. pose proof (Rabs_pos_lt _ N) as P.
    pose proof (weigh 6 a x ltac:(lia) X) as W1. pose proof (weigh 6 b y ltac:(lia) Y) as W2.
    replace (2 * INR 6 + 1) with 13 in * by (cbn; lra). rewrite (Rabs_pos_eq a) in W1 by auto. rewrite (Rabs_pos_eq b) in W2 by auto.
    apply Rmult_le_reg_r with (Rabs (a - b)); [auto|]. rewrite Rmult_assoc, Rinv_l, Rmult_1_r by lra.
    pose proof (Rabs_triang (a * x - a) (- (b * y - b))) as T. rewrite Rabs_Ropp in T.
    unfold Rminus at 1. pose proof u_pos. nra.
  - field. exact N.
Qed.
Lemma quotient g t K : fac 9 g -> Rabs t <= 13 * u * K -> 1 <= K -> 52 * u * K <= 1 -> Rabs (g / (1 + t) - 1) <= 43 * u * K.
Proof.
  intros G T K1 S. pose proof (fac_err 9 g ltac:(lia) G) as E. replace (2 * INR 9 + 1) with 19 in E by (cbn; lra).
  pose proof u_pos. assert (Rabs t <= / 4) by lra. apply Rabs_le_inv in T, E.
  assert (- / 4 <= t <= / 4) by (apply Rabs_le_inv; auto).
  replace (g / (1 + t) - 1) with ((g - 1 - t) / (1 + t)) by (field; lra).
  unfold Rdiv. rewrite Rabs_mult, Rabs_inv, (Rabs_pos_eq (1 + t)) by lra.
  apply Rmult_le_reg_r with (1 + t); [lra|]. rewrite Rmult_assoc, Rinv_l, Rmult_1_r by lra.
  assert (u <= u * K) by nra.
  apply Rle_trans with (32 * (u * K)); [apply Rabs_le; lra|]. nra.
Qed.

Section Sellmeier.
Context (sq : f64 -> f64) (Am En P Einf w : f64) (K : R).
Context (Sq : powers 2 sq) (FA : finite Am) (FE : finite En) (FP : finite P) (FI : finite Einf) (Fw : finite w)
  (MA : moderate (val Am)) (ME : moderate (val En)) (MP : moderate (val P)) (MI : moderate (val Einf)) (Mw : sized 80 (val w))
  (N : val w <> 0).
Let W2 := (val w / 1000) ^ 2.
Let E2 := val En ^ 2.
Context (away : W2 + E2 <= K * Rabs (W2 - E2)) (small_K : 60 * u * K <= 1).

Lemma W2_pos : 0 < W2.
Proof.
  unfold W2. assert (H : val w / 1000 <> 0) by (intros H; apply N; lra).
  pose proof (pow_nonzero _ 2 H). pose proof (pow2_ge_0 (val w / 1000)). lra.
Qed.
Lemma E2_pos : 0 <= E2.
Proof. apply pow2_ge_0. Qed.
Lemma D_nz : W2 - E2 <> 0.
Proof. intros H. rewrite H, Rabs_R0 in away. pose proof W2_pos. pose proof E2_pos. lra. Qed.
Lemma K_ge1 : 1 <= K.
Proof.
  pose proof W2_pos. pose proof E2_pos. pose proof (Rabs_pos_lt _ D_nz) as P0.
  assert (Rabs (W2 - E2) <= W2 + E2) by (apply Rabs_le; lra).
  apply Rnot_lt_le. intros L. nra.
Qed.
Lemma sized_W2 : sized 180 W2.
Proof. unfold W2. apply (sized_pow 90 _ 2); [lia|]. replace (val w / 1000) with (val w * (1 / 1000)) by field. exact (sized_mult 80 10 _ _ Mw sized_milli). Qed.
Lemma sized_D : sized 240 (W2 - E2).
Proof.
  pose proof W2_pos. pose proof E2_pos. pose proof (Rabs_pos_lt _ D_nz) as P0. right. split.
  - destruct sized_W2 as [Z|[L _]]; [lra|]. rewrite (Rabs_pos_eq W2) in L by lra.
    assert (KU : K <= bpow radix2 53).
    { change (bpow radix2 53) with (IZR (2 ^ 53)). rewrite <- pow2_53. pose proof u_pos.
      assert (X : u * 2 ^ 53 = 1) by (unfold u; rewrite Rinv_l; [reflexivity|rewrite pow2_53; cbn; lra]).
      apply Rmult_le_reg_l with u; lra. }
    pose proof K_ge1. pose proof (bpow_gt_0 radix2 53).
    apply Rmult_le_reg_l with (bpow radix2 53); [lra|]. rewrite <- bpow_plus.
    apply Rle_trans with (bpow radix2 (-180)); [apply bpow_le; lia|].
    apply Rle_trans with W2; [exact L|]. apply Rle_trans with (K * Rabs (W2 - E2)); [lra|]. apply Rmult_le_compat_r; lra.
  - assert (S1 : Rabs W2 <= bpow radix2 239) by (apply sized_abs; [lia|]; apply (sized_mono 180); [lia|exact sized_W2]).
    assert (S2 : Rabs E2 <= bpow radix2 239).
    { apply sized_abs; [lia|]. apply (sized_mono (100 * 2)); [lia|]. apply (sized_pow 100 _ 2); [lia|exact ME]. }
    rewrite (Rabs_pos_eq W2) in S1 by lra. rewrite (Rabs_pos_eq E2) in S2 by lra.
    change 240%Z with (239 + 1)%Z. rewrite bpow_plus. change (bpow radix2 1) with 2. apply Rabs_le. lra.
Qed.

Lemma sellmeier_sum : exists i h p,
  fac 2 i /\ Rabs (h - 1) <= 60 * u * K /\ fac 8 p /\
  finite (fl_sellmeier_epsilon sq Am En P Einf w) /\
  val (fl_sellmeier_epsilon sq Am En P Einf w) = val Einf * i + val Am * W2 / (W2 - E2) * h - val P * W2 * p.
Proof.
  destruct (um_rel w Fw Mw) as (F1 & R1 & M1). set (m := fmul w milli) in *.
  destruct (power_rel 2 sq m Sq F1 M1) as [F2 R2]. destruct (power_rel 2 sq En Sq FE ME) as [F3 R3].
  assert (R4 : rel 6 (val (sq m)) W2).
  { apply (rel_trans 2 4 _ _ _ R2). unfold W2. cbn [pow]. rewrite !Rmult_1_r. exact (rel_mult 2 2 _ _ _ _ R1 R1). }
  pose proof sized_W2 as SW. pose proof (sized_rel 6 _ _ _ ltac:(lia) R4 SW) as S4. cbn [Z.add] in S4.
  assert (SE : sized 200 E2) by (apply (sized_pow 100 _ 2); [lia|exact ME]).
  pose proof (sized_rel 2 _ _ _ ltac:(lia) R3 SE) as S3.
  assert (B4 : Rabs (val (sq m)) <= bpow radix2 600) by (apply sized_abs; [lia|]; apply (sized_mono 181); [lia|exact S4]).
  assert (B3 : Rabs (val (sq En)) <= bpow radix2 600) by (apply sized_abs; [lia|]; apply (sized_mono 201); [lia|exact S3]).
  destruct (fsub_rel (sq m) (sq En) F2 F3) as [F5 (e & Ee & V5)]; [apply abs_600; [lia|auto]..|].
  destruct R4 as (x & X & V4). destruct R3 as (y & Y & V3). fold E2 in V3.
  destruct (cancel W2 E2 x y K) as (t & T & Et); auto using E2_pos, D_nz.
  { apply Rlt_le, W2_pos. }
  { apply (fac_mono 2); [lia|exact Y]. }
  rewrite V4, V3, Et in V5.
  pose proof K_ge1 as K1. pose proof u_pos as U.
  assert (Ht : - / 4 <= t <= / 4) by (apply Rabs_le_inv; nra).
  destruct (fac_half 1 e ltac:(lia) Ee) as [e1 e2].
  set (d := fsub (sq m) (sq En)) in *.
  assert (Nd : val d <> 0).
  { rewrite V5. apply Rmult_integral_contrapositive_currified; [|lra].
    apply Rmult_integral_contrapositive_currified; [exact D_nz|lra]. }
  assert (Sd : sized 242 (val d)).
  { destruct sized_D as [Z|[L H]]; [destruct (D_nz Z)|]. right. rewrite V5, !Rabs_mult.
    rewrite (Rabs_pos_eq (1 + t)), (Rabs_pos_eq e) by lra. set (q := Rabs (W2 - E2)) in *.
    pose proof (bpow_gt_0 radix2 (-240)). change (bpow radix2 (-240) <= q) in L. split.
    - assert (Z1 : bpow radix2 (- (242)) = bpow radix2 (-240) * / 4) by (exact (bpow_plus radix2 (-240) (-2))).
      rewrite Z1.
      apply Rle_trans with (q * (3 / 4) * / 2); [nra|]. apply Rmult_le_compat; try lra.
      apply Rmult_le_compat; lra.
    - change 242%Z with (240 + 2)%Z. rewrite bpow_plus. change (bpow radix2 2) with 4.
      apply Rle_trans with (q * (5 / 4) * 2); [|lra].
      apply Rmult_le_compat; try lra; [apply Rmult_le_pos; lra|]. apply Rmult_le_compat; lra. }
  destruct (fmul_rel Am (sq m) FA F2) as [F6 (f & Ff & V6)].
  { apply (sized_mono (100 + 181)); [lia|]. now apply sized_mult. }
  assert (S6 : sized 282 (val (fmul Am (sq m)))).
  { apply (sized_rel 1 281 _ (val Am * val (sq m))); [lia|exists f; auto|]. apply (sized_mult 100 181); auto. }
  assert (S7 : sized 524 (val (fmul Am (sq m)) / val d)) by (apply (sized_mult 282 242); auto; now apply sized_inv).
  destruct (fdiv_rel (fmul Am (sq m)) d F6 Nd) as [F7 (g & G & V7)]; [apply (sized_mono 524); [lia|exact S7]|].
  set (q := fdiv (fmul Am (sq m)) d) in *.
  assert (B7 : Rabs (val q) <= bpow radix2 600).
  { apply sized_abs; [lia|]. apply (sized_mono 525); [lia|]. apply (sized_rel 1 524 _ (val (fmul Am (sq m)) / val d)); [lia|exists g; auto|exact S7]. }
  destruct (fadd_rel Einf q FI F7) as [F8 (i & I8 & V8)]; [apply abs_600; [lia|auto using mod_abs]..|].
  assert (B8 : Rabs (val (fadd Einf q)) <= bpow radix2 990).
  { rewrite V8, Rabs_mult. destruct (fac_half 1 i ltac:(lia) I8). rewrite (Rabs_pos_eq i) by lra.
    change 990%Z with (600 + 390)%Z. rewrite bpow_plus.
    assert (4 <= bpow radix2 390) by (change 4 with (bpow radix2 2); apply bpow_le; lia).
    pose proof (Rabs_triang (val Einf) (val q)). pose proof (mod_abs _ MI).
    pose proof (bpow_gt_0 radix2 600). pose proof (Rabs_pos (val Einf + val q)).
    apply Rle_trans with ((2 * bpow radix2 600) * 2); [apply Rmult_le_compat; lra|nra]. }
  destruct (fmul_rel P (sq m) FP F2) as [F9 (p & Pp & V9)].
  { apply (sized_mono (100 + 181)); [lia|]. now apply sized_mult. }
  assert (B9 : Rabs (val (fmul P (sq m))) <= bpow radix2 600).
  { apply sized_abs; [lia|]. apply (sized_mono 282); [lia|].
    apply (sized_rel 1 281 _ (val P * val (sq m))); [lia|exists p; auto|]. apply (sized_mult 100 181); auto. }
  destruct (fsub_rel (fadd Einf q) (fmul P (sq m)) F8 F9 B8) as [F10 (j & J & V10)]; [apply abs_600; [lia|auto]|].
  exists (i * j), (x * f * g * (/ e) / (1 + t) * (i * j)), (x * p * j).
  assert (IJ : fac 2 (i * j)) by exact (fac_mult 1 1 _ _ I8 J).
  split; [exact IJ|]. split.
  - assert (G9 : fac 9 (x * f * g * / e)).
    { exact (fac_mult 8 1 _ _ (fac_mult 7 1 _ _ (fac_mult 6 1 _ _ X Ff) G) (fac_inv _ _ Ee)). }
    pose proof (quotient _ t K G9 T K1 ltac:(lra)) as Q. pose proof (fac_err 2 _ ltac:(lia) IJ) as Z.
    replace (2 * INR 2 + 1) with 5 in Z by (cbn; lra).
    set (h := x * f * g * / e / (1 + t)) in *.
    replace (h * (i * j) - 1) with ((h - 1) + h * (i * j - 1)) by ring.
    eapply Rle_trans; [apply Rabs_triang|]. rewrite Rabs_mult.
    assert (Rabs h <= 2).
    { replace h with (1 + (h - 1)) by ring. eapply Rle_trans; [apply Rabs_triang|]. rewrite Rabs_R1. lra. }
    assert (Rabs h * Rabs (i * j - 1) <= 2 * (5 * u)) by (apply Rmult_le_compat; auto using Rabs_pos).
    assert (u <= u * K) by nra. lra.
  - split; [exact (fac_mult 7 1 _ _ (fac_mult 6 1 _ _ X Pp) J)|]. split; [exact F10|].
    change (fl_sellmeier_epsilon sq Am En P Einf w) with (fsub (fadd Einf q) (fmul P (sq m))).
    rewrite V10, V8, V9, V7, V6, V5, V4. field. split; [lra|]. split; [lra|exact D_nz].
Qed.

Theorem sellmeier_eps_float :
  let e := fl_sellmeier_epsilon sq Am En P Einf w in
  finite e /\
  Rabs (val e - (val Einf + val Am * W2 / (W2 - E2) - val P * W2)) <=
    60 * K * u * (Rabs (val Einf) + Rabs (val Am * W2 / (W2 - E2)) + Rabs (val P * W2)).
Proof.
  destruct sellmeier_sum as (i & h & p & I2 & Hh & P8 & F & V). split; [exact F|]. rewrite V.
  set (T := val Am * W2 / (W2 - E2)).
  replace (val Einf * i + T * h - val P * W2 * p - (val Einf + T - val P * W2)) with
    ((val Einf * i - val Einf) + T * (h - 1) + - (val P * W2 * p - val P * W2)) by ring.
  eapply Rle_trans; [apply Rabs_triang|]. eapply Rle_trans; [apply Rplus_le_compat_r, Rabs_triang|].
  rewrite Rabs_Ropp, (Rabs_mult T).
  pose proof (weigh 2 (val Einf) i ltac:(lia) I2) as A. pose proof (weigh 8 (val P * W2) p ltac:(lia) P8) as B.
  replace (2 * INR 2 + 1) with 5 in A by (cbn; lra). replace (2 * INR 8 + 1) with 17 in B by (cbn; lra).
  pose proof K_ge1. pose proof u_pos. assert (u <= u * K) by nra.
  pose proof (Rabs_pos T). pose proof (Rabs_pos (val Einf)). pose proof (Rabs_pos (val P * W2)).
  assert (Rabs T * Rabs (h - 1) <= Rabs T * (60 * u * K)) by (apply Rmult_le_compat_l; auto).
  assert (5 * u * Rabs (val Einf) <= 60 * K * u * Rabs (val Einf)) by (apply Rmult_le_compat_r; lra).
  assert (17 * u * Rabs (val P * W2) <= 60 * K * u * Rabs (val P * W2)) by (apply Rmult_le_compat_r; lra).
  lra.
Qed.
End Sellmeier.

(** ** the index: one more rounding *)
Lemma fsqrt_rel x : finite x -> 0 < val x -> finite (fsqrt x) /\ rel 1 (val (fsqrt x)) (sqrt (val x)).
Proof.
  intros F Ps. destruct (Bsqrt_correct 53 1024 prec_ok emax_ok mode_NE x) as (E & G & _).
  assert (Fx : is_finite_strict x = true).
  { destruct x as [s|s| |s m e B]; try reflexivity; cbn in *; try discriminate; lra. }
  split.
  - unfold finite, fsqrt. rewrite G. destruct x as [s|s| |s m e B]; try reflexivity; try discriminate.
    destruct s; [|reflexivity]. exfalso. assert (val (B754_finite true m e B) < 0); [|lra].
    apply (F2R_lt_0 radix2 (Float radix2 (Zneg m) e)). reflexivity.
  - assert (E' : val (fsqrt x) = rnd (sqrt (val x))) by exact E. rewrite E'. apply rnd_fac. right.
    rewrite Rabs_pos_eq by apply sqrt_pos. split.
    + apply Rle_trans with (bpow radix2 (-537)); [apply bpow_le; lia|].
      pose proof (abs_B2R_ge_emin 53 1024 x Fx) as L. change (bpow radix2 (-1074) <= Rabs (val x)) in L.
      rewrite Rabs_pos_eq in L by lra. rewrite <- (sqrt_Rsqr (bpow radix2 (-537))) by apply bpow_ge_0.
      apply sqrt_le_1_alt. unfold Rsqr. rewrite <- bpow_plus. exact L.
    + pose proof (abs_B2R_lt_emax 53 1024 x) as L. change (Rabs (val x) < bpow radix2 1024) in L.
      rewrite Rabs_pos_eq in L by lra. rewrite <- (sqrt_Rsqr (bpow radix2 1000)) by apply bpow_ge_0.
      apply sqrt_le_1_alt. unfold Rsqr. rewrite <- bpow_plus. apply Rlt_le, Rlt_le_trans with (1 := L). apply bpow_le. lia.
Qed.
Lemma sqrt_close a b : 0 < b -> 0 <= a -> Rabs (sqrt a - sqrt b) <= Rabs (a - b) / sqrt b.
Proof.
  intros B A. pose proof (sqrt_lt_R0 b B) as S. pose proof (sqrt_pos a) as S'.
  apply Rmult_le_reg_r with (sqrt b); [auto|]. unfold Rdiv. rewrite Rmult_assoc, Rinv_l, Rmult_1_r by lra.
  replace (a - b) with ((sqrt a - sqrt b) * (sqrt a + sqrt b)).
  - rewrite Rabs_mult. apply Rmult_le_compat_l; [apply Rabs_pos|]. rewrite Rabs_pos_eq; lra.
  - ring_simplify. rewrite !pow2_sqrt; lra.
Qed.

Theorem sqrt_float x e D : finite x -> 0 < e -> Rabs (val x - e) <= D -> D <= e / 2 -> finite (fsqrt x) /\
  Rabs (val (fsqrt x) - sqrt e) <= (D + 6 * u * e) / sqrt e.
Proof.
  intros F E H Hd. pose proof (Rabs_le_inv _ _ H) as B. destruct (fsqrt_rel x F) as [G (f & Ff & V)]; [lra|].
  split; [exact G|]. rewrite V. pose proof (sqrt_lt_R0 e E) as S.
  replace (sqrt (val x) * f - sqrt e) with ((sqrt (val x) * f - sqrt (val x)) + (sqrt (val x) - sqrt e)) by ring.
  eapply Rle_trans; [apply Rabs_triang|].
  pose proof (weigh 1 (sqrt (val x)) f ltac:(lia) Ff) as W. replace (2 * INR 1 + 1) with 3 in W by (cbn; lra).
  rewrite (Rabs_pos_eq (sqrt (val x))) in W by apply sqrt_pos.
  pose proof (sqrt_close (val x) e E ltac:(lra)) as C.
  assert (Q : Rabs (val x - e) / sqrt e <= D / sqrt e).
  { apply Rmult_le_compat_r; [apply Rlt_le, Rinv_0_lt_compat|]; auto. }
  assert (L : sqrt (val x) <= 2 * sqrt e).
  { rewrite <- (sqrt_Rsqr 2) by lra. rewrite <- sqrt_mult by (unfold Rsqr; lra). apply sqrt_le_1_alt. unfold Rsqr. lra. }
  assert (X : 6 * u * e / sqrt e = 6 * u * sqrt e).
  { rewrite <- (sqrt_def e) at 1 by lra. field. lra. }
  replace ((D + 6 * u * e) / sqrt e) with (D / sqrt e + 6 * u * e / sqrt e) by (field; lra). rewrite X.
  pose proof u_pos. assert (3 * u * sqrt (val x) <= 3 * u * (2 * sqrt e)) by (apply Rmult_le_compat_l; lra). lra.
Qed.
