(** * Rounding errors of Cauchy and Sellmeier: proofs *)

Require Import Reals ZArith Bool Lra Lia Psatz.
From Flocq Require Import Core.
From Flocq.IEEE754 Require Import BinarySingleNaN.
From Flocq.Prop Require Import Relative Plus_error.
From Verif Require Import M_float Spec_float P_float P_float2 M_float2 Spec_float2.
Open Scope R_scope.

Lemma fadd_val x y : finite x -> finite y -> Rabs (val x + val y) <= bpow radix2 1000 ->
  val (fadd x y) = rnd (val x + val y) /\ finite (fadd x y).
Proof.
  intros X Y H. pose proof (Bplus_correct 53 1024 prec_ok emax_ok mode_NE x y X Y) as E.
  pose proof (rnd_big _ H) as B.
  change (rnd (val x + val y)) with (round radix2 (SpecFloat.fexp 53 1024) (round_mode mode_NE) (B2R x + B2R y)) in B.
  rewrite B in E. destruct E as (E1 & E2 & _). split; [exact E1|exact E2].
Qed.

(** ** factors close to 1 *)
Definition fac (n : nat) (e : R) : Prop := / (1 + 2 * u) ^ n <= e <= (1 + 2 * u) ^ n.
Definition rel (n : nat) (a b : R) : Prop := exists e, fac n e /\ a = b * e.

Lemma base1 : 1 <= 1 + 2 * u.
Proof. pose proof u_pos. lra. Qed.
Lemma pow_ge1 n : 1 <= (1 + 2 * u) ^ n.
Proof. apply pow_R1_Rle, base1. Qed.
Lemma fac_pos n e : fac n e -> 0 < e.
Proof. intros [A _]. pose proof (pow_ge1 n). eapply Rlt_le_trans; [|exact A]. apply Rinv_0_lt_compat. lra. Qed.
Lemma fac_mult n m e f : fac n e -> fac m f -> fac (n + m) (e * f).
Proof.
  intros E F. pose proof (fac_pos _ _ E). pose proof (fac_pos _ _ F). destruct E as [A B], F as [A' B'].
  pose proof (pow_ge1 n). pose proof (pow_ge1 m). unfold fac. rewrite pow_add, Rinv_mult. split.
  - apply Rmult_le_compat; auto; apply Rlt_le, Rinv_0_lt_compat; lra.
  - apply Rmult_le_compat; lra.
Qed.
Lemma fac_inv n e : fac n e -> fac n (/ e).
Proof.
  intros E. pose proof (fac_pos _ _ E). destruct E as [A B]. pose proof (pow_ge1 n). split.
  - apply Rinv_le; auto.
  - rewrite <- (Rinv_inv ((1 + 2 * u) ^ n)). apply Rinv_le; auto. apply Rinv_0_lt_compat. lra.
Qed.
Lemma fac_mono n m e : (n <= m)%nat -> fac n e -> fac m e.
Proof.
  intros L [A B]. pose proof (pow_ge1 n). pose proof (Rle_pow (1 + 2 * u) n m base1 L) as P. split.
  - eapply Rle_trans; [|exact A]. apply Rinv_le; lra.
  - lra.
Qed.
Lemma fac_one n : fac n 1.
Proof. pose proof (pow_ge1 n). split; [|lra]. set (q := (1 + 2 * u) ^ n) in *. apply Rmult_le_reg_l with q; [lra|]. rewrite Rinv_r; lra. Qed.
Lemma fac_rnd e : Rabs e <= u -> fac 1 (1 + e).
Proof.
  intros B. apply Rabs_le_inv in B. pose proof u_pos. unfold fac. rewrite pow_1. split; [|lra].
  apply Rle_trans with (1 - u); [|lra]. apply Rmult_le_reg_l with (1 + 2 * u); [lra|]. rewrite Rinv_r by lra. nra.
Qed.
Lemma fac_pw e : Rabs e <= 2 * u -> fac 2 (1 + e).
Proof.
  intros B. apply Rabs_le_inv in B. pose proof u_pos. unfold fac. split; [|cbn; nra].
  apply Rle_trans with (1 - 2 * u); [|lra]. apply Rmult_le_reg_l with ((1 + 2 * u) ^ 2); [cbn; nra|].
  rewrite Rinv_r by (cbn; nra). cbn. nra.
Qed.
Lemma INR20 n : (n <= 20)%nat -> 0 <= INR n <= 20.
Proof. intros L. split; [apply pos_INR|]. apply le_INR in L. replace 20 with (INR 20) by (cbn; lra). exact L. Qed.
(** n factors: the error is at most 2 n + 1 units *)
Lemma pow_lin n : (n <= 20)%nat -> (1 + 2 * u) ^ n <= 1 + (2 * INR n + 1) * u.
Proof.
  assert (U : u <= / 1000000).
  { unfold u. rewrite pow2_53. apply Rinv_le; [lra|]. apply IZR_le. lia. }
  pose proof u_pos as P.
  assert (G : forall k, (k <= 20)%nat -> (1 + 2 * u) ^ k <= 1 + (2 * INR k + INR k / 20) * u).
  { intros k. induction k as [|k IH]; intros L; [cbn; lra|].
    specialize (IH ltac:(lia)). rewrite S_INR. cbn [pow].
    pose proof (INR20 k ltac:(lia)).
    apply Rle_trans with ((1 + 2 * u) * (1 + (2 * INR k + INR k / 20) * u)); [apply Rmult_le_compat_l; lra|]. nra. }
  intros L. apply Rle_trans with (1 := G n L). pose proof (INR20 n L). nra.
Qed.
Lemma fac_err n e : (n <= 20)%nat -> fac n e -> Rabs (e - 1) <= (2 * INR n + 1) * u.
Proof.
  intros L [A B]. pose proof (pow_lin n L) as P. pose proof (pow_ge1 n) as Q.
  assert (2 - (1 + 2 * u) ^ n <= / (1 + 2 * u) ^ n).
  { set (q := (1 + 2 * u) ^ n) in *. apply Rmult_le_reg_l with q; [lra|]. rewrite Rinv_r by lra. nra. }
  apply Rabs_le. lra.
Qed.

Lemma rel_refl a : rel 0 a a.
Proof. exists 1. split; [apply fac_one|lra]. Qed.
Lemma rel_mult n m a b c d : rel n a b -> rel m c d -> rel (n + m) (a * c) (b * d).
Proof. intros (e & E & ->) (f & F & ->). exists (e * f). split; [now apply fac_mult|ring]. Qed.
Lemma rel_div n m a b c d : d <> 0 -> rel n a b -> rel m c d -> rel (n + m) (a / c) (b / d).
Proof.
  intros N (e & E & ->) (f & F & ->). pose proof (fac_pos _ _ F). exists (e * / f).
  split; [apply fac_mult; auto; now apply fac_inv|]. field. split; lra.
Qed.
Lemma rel_trans n m a b c : rel n a b -> rel m b c -> rel (n + m) a c.
Proof. intros (e & E & ->) (f & F & ->). exists (e * f). split; [now apply fac_mult|ring]. Qed.
Lemma rel_nonzero n a b : rel n a b -> b <> 0 -> a <> 0.
Proof. intros (e & E & ->) N. pose proof (fac_pos _ _ E). apply Rmult_integral_contrapositive_currified; lra. Qed.
Lemma rel_zero n a : rel n a 0 -> a = 0.
Proof. intros (e & _ & ->). ring. Qed.

(** ** sizes: [sized k x]: zero or between 2^-k and 2^k *)
Definition sized (k : Z) (x : R) : Prop := x = 0 \/ bpow radix2 (- k) <= Rabs x <= bpow radix2 k.
Lemma sized_mono k l x : (k <= l)%Z -> sized k x -> sized l x.
Proof.
  intros L [E|[A B]]; [now left|right]. split.
  - apply Rle_trans with (2 := A). apply bpow_le. lia.
  - apply Rle_trans with (1 := B). apply bpow_le. lia.
Qed.
Lemma sized_mult k l x y : sized k x -> sized l y -> sized (k + l) (x * y).
Proof.
  intros [E|[A B]]; [left; rewrite E; ring|]. intros [E|[A' B']]; [left; rewrite E; ring|]. right.
  rewrite Rabs_mult. replace (- (k + l))%Z with (- k + - l)%Z by lia. rewrite !bpow_plus.
  pose proof (bpow_gt_0 radix2 (- k)). pose proof (bpow_gt_0 radix2 (- l)). split; apply Rmult_le_compat; lra.
Qed.
Lemma sized_inv k y : y <> 0 -> sized k y -> sized k (/ y).
Proof.
  intros N [E|[A B]]; [contradiction|]. right. rewrite Rabs_inv.
  pose proof (Rabs_pos_lt y N). pose proof (bpow_gt_0 radix2 (- k)). rewrite bpow_opp. split.
  - apply Rinv_le; auto.
  - rewrite <- (Rinv_inv (bpow radix2 k)). rewrite <- bpow_opp. apply Rinv_le; auto.
Qed.
Lemma sized_abs k x : (0 <= k)%Z -> sized k x -> Rabs x <= bpow radix2 k.
Proof. intros P [->|[_ B]]; [rewrite Rabs_R0; apply bpow_ge_0|exact B]. Qed.
Lemma fac_half n e : (n <= 20)%nat -> fac n e -> / 2 <= e <= 2.
Proof.
  intros L F. pose proof (fac_err n e L F) as E. pose proof (INR20 n L).
  assert (U : u <= / 1000000).
  { unfold u. rewrite pow2_53. apply Rinv_le; [lra|]. apply IZR_le. lia. }
  pose proof u_pos. pose proof (pos_INR n). apply Rabs_le_inv in E. nra.
Qed.
Lemma sized_rel n k a b : (n <= 20)%nat -> rel n a b -> sized k b -> sized (k + 1) a.
Proof.
  intros L (e & F & ->) [->|[A B]]; [left; ring|right]. destruct (fac_half n e L F) as [P Q].
  rewrite Rabs_mult, (Rabs_pos_eq e) by lra. replace (- (k + 1))%Z with (- k + -1)%Z by lia. rewrite !bpow_plus.
  change (bpow radix2 (-1)) with (/ 2). change (bpow radix2 1) with 2. pose proof (bpow_gt_0 radix2 (- k)).
  split; apply Rmult_le_compat; lra.
Qed.

Lemma rnd_fac x : sized 1000 x -> rel 1 (rnd x) x.
Proof.
  intros [->|[A _]].
  - rewrite round_0 by typeclasses eauto. exists 1. split; [apply fac_one|ring].
  - destruct (rnd_rel x) as (e & B & E); [apply Rle_trans with (2 := A); apply bpow_le; lia|].
    exists (1 + e). split; [now apply fac_rnd|exact E].
Qed.
Lemma rnd_sum x y : fmt x -> fmt y -> rel 1 (rnd (x + y)) (x + y).
Proof.
  intros X Y. pose proof (@FLT_plus_error_N_ex radix2 (-1074) 53 prec_ok (fun x => negb (Z.even x)) x y X Y) as (e & B & E).
  exists (1 + e). split; [|exact E]. apply fac_rnd. apply Rle_trans with (1 := B).
  assert (Q : u_ro radix2 53 = u) by (unfold u_ro; rewrite <- u_bpow; reflexivity).
  rewrite Q. pose proof u_pos. apply Rmult_le_reg_r with (1 + u); [lra|]. unfold Rdiv. rewrite Rmult_assoc, Rinv_l by lra. nra.
Qed.

Lemma fmul_rel x y : finite x -> finite y -> sized 1000 (val x * val y) ->
  finite (fmul x y) /\ rel 1 (val (fmul x y)) (val x * val y).
Proof.
  intros X Y Z. destruct (fmul_val x y X Y) as [E F]; [apply sized_abs; [lia|exact Z]|].
  split; auto. rewrite E. now apply rnd_fac.
Qed.
Lemma fdiv_rel x y : finite x -> val y <> 0 -> sized 1000 (val x / val y) ->
  finite (fdiv x y) /\ rel 1 (val (fdiv x y)) (val x / val y).
Proof.
  intros X Y Z. destruct (fdiv_val x y X Y) as [E F]; [apply sized_abs; [lia|exact Z]|].
  split; auto. rewrite E. now apply rnd_fac.
Qed.
Lemma fadd_rel x y : finite x -> finite y -> Rabs (val x) <= bpow radix2 990 -> Rabs (val y) <= bpow radix2 990 ->
  finite (fadd x y) /\ rel 1 (val (fadd x y)) (val x + val y).
Proof.
  intros X Y A B. destruct (fadd_val x y X Y) as [E F].
  - apply Rle_trans with (1 := Rabs_triang _ _). change 1000%Z with (990 + 10)%Z. rewrite bpow_plus.
    change (bpow radix2 10) with 1024. pose proof (bpow_gt_0 radix2 990). lra.
  - split; auto. rewrite E. apply rnd_sum; apply val_fmt.
Qed.
Lemma fsub_rel x y : finite x -> finite y -> Rabs (val x) <= bpow radix2 990 -> Rabs (val y) <= bpow radix2 990 ->
  finite (fsub x y) /\ rel 1 (val (fsub x y)) (val x - val y).
Proof.
  intros X Y A B. destruct (fsub_val x y X Y) as [E F].
  - unfold Rminus. apply Rle_trans with (1 := Rabs_triang _ _). rewrite Rabs_Ropp. change 1000%Z with (990 + 10)%Z. rewrite bpow_plus.
    change (bpow radix2 10) with 1024. pose proof (bpow_gt_0 radix2 990). lra.
  - split; auto. rewrite E. unfold Rminus. apply rnd_sum; [apply val_fmt|]. apply generic_format_opp, val_fmt.
Qed.
Lemma power_rel k f x : powers k f -> finite x -> moderate (val x) -> finite (f x) /\ rel 2 (val (f x)) (val x ^ k).
Proof.
  intros P F Mo. destruct (P x F Mo) as [G E]. split; auto.
  destruct (Req_dec (val x ^ k) 0) as [Z|N].
  - rewrite Z in *. rewrite Rabs_R0, Rmult_0_r in E. exists 1. split; [apply fac_one|].
    assert (Rabs (val (f x) - 0) = 0) by (apply Rle_antisym; [exact E|apply Rabs_pos]).
    destruct (Req_dec (val (f x) - 0) 0) as [Q|Q]; [lra|]. apply Rabs_no_R0 in Q. contradiction.
  - exists (1 + (val (f x) - val x ^ k) / val x ^ k). split; [|field; exact N]. apply fac_pw.
    unfold Rdiv. rewrite Rabs_mult, Rabs_inv. pose proof (Rabs_pos_lt _ N).
    apply Rmult_le_reg_r with (Rabs (val x ^ k)); [auto|]. rewrite Rmult_assoc, Rinv_l by lra. lra.
Qed.
Lemma moderate_sized x : moderate x -> sized 100 x.
Proof. exact (fun H => H). Qed.
Lemma sized_pow k x n : (0 <= k)%Z -> sized k x -> sized (k * Z.of_nat n) (x ^ n) .
Proof.
  intros P S. induction n as [|n IH].
  - cbn [pow]. rewrite Z.mul_0_r. right. rewrite Rabs_R1. cbn. lra.
  - cbn [pow]. replace (k * Z.of_nat (Datatypes.S n))%Z with (k + k * Z.of_nat n)%Z by lia. now apply sized_mult.
Qed.

(** ** Cauchy *)
Lemma term_rel k f B c w : powers k f -> (k <= 4)%nat -> finite B -> moderate (val B) -> (0 < c <= 2 ^ 53)%Z ->
  finite w -> moderate (val w) -> val w <> 0 ->
  let t := fdiv (fmul B (fZ c)) (f w) in
  finite t /\ rel 4 (val t) (val B * IZR c / val w ^ k) /\ Rabs (val t) <= bpow radix2 600.
Proof.
  intros P K FB MB Cp Fw Mw N t.
  destruct (fZ_val c) as [C1 C2]; [lia|].
  assert (SC : sized 53 (IZR c)).
  { right. rewrite Rabs_pos_eq by (apply IZR_le; lia). split.
    - apply Rle_trans with 1; [apply (bpow_le radix2 (-53) 0); lia|apply IZR_le; lia].
    - change (bpow radix2 53) with (IZR (2 ^ 53)). apply IZR_le. lia. }
  assert (SB : sized 153 (val B * IZR c)) by (apply (sized_mult 100 53); auto).
  destruct (fmul_rel B (fZ c)) as [F1 R1]; auto.
  { rewrite C1. apply (sized_mono 153); [lia|auto]. }
  rewrite C1 in R1.
  destruct (power_rel k f w P Fw Mw) as [F2 R2].
  assert (NW : val w ^ k <> 0) by (apply pow_nonzero; auto).
  pose proof (rel_nonzero _ _ _ R2 NW) as N2.
  assert (SW : sized 400 (val w ^ k)).
  { apply (sized_mono (100 * Z.of_nat k)); [lia|]. apply sized_pow; [lia|auto]. }
  assert (SQ : sized 553 (val B * IZR c / val w ^ k)).
  { apply (sized_mult 153 400); auto. now apply sized_inv. }
  pose proof (rel_div _ _ _ _ _ _ NW R1 R2) as R3. cbn [Nat.add] in R3.
  pose proof (sized_rel 3 _ _ _ ltac:(lia) R3 SQ) as S3.
  destruct (fdiv_rel (fmul B (fZ c)) (f w) F1 N2) as [F4 R4].
  { apply (sized_mono 554); [lia|exact S3]. }
  pose proof (rel_trans _ _ _ _ _ R4 R3) as R5. cbn [Nat.add] in R5.
  split; [exact F4|]. split; [exact R5|].
  pose proof (sized_rel 4 _ _ _ ltac:(lia) R5 SQ) as S5. apply sized_abs; [lia|].
  apply (sized_mono 554); [lia|exact S5].
Qed.

Lemma mod_abs x : moderate x -> Rabs x <= bpow radix2 600.
Proof. intros H. apply sized_abs; [lia|]. apply (sized_mono 100); [lia|exact H]. Qed.
Lemma abs_600 x k : (600 <= k)%Z -> Rabs x <= bpow radix2 600 -> Rabs x <= bpow radix2 k.
Proof. intros L H. apply Rle_trans with (1 := H). now apply bpow_le. Qed.

Lemma weigh n x e : (n <= 20)%nat -> fac n e -> Rabs (x * e - x) <= (2 * INR n + 1) * u * Rabs x.
Proof.
  intros L F. replace (x * e - x) with ((e - 1) * x) by ring. rewrite Rabs_mult.
  apply Rmult_le_compat_r; [apply Rabs_pos|]. now apply fac_err.
Qed.
(** a sum of three terms, added from the left *)
Lemma three n a b c a' b' c' e f : (n <= 18)%nat -> rel n a a' -> rel n b b' -> rel n c c' -> fac 1 e -> fac 1 f ->
  Rabs (((a + b) * e + c) * f - (a' + b' + c')) <= (2 * INR (n + 2) + 1) * u * (Rabs a' + Rabs b' + Rabs c').
Proof.
  intros L (x & X & ->) (y & Y & ->) (z & Z & ->) E F.
  replace (((a' * x + b' * y) * e + c' * z) * f - (a' + b' + c')) with
    ((a' * (x * (e * f)) - a') + (b' * (y * (e * f)) - b') + (c' * (z * f) - c')) by ring.
  assert (P : fac 2 (e * f)) by exact (fac_mult 1 1 e f E F).
  pose proof (weigh (n + 2) a' _ ltac:(lia) (fac_mult n 2 x _ X P)).
  pose proof (weigh (n + 2) b' _ ltac:(lia) (fac_mult n 2 y _ Y P)).
  pose proof (weigh (n + 2) c' _ ltac:(lia) (fac_mono (n + 1) (n + 2) _ ltac:(lia) (fac_mult n 1 z f Z F))).
  eapply Rle_trans; [apply Rabs_triang|]. eapply Rle_trans; [apply Rplus_le_compat_r, Rabs_triang|]. lra.
Qed.
Lemma rel_mono n m a b : (n <= m)%nat -> rel n a b -> rel m a b.
Proof. intros L (e & E & ->). exists e. split; [now apply (fac_mono n)|reflexivity]. Qed.

Theorem cauchy_float sq p4 A B C w :
  powers 2 sq -> powers 4 p4 -> finite A -> finite B -> finite C -> finite w ->
  moderate (val A) -> moderate (val B) -> moderate (val C) -> moderate (val w) -> val w <> 0 ->
  let n := fl_cauchy sq p4 A B C w in
  finite n /\
  Rabs (val n - (val A + val B * 1000 ^ 2 / val w ^ 2 + val C * 1000 ^ 4 / val w ^ 4)) <=
    13 * u * (Rabs (val A) + Rabs (val B * 1000 ^ 2 / val w ^ 2) + Rabs (val C * 1000 ^ 4 / val w ^ 4)).
Proof.
  intros Sq P4 FA FB FC Fw MA MB MC Mw N n.
  destruct (term_rel 2 sq B (1000 ^ 2) w Sq ltac:(lia) FB MB ltac:(lia) Fw Mw N) as (F1 & R1 & T1).
  destruct (term_rel 4 p4 C (1000 ^ 4) w P4 ltac:(lia) FC MC ltac:(lia) Fw Mw N) as (F2 & R2 & T2).
  destruct (fadd_rel A _ FA F1) as [F3 (e & E & V3)].
  { apply abs_600; [lia|]. now apply mod_abs. }
  { apply abs_600; [lia|exact T1]. }
  assert (T3 : Rabs (val (fadd A (fdiv (fmul B (fZ (1000 ^ 2))) (sq w)))) <= bpow radix2 990).
  { rewrite V3, Rabs_mult. destruct (fac_half 1 e ltac:(lia) E). rewrite (Rabs_pos_eq e) by lra.
    change 990%Z with (600 + 390)%Z. rewrite bpow_plus.
    assert (4 <= bpow radix2 390) by (change 4 with (bpow radix2 2); apply bpow_le; lia).
    pose proof (Rabs_triang (val A) (val (fdiv (fmul B (fZ (1000 ^ 2))) (sq w)))). pose proof (mod_abs _ MA).
    pose proof (bpow_gt_0 radix2 600). pose proof (Rabs_pos (val A + val (fdiv (fmul B (fZ (1000 ^ 2))) (sq w)))).
    apply Rle_trans with ((2 * bpow radix2 600) * 2); [apply Rmult_le_compat; lra|nra]. }
  destruct (fadd_rel _ _ F3 F2 T3) as [F4 (f & Ff & V4)]; [apply abs_600; [lia|exact T2]|].
  split; [exact F4|]. unfold n, fl_cauchy. rewrite V4, V3.
  replace (val B * 1000 ^ 2) with (val B * IZR (1000 ^ 2)) by (f_equal; cbn; lra).
  replace (val C * 1000 ^ 4) with (val C * IZR (1000 ^ 4)) by (f_equal; cbn; lra).
  replace 13 with (2 * INR (4 + 2) + 1) by (cbn; lra).
  apply three; auto; [lia|]. apply (rel_mono 0); [lia|apply rel_refl].
Qed.
