(** * Double precision mixing of transparent media: proofs *)

Require Import Reals ZArith Bool Lra Lia Psatz.
From Flocq Require Import Core.
From Flocq.IEEE754 Require Import BinarySingleNaN.
From Verif Require Import M_float Spec_float P_float P_float2 M_float2 Spec_float2 P_float3 P_float4 M_float3 P_float6.
Open Scope R_scope.

(** a finite complex number on the real axis with real part r *)
Definition axis (z : fc) (r : R) : Prop := finite (fst z) /\ finite (snd z) /\ val (fst z) = r /\ val (snd z) = 0.

Lemma zero_of x : finite x -> val x = 0 -> is_zero x = true.
Proof.
  intros F V. destruct x as [s|s| |s m e B]; try discriminate F; [reflexivity|].
  exfalso. unfold val, B2R in V. apply eq_0_F2R in V. destruct s; discriminate V.
Qed.
Lemma is_zero_of x : is_zero x = true -> finite x /\ val x = 0.
Proof. destruct x; try discriminate. intros _. split; reflexivity. Qed.
Lemma fmul_zero_l x y : finite x -> finite y -> val x = 0 -> finite (fmul x y) /\ val (fmul x y) = 0.
Proof.
  intros X Y Z. destruct (fmul_val x y X Y) as [E F].
  - rewrite Z, Rmult_0_l, Rabs_R0. apply bpow_ge_0.
  - split; auto. rewrite E, Z, Rmult_0_l. apply round_0. typeclasses eauto.
Qed.
Lemma fmul_zero_r x y : finite x -> finite y -> val y = 0 -> finite (fmul x y) /\ val (fmul x y) = 0.
Proof.
  intros X Y Z. destruct (fmul_val x y X Y) as [E F].
  - rewrite Z, Rmult_0_r, Rabs_R0. apply bpow_ge_0.
  - split; auto. rewrite E, Z, Rmult_0_r. apply round_0. typeclasses eauto.
Qed.
Lemma val_le_1000 k x : (k <= 1000)%Z -> Rabs (val x) <= bpow radix2 k -> Rabs (val x) <= bpow radix2 1000.
Proof. intros K H. apply Rle_trans with (1 := H). apply bpow_le. lia. Qed.

(** a product of numbers on the real axis is the rounded product *)
Lemma axis_mul z w a b : axis z a -> axis w b -> Rabs (a * b) <= bpow radix2 999 -> axis (fc_mul z w) (rnd (a * b)).
Proof.
  intros (F & F' & <- & Z) (G & G' & <- & W) H.
  assert (H' : Rabs (val (fst z) * val (fst w)) <= bpow radix2 1000) by (apply Rle_trans with (1 := H); apply bpow_le; lia).
  destruct (fmul_val _ _ F G H') as [V1 F1]. destruct (fmul_zero_l _ _ F' G' Z) as [F2 V2].
  destruct (fmul_zero_r _ _ F G' W) as [F3 V3]. destruct (fmul_zero_l _ _ F' G Z) as [F4 V4].
  assert (R1 : Rabs (rnd (val (fst z) * val (fst w))) <= bpow radix2 1000).
  { apply abs_round_le_generic; auto using fmt_big; typeclasses eauto. }
  unfold fc_mul. destruct (fsub_val _ _ F1 F2) as [V5 F5]; [rewrite V1, V2, Rminus_0_r; exact R1|].
  destruct (fadd_val _ _ F3 F4) as [V6 F6]; [rewrite V3, V4, Rplus_0_r, Rabs_R0; apply bpow_ge_0|].
  split; [exact F5|split; [exact F6|split]]; cbn [fst snd].
  - rewrite V5, V1, V2, Rminus_0_r. apply round_generic; [typeclasses eauto|]. apply generic_format_round; typeclasses eauto.
  - rewrite V6, V3, V4, Rplus_0_r. apply round_0. typeclasses eauto.
Qed.
Lemma axis_add z w a b : axis z a -> axis w b -> Rabs (a + b) <= bpow radix2 999 -> axis (fc_add z w) (rnd (a + b)).
Proof.
  intros (F & F' & <- & Z) (G & G' & <- & W) H.
  assert (H' : Rabs (val (fst z) + val (fst w)) <= bpow radix2 1000) by (apply Rle_trans with (1 := H); apply bpow_le; lia).
  destruct (fadd_val _ _ F G H') as [V1 F1].
  destruct (fadd_val _ _ F' G') as [V2 F2]; [rewrite Z, W, Rplus_0_r, Rabs_R0; apply bpow_ge_0|].
  unfold fc_add. split; [exact F1|split; [exact F2|split]]; cbn [fst snd]; [exact V1|].
  rewrite V2, Z, W, Rplus_0_r. apply round_0. typeclasses eauto.
Qed.
Lemma axis_real x : finite x -> axis (fc_real x) (val x).
Proof. intros F. repeat split; auto. Qed.
Lemma axis_fmt z a : axis z a -> fmt a.
Proof. intros (_ & _ & <- & _). apply val_fmt. Qed.

Lemma fsqrt_val x : finite x -> 0 <= val x -> finite (fsqrt x) /\ val (fsqrt x) = rnd (sqrt (val x)).
Proof.
  intros F P. destruct (Rle_lt_or_eq_dec 0 (val x) P) as [L|E].
  - split; [apply fsqrt_rel; auto|]. exact (proj1 (Bsqrt_correct 53 1024 prec_ok emax_ok mode_NE x)).
  - pose proof (zero_of x F (eq_sym E)) as Z. destruct x; try discriminate Z. split; [reflexivity|].
    change (val (B754_zero s)) with 0. rewrite sqrt_0, round_0 by typeclasses eauto. reflexivity.
Qed.
Lemma axis_sqrt cs z a : axis z a -> 0 <= a -> axis (fc_sqrt cs z) (rnd (sqrt a)).
Proof.
  intros (F & F' & <- & Z) P. unfold fc_sqrt. rewrite (zero_of _ F' Z). cbn [andb].
  assert (B : Bleb fzero (fst z) = true).
  { rewrite Bleb_correct; auto. now apply Rle_bool_true. }
  rewrite B. destruct (fsqrt_val _ F P) as [G V]. split; [exact G|split; [exact F'|split; [exact V|exact Z]]].
Qed.

(** ** sizes *)
Lemma bound_mult k l x y : Rabs x <= bpow radix2 k -> Rabs y <= bpow radix2 l -> Rabs (x * y) <= bpow radix2 (k + l).
Proof. intros A B. rewrite Rabs_mult, bpow_plus. apply Rmult_le_compat; auto using Rabs_pos. Qed.
Lemma mod_square x : moderate x -> sized 200 (x * x).
Proof. intros M. apply (sized_mult 100 100); exact M. Qed.
Lemma rnd_pos x : 0 <= x -> 0 <= rnd x.
Proof. intros P. rewrite <- (round_0 radix2 (FLT_exp (-1074) 53) ZnearestE). now apply rnd_le. Qed.

(** 1 - v is not tiny *)
Lemma rest_sized v : fmt v -> 0 <= v <= 1 -> sized 53 (1 - v).
Proof.
  intros F [A B]. destruct (Rle_lt_or_eq_dec v 1 B) as [L|E]; [right|left; lra].
  rewrite Rabs_pos_eq by lra. split.
  - assert (P : v <= pred radix2 (FLT_exp (-1074) 53) 1).
    { apply pred_ge_gt; auto; try typeclasses eauto. apply (fmt_Z 1). cbn. lia. }
    rewrite pred_eq_pos in P by lra. unfold pred_pos in P.
    rewrite (mag_unique radix2 1 1) in P by (rewrite Rabs_R1; cbn; lra).
    rewrite Req_bool_true in P by reflexivity. change (FLT_exp (-1074) 53 (1 - 1)) with (-53)%Z in P.
    change (-(53))%Z with (-53)%Z. lra.
  - apply Rle_trans with 1; [lra|]. change 1 with (bpow radix2 0). apply bpow_le. lia.
Qed.

Lemma axis_Z : finite (fZ 1) /\ val (fZ 1) = 1.
Proof. destruct (finite_Z 1 ltac:(lia)). auto. Qed.

Section Linear.
Context (A B : fc) (v : f64) (a b : R) (HA : axis A a) (HB : axis B b) (Fv : finite v)
  (Ma : moderate a) (Mb : moderate b) (Mv : moderate (val v)) (R01 : 0 <= val v <= 1).

Let w := rnd (1 - val v).
Let Ea := rnd (a * a).
Let Eb := rnd (b * b).
Lemma rest_val : finite (fsub (fZ 1) v) /\ val (fsub (fZ 1) v) = w.
Proof.
  destruct axis_Z as [F V]. destruct (fsub_val (fZ 1) v F Fv) as [E G].
  - rewrite V. apply Rle_trans with 1; [rewrite Rabs_pos_eq; lra|]. change 1 with (bpow radix2 0). apply bpow_le. lia.
  - split; auto. rewrite E, V. reflexivity.
Qed.
Lemma w_rel : rel 1 w (1 - val v).
Proof. apply rnd_fac. apply (sized_mono 53); [lia|]. apply rest_sized; auto. apply val_fmt. Qed.
Lemma w_sized : sized 54 w.
Proof. apply (sized_rel 1 53 w (1 - val v)); [lia|apply w_rel|]. apply rest_sized; auto. apply val_fmt. Qed.
Lemma square_rel x : moderate x -> rel 1 (rnd (x * x)) (x * x) /\ sized 201 (rnd (x * x)).
Proof.
  intros M. pose proof (mod_square x M) as S. assert (Q : rel 1 (rnd (x * x)) (x * x)).
  { apply rnd_fac. apply (sized_mono 200); [lia|exact S]. }
  split; [exact Q|]. exact (sized_rel 1 200 _ (x * x) ltac:(lia) Q S).
Qed.
Lemma abs_of k x : (0 <= k <= 999)%Z -> sized k x -> Rabs x <= bpow radix2 999.
Proof. intros K S. apply Rle_trans with (bpow radix2 k); [apply sized_abs; [lia|auto]|apply bpow_le; lia]. Qed.

Lemma term1 : axis (fc_mul (fc_real (fsub (fZ 1) v)) (fc_mul A A)) (rnd (w * Ea)) /\
  rel 3 (rnd (w * Ea)) ((1 - val v) * (a * a)) /\ sized 256 (rnd (w * Ea)).
Proof.
  destruct (square_rel a Ma) as [Re Se]. destruct rest_val as [Fw Vw].
  assert (S : sized 255 (w * Ea)) by (apply (sized_mult 54 201); [apply w_sized|exact Se]).
  assert (R1 : rel 1 (rnd (w * Ea)) (w * Ea)) by (apply rnd_fac, (sized_mono 255); [lia|exact S]).
  split; [|split].
  - apply axis_mul.
    + rewrite <- Vw. now apply axis_real.
    + apply axis_mul; auto. apply (abs_of 200); [lia|]. now apply mod_square.
    + apply (abs_of 255); [lia|exact S].
  - apply (rel_trans 1 2 _ (w * Ea)); [exact R1|]. apply (rel_mult 1 1); [apply w_rel|exact Re].
  - exact (sized_rel 1 255 _ (w * Ea) ltac:(lia) R1 S).
Qed.
Lemma term2 : axis (fc_mul (fc_real v) (fc_mul B B)) (rnd (val v * Eb)) /\
  rel 2 (rnd (val v * Eb)) (val v * (b * b)) /\ sized 302 (rnd (val v * Eb)).
Proof.
  destruct (square_rel b Mb) as [Re Se].
  assert (S : sized 301 (val v * Eb)) by (apply (sized_mult 100 201); [exact Mv|exact Se]).
  assert (R1 : rel 1 (rnd (val v * Eb)) (val v * Eb)) by (apply rnd_fac, (sized_mono 301); [lia|exact S]).
  split; [|split].
  - apply axis_mul.
    + now apply axis_real.
    + apply axis_mul; auto. apply (abs_of 200); [lia|]. now apply mod_square.
    + apply (abs_of 301); [lia|exact S].
  - apply (rel_trans 1 1 _ (val v * Eb)); [exact R1|]. apply (rel_mult 0 1); [apply rel_refl|exact Re].
  - exact (sized_rel 1 301 _ (val v * Eb) ltac:(lia) R1 S).
Qed.

Definition mixed : R := (1 - val v) * (a * a) + val v * (b * b).

Lemma rel_plus n x y x' y' : 0 <= x' -> 0 <= y' -> rel n x x' -> rel n y y' -> rel n (x + y) (x' + y').
Proof.
  intros X Y (e & E & ->) (f & F & ->). destruct (Req_dec (x' + y') 0) as [Z|N].
  - assert (x' = 0) by lra. assert (y' = 0) by lra. subst. exists 1. split; [apply fac_one|ring].
  - exists ((x' * e + y' * f) / (x' + y')). split; [|field; lra]. destruct E as [E1 E2], F as [F1 F2].
    unfold fac. set (p := (1 + 2 * u) ^ n) in *. set (q := / p) in *. clearbody p q.
    assert (0 < x' + y') by lra.
    assert (x' * q <= x' * e) by (apply Rmult_le_compat_l; lra). assert (x' * e <= x' * p) by (apply Rmult_le_compat_l; lra).
    assert (y' * q <= y' * f) by (apply Rmult_le_compat_l; lra). assert (y' * f <= y' * p) by (apply Rmult_le_compat_l; lra).
    split; apply Rmult_le_reg_r with (x' + y'); try lra; unfold Rdiv; rewrite Rmult_assoc, Rinv_l by lra; lra.
Qed.

Lemma epsilon_axis : exists e, axis (fl_linear_epsilon A B v) e /\ rel 4 e mixed /\ 0 <= e /\
  e = rnd (rnd (w * Ea) + rnd (val v * Eb)).
Proof.
  destruct term1 as (A1 & R1 & S1). destruct term2 as (A2 & R2 & S2).
  exists (rnd (rnd (w * Ea) + rnd (val v * Eb))).
  assert (0 <= w) by (apply rnd_pos; lra). assert (0 <= Ea) by (apply rnd_pos; nra). assert (0 <= Eb) by (apply rnd_pos; nra).
  split; [|split; [|split; [|reflexivity]]].
  - apply axis_add; auto. apply Rle_trans with (1 := Rabs_triang _ _).
    replace (bpow radix2 999) with (bpow radix2 998 + bpow radix2 998).
    + apply Rplus_le_compat; (eapply Rle_trans; [apply sized_abs; [|eassumption]; lia|apply bpow_le; lia]).
    + change 999%Z with (1 + 998)%Z. rewrite (bpow_plus radix2 1). change (bpow radix2 1) with 2. ring.
  - apply (rel_trans 1 3 _ (rnd (w * Ea) + rnd (val v * Eb))).
    + apply rnd_sum; apply generic_format_round; typeclasses eauto.
    + unfold mixed. apply rel_plus; try nra; auto. destruct R2 as (e & E & Q). exists e. split; [apply (fac_mono 2); auto|exact Q].
  - apply rnd_pos. apply Rplus_le_le_0_compat; apply rnd_pos; apply Rmult_le_pos; lra.
Qed.

Lemma fac_sqrt n e : fac n e -> fac n (sqrt e).
Proof.
  intros E. pose proof (fac_pos _ _ E). destruct E as [E1 E2]. pose proof (pow_ge1 n) as P.
  set (p := (1 + 2 * u) ^ n) in *. unfold fac. fold p. pose proof (sqrt_lt_R0 e H) as S. pose proof (sqrt_sqrt e ltac:(lra)) as Q.
  assert (I : / p <= 1) by (rewrite <- Rinv_1; apply Rinv_le; lra).
  assert (I0 : 0 < / p) by (apply Rinv_0_lt_compat; lra).
  split; apply Rnot_lt_le; intros L.
  - assert (sqrt e * sqrt e < / p) by nra. lra.
  - assert (p < sqrt e * sqrt e) by nra. lra.
Qed.

Theorem linear_float cs : exists n, axis (fl_linear cs A B v) n /\ Rabs (n - sqrt mixed) <= 11 * u * sqrt mixed.
Proof.
  destruct epsilon_axis as (e & Ae & Re & Pe & _). exists (rnd (sqrt e)). split; [now apply axis_sqrt|].
  assert (M0 : 0 <= mixed) by (unfold mixed; nra).
  assert (R5 : rel 5 (rnd (sqrt e)) (sqrt mixed)).
  { apply (rel_trans 1 4 _ (sqrt e)).
    - destruct (Rle_lt_or_eq_dec 0 e Pe) as [L|<-].
      + pose proof (axis_sqrt cs _ _ Ae Pe) as _. destruct Ae as (F & _ & V & _). rewrite <- V in L |- *.
        destruct (fsqrt_rel _ F L) as [_ Q]. destruct (fsqrt_val _ F (Rlt_le _ _ L)) as [_ W]. now rewrite W in Q.
      + rewrite sqrt_0, round_0 by typeclasses eauto. exists 1. split; [apply fac_one|ring].
    - destruct Re as (f & E & ->). exists (sqrt f). split; [now apply fac_sqrt|]. apply sqrt_mult; auto.
      apply Rlt_le. now apply (fac_pos 4). }
  destruct R5 as (f & E & ->). pose proof (weigh 5 (sqrt mixed) f ltac:(lia) E) as W.
  replace (2 * INR 5 + 1) with 11 in W by (cbn; lra). rewrite (Rabs_pos_eq (sqrt mixed)) in W by apply sqrt_pos. exact W.
Qed.
End Linear.

Lemma root_square x : fmt x -> moderate x -> rnd (sqrt (rnd (x * x))) = Rabs x.
Proof.
  intros F [->|M].
  - rewrite Rmult_0_l, round_0, sqrt_0, round_0, Rabs_R0 by typeclasses eauto. reflexivity.
  - replace (x * x) with (Rabs x * Rabs x) by (rewrite <- Rabs_mult; apply Rabs_pos_eq; nra).
    apply sqrt_square; [now apply generic_format_abs|]. destruct M as [P Q]. split.
    + apply Rle_trans with (2 := P). apply bpow_le. lia.
    + apply Rle_trans with (1 := Q). apply bpow_le. lia.
Qed.

Lemma rnd_rnd x : rnd (rnd x) = rnd x.
Proof. apply rnd_id. apply generic_format_round; typeclasses eauto. Qed.
Lemma rnd_1 : rnd 1 = 1.
Proof. apply rnd_id. apply (fmt_Z 1). cbn. lia. Qed.
Lemma rnd_00 : rnd 0 = 0.
Proof. apply round_0. typeclasses eauto. Qed.

Theorem linear_dry cs A B v a b : axis A a -> axis B b -> finite v -> moderate a -> moderate b -> val v = 0 ->
  axis (fl_linear cs A B v) (Rabs a).
Proof.
  intros HA HB F Ma Mb V.
  destruct (epsilon_axis A B v a b HA HB F Ma Mb) as (e & Ae & _ & Pe & E); [left; exact V|lra|].
  pose proof (axis_sqrt cs _ _ Ae Pe) as Q. rewrite E in Q.
  rewrite V, Rminus_0_r, rnd_1, Rmult_0_l, Rmult_1_l, rnd_00, Rplus_0_r, !rnd_rnd, root_square in Q; auto.
  now apply axis_fmt in HA.
Qed.
Theorem linear_full cs A B v a b : axis A a -> axis B b -> finite v -> moderate a -> moderate b -> val v = 1 ->
  axis (fl_linear cs A B v) (Rabs b).
Proof.
  intros HA HB F Ma Mb V.
  destruct (epsilon_axis A B v a b HA HB F Ma Mb) as (e & Ae & _ & Pe & E); [|lra|].
  { right. rewrite V, Rabs_R1. split; [change 1 with (bpow radix2 0)|change 1 with (bpow radix2 0)]; apply bpow_le; lia. }
  pose proof (axis_sqrt cs _ _ Ae Pe) as Q. rewrite E in Q.
  rewrite V, Rminus_diag_eq, rnd_00, Rmult_0_l, Rmult_1_l, rnd_00, Rplus_0_l, !rnd_rnd, root_square in Q; auto.
  now apply axis_fmt in HB.
Qed.
