(** * Maxwell-Garnett in double precision, transparent media: proofs *)

Require Import Reals ZArith Bool Lra Lia Psatz.
From Flocq Require Import Core.
From Flocq.IEEE754 Require Import BinarySingleNaN.
From Verif Require Import M_float Spec_float P_float P_float2 M_float2 Spec_float2 P_float3 P_float4 M_float3 P_float6 P_float7 P_float8.
Open Scope R_scope.

Lemma axis_sub z w a b : axis z a -> axis w b -> Rabs (a - b) <= bpow radix2 999 -> axis (fc_sub z w) (rnd (a - b)).
Proof.
  intros (F & F' & <- & Z) (G & G' & <- & W) H.
  destruct (fsub_val _ _ F G (thousand _ H)) as [V1 F1].
  destruct (fsub_val _ _ F' G') as [V2 F2]; [rewrite Z, W, Rminus_0_r, Rabs_R0; apply bpow_ge_0|].
  unfold fc_sub. split; [exact F1|split; [exact F2|split]]; cbn [fst snd]; [exact V1|].
  rewrite V2, Z, W, Rminus_0_r. apply round_0. typeclasses eauto.
Qed.

Lemma fdiv_zero x y : finite x -> val x = 0 -> val y <> 0 -> finite (fdiv x y) /\ val (fdiv x y) = 0.
Proof.
  intros F Z N. destruct (fdiv_val x y F N) as [V G].
  - rewrite Z. unfold Rdiv. rewrite Rmult_0_l, Rabs_R0. apply bpow_ge_0.
  - split; [exact G|]. rewrite V, Z. unfold Rdiv. rewrite Rmult_0_l. apply rnd_00.
Qed.

(** division: multiplication by the rounded reciprocal *)
Lemma axis_div z w a b : axis z a -> axis w b -> b <> 0 -> Rabs a <= bpow radix2 999 -> Rabs b <= bpow radix2 999 ->
  Rabs (1 / b) <= bpow radix2 999 ->
  Rabs (a * rnd (1 / b)) <= bpow radix2 999 -> axis (fc_div z w) (rnd (a * rnd (1 / b))).
Proof.
  intros (F & F' & <- & Z) (G & G' & <- & W) N Ha Hb H1 H2.
  assert (B : Bleb (fabs (snd w)) (fabs (fst w)) = true).
  { rewrite Bleb_correct by (apply finite_fabs; assumption). apply Rle_bool_true.
    change (val (fabs (snd w)) <= val (fabs (fst w))). rewrite !val_fabs, W, Rabs_R0. apply Rabs_pos. }
  assert (Zf : is_zero (fst w) = false).
  { destruct (is_zero (fst w)) eqn:E; [|reflexivity]. apply is_zero_of in E. destruct E. contradiction. }
  unfold fc_div. rewrite B, Zf. cbn [andb]. cbv zeta.
  destruct (fdiv_zero (snd w) (fst w) G' W N) as [Fr Vr]. set (rat := fdiv (snd w) (fst w)) in *.
  destruct (fmul_zero_l (snd w) rat G' Fr W) as [Fm Vm].
  destruct (fadd_val _ _ G Fm) as [Vd Fd]; [rewrite Vm, Rplus_0_r; now apply thousand|].
  rewrite Vm, Rplus_0_r, (rnd_id _ (val_fmt _)) in Vd. set (den := fadd (fst w) (fmul (snd w) rat)) in *.
  destruct axis_Z as [Fo Vo].
  destruct (fdiv_val (fZ 1) den Fo) as [Vs Fs]; [rewrite Vd; exact N|rewrite Vd, Vo; now apply thousand|].
  rewrite Vd, Vo in Vs. set (scl := fdiv (fZ 1) den) in *.
  destruct (fmul_zero_l (snd z) rat F' Fr Z) as [Fi Vi].
  destruct (fadd_val _ _ F Fi) as [Vn Fn]; [rewrite Vi, Rplus_0_r; now apply thousand|].
  rewrite Vi, Rplus_0_r, (rnd_id _ (val_fmt _)) in Vn.
  destruct (fmul_val _ _ Fn Fs) as [Vq Fq]; [rewrite Vn, Vs; now apply thousand|].
  destruct (fmul_zero_r (fst z) rat F Fr Vr) as [Fj Vj].
  destruct (fsub_val _ _ F' Fj) as [Vk Fk]; [rewrite Z, Vj, Rminus_0_r, Rabs_R0; apply bpow_ge_0|].
  rewrite Z, Vj, Rminus_0_r, rnd_00 in Vk.
  destruct (fmul_zero_l _ scl Fk Fs Vk) as [Fl Vl].
  split; [exact Fq|split; [exact Fl|split; [|exact Vl]]]. cbn [fst]. rewrite Vq, Vn, Vs. reflexivity.
Qed.

Lemma thousand_le k x : (k <= 999)%Z -> Rabs x <= bpow radix2 k -> Rabs x <= bpow radix2 999.
Proof. intros K H. apply Rle_trans with (1 := H). apply bpow_le. lia. Qed.

Section Blend.
Context (A B : fc) (a b : R) (HA : axis A a) (HB : axis B b) (Ma : moderate a) (Mb : moderate b) (a0 : a <> 0) (b0 : b <> 0).
Let M := Rmax (a * a) (b * b).
Let m := Rmin (a * a) (b * b).
Let Ea := rnd (a * a).
Let Eb := rnd (b * b).

Lemma a2 : 0 < a * a /\ 0 < b * b.
Proof. split; nra. Qed.
Lemma M_pos : 0 < M.
Proof. pose proof a2. pose proof (Rmax_l (a * a) (b * b)). unfold M. lra. Qed.
Lemma sized_M : sized 200 M.
Proof. unfold M, Rmax. destruct (Rle_dec _ _); now apply mod_square. Qed.
Lemma sized_m : sized 200 m.
Proof. unfold m, Rmin. destruct (Rle_dec _ _); now apply mod_square. Qed.
Lemma m_pos : 0 < m.
Proof. pose proof a2. unfold m, Rmin. destruct (Rle_dec _ _); lra. Qed.
Lemma bounds : m <= a * a <= M /\ m <= b * b <= M.
Proof. unfold m, M. pose proof (Rmax_l (a * a) (b * b)). pose proof (Rmax_r (a * a) (b * b)). pose proof (Rmin_l (a * a) (b * b)). pose proof (Rmin_r (a * a) (b * b)). lra. Qed.

Lemma square_axis : axis (fc_mul A A) Ea /\ axis (fc_mul B B) Eb /\
  Rabs (Ea - a * a) <= 2 * u * M /\ Rabs (Eb - b * b) <= 2 * u * M.
Proof.
  pose proof bounds as Bd. pose proof a2 as P. pose proof M_pos as PM.
  assert (S4 : sized 400 M) by (apply (sized_mono 200); [lia|apply sized_M]).
  assert (Xa : Rabs (a * a) = a * a) by (apply Rabs_pos_eq; lra). assert (Xb : Rabs (b * b) = b * b) by (apply Rabs_pos_eq; lra).
  split; [|split; [|split]].
  - apply axis_mul; auto. apply (big_of M); auto; lra.
  - apply axis_mul; auto. apply (big_of M); auto; lra.
  - apply rnd_in; auto; lra.
  - apply rnd_in; auto; lra.
Qed.

(** E_a + k (E_b - E_a), the shape of numerator and denominator *)
Lemma blend (k : f64) (k0 : R) : finite k -> 0 <= k0 <= 1 -> Rabs (val k - k0) <= 6 * u ->
  exists t, axis (fc_add (fc_mul A A) (fc_mul (fc_real k) (fc_sub (fc_mul B B) (fc_mul A A)))) t /\
    Rabs (t - ((1 - k0) * (a * a) + k0 * (b * b))) <= 21 * u * M.
Proof.
  intros Fk R0 Hk. destruct square_axis as (A1 & A2 & E1 & E2). pose proof bounds as [Bd Bd']. pose proof M_pos as PM.
  pose proof u_pos as U. pose proof u_tiny as Ut.
  assert (S4 : sized 400 M) by (apply (sized_mono 200); [lia|apply sized_M]).
  assert (P : 0 <= M) by lra. assert (uM : 0 <= u * M) by (apply Rmult_le_pos; lra).
  assert (uMs : u * M <= / 1000000 * M) by (apply Rmult_le_compat_r; lra).
  pose proof (Rabs_le_inv _ _ E1) as E1'. pose proof (Rabs_le_inv _ _ E2) as E2'. pose proof (proj1 a2) as Pa. pose proof (proj2 a2) as Pb.
  assert (H1 : Rabs (Eb - Ea) <= 3 / 2 * M) by (apply Rabs_le; lra).
  pose proof (axis_sub _ _ _ _ A2 A1 (big_of M (Eb - Ea) S4 P ltac:(lra))) as A3.
  pose proof (rnd_in M _ S4 P H1) as E3. set (D := rnd (Eb - Ea)) in *. pose proof (Rabs_le_inv _ _ E3) as E3'.
  assert (HD : Rabs (D - (b * b - a * a)) <= 6 * u * M) by (apply Rabs_le; lra).
  assert (HD' : Rabs D <= 3 / 2 * M) by (apply Rabs_le; lra).
  pose proof (Rabs_le_inv _ _ Hk) as Hk'. pose proof (Rabs_le_inv _ _ HD) as HD0. 
  assert (HkD : Rabs (val k * D - k0 * (b * b - a * a)) <= 15 * u * M).
  { replace (val k * D - k0 * (b * b - a * a)) with ((val k - k0) * D + k0 * (D - (b * b - a * a))) by ring.
    eapply Rle_trans; [apply Rabs_triang|]. rewrite !Rabs_mult, (Rabs_pos_eq k0) by lra.
    assert (Rabs (val k - k0) * Rabs D <= 6 * u * (3 / 2 * M)) by (apply Rmult_le_compat; auto using Rabs_pos).
    assert (k0 * Rabs (D - (b * b - a * a)) <= 1 * (6 * u * M)) by (apply Rmult_le_compat; auto using Rabs_pos; lra). lra. }
  pose proof (Rabs_le_inv _ _ HkD) as HkD'.
  assert (Hk0 : Rabs (k0 * (b * b - a * a)) <= M).
  { rewrite Rabs_mult, (Rabs_pos_eq k0) by lra. replace M with (1 * M) by ring. apply Rmult_le_compat; auto using Rabs_pos; try lra. apply Rabs_le. lra. }
  pose proof (Rabs_le_inv _ _ Hk0) as Hk0'.
  assert (H2 : Rabs (val k * D) <= 3 / 2 * M) by (apply Rabs_le; lra).
  pose proof (axis_mul _ _ _ _ (axis_real k Fk) A3 (big_of M (val k * D) S4 P ltac:(lra))) as A4.
  pose proof (rnd_in M _ S4 P H2) as E4. set (T := rnd (val k * D)) in *. pose proof (Rabs_le_inv _ _ E4) as E4'.
  assert (X : (1 - k0) * (a * a) + k0 * (b * b) = a * a + k0 * (b * b - a * a)) by ring. rewrite X.
  assert (Cv : 0 <= a * a + k0 * (b * b - a * a) <= M).
  { rewrite <- X. assert (0 <= (1 - k0) * (a * a)) by (apply Rmult_le_pos; lra). assert (0 <= k0 * (b * b)) by (apply Rmult_le_pos; lra).
    assert ((1 - k0) * (a * a) <= (1 - k0) * M) by (apply Rmult_le_compat_l; lra). assert (k0 * (b * b) <= k0 * M) by (apply Rmult_le_compat_l; lra). lra. }
  assert (H3 : Rabs (Ea + T) <= 3 / 2 * M) by (apply Rabs_le; lra).
  exists (rnd (Ea + T)). split; [apply axis_add; auto; apply (big_of M); auto; lra|].
  pose proof (rnd_in M _ S4 P H3) as E5. pose proof (Rabs_le_inv _ _ E5) as E5'. apply Rabs_le. lra.
Qed.
End Blend.
