(** * Cauchy at integer wavelengths: proofs *)

Require Import Reals ZArith List Lia Lra Psatz.
From Coquelicot Require Import Complex.
From Verif Require Import Base Cplx M_disp M_intwave Spec_intwave.
Import ListNotations.
Open Scope Z_scope.

Section Type_.
  Context (t : int_type) (P : 0 <= it_bits t).
  Lemma modulus : 0 < 2 ^ it_bits t.
  Proof. apply Z.pow_pos_nonneg; lia. Qed.
  Lemma wrap_left z : left_of t z (wrap t z).
  Proof.
    pose proof modulus as M. unfold left_of, fits, wrap. split.
    - pose proof (Z.mod_pos_bound (z - it_least t) (2 ^ it_bits t) M). lia.
    - exists ((z - it_least t) / 2 ^ it_bits t). pose proof (Z.div_mod (z - it_least t) (2 ^ it_bits t)). lia.
  Qed.
  Lemma left_unique z r r' : left_of t z r -> left_of t z r' -> r = r'.
  Proof.
    pose proof modulus as M. intros (F & q & E) (F' & q' & E'). unfold fits in *.
    assert (D : r - r' = (q' - q) * 2 ^ it_bits t) by lia.
    assert (q' - q = 0) by nia. nia.
  Qed.
  Lemma left_refl z : fits t z -> left_of t z z.
  Proof. intros F. split; [exact F|]. exists 0. lia. Qed.
  Definition congr (a x : Z) : Prop := exists q, a = x + q * 2 ^ it_bits t.
  Lemma congr_refl a : congr a a. Proof. exists 0. lia. Qed.
  Lemma congr_mul a b x y : congr a x -> congr b y -> congr (a * b) (mul t x y).
  Proof.
    intros (q & ->) (q' & ->). destruct (wrap_left (x * y)) as (_ & s & E). fold (mul t x y) in E.
    exists (s + x * q' + q * y + q * q' * 2 ^ it_bits t). lia.
  Qed.
  Lemma loop_left : forall k out x a b, congr a out -> congr b x -> left_of t (a * b ^ Zpos k) (power_loop t out x k).
  Proof.
    induction k as [k IH|k IH|]; intros out x a b HA HB; cbn [power_loop].
    - replace (a * b ^ Zpos k~1) with ((a * b) * (b * b) ^ Zpos k).
      + apply IH; apply congr_mul; assumption.
      + rewrite (Pos2Z.inj_xI k), Z.pow_add_r, Z.pow_mul_r, Z.pow_1_r by lia. replace (b ^ 2) with (b * b) by ring. ring.
    - replace (a * b ^ Zpos k~0) with (a * (b * b) ^ Zpos k).
      + apply IH; [exact HA|apply congr_mul; assumption].
      + rewrite (Pos2Z.inj_xO k), Z.pow_mul_r by lia. replace (b ^ 2) with (b * b) by ring. ring.
    - rewrite Z.pow_1_r. destruct (congr_mul _ _ _ _ HA HB) as (s & E). split; [apply wrap_left|]. exists s. exact E.
  Qed.
  Lemma power_left x k : left_of t (x ^ Zpos k) (int_power t x k).
  Proof.
    unfold int_power. destruct (Pos.eqb_spec k 2) as [->|N].
    - change (x ^ 2) with (x * (x * 1)). rewrite Z.mul_1_r. apply wrap_left.
    - rewrite <- (Z.mul_1_l (x ^ Zpos k)). apply loop_left; apply congr_refl.
  Qed.
  Lemma power_exact x k : int_power t x k = x ^ Zpos k <-> fits t (x ^ Zpos k).
  Proof.
    split.
    - intros <-. apply power_left.
    - intros F. exact (left_unique _ _ _ (power_left x k) (left_refl _ F)).
  Qed.

  Lemma IZR_pow2 w : IZR (w ^ 2) = (IZR w ^ 2)%R.
  Proof. replace (w ^ 2) with (w * w) by ring. rewrite mult_IZR. ring. Qed.
  Lemma IZR_pow4 w : IZR (w ^ 4) = (IZR w ^ 4)%R.
  Proof. replace (w ^ 4) with (w * w * (w * w)) by ring. rewrite !mult_IZR. ring. Qed.
  Lemma cauchy_cases A B Cc w : cauchy_int t A B Cc w =
    if Z.eq_dec (int_power t w 2) 0 then None else if Z.eq_dec (int_power t w 4) 0 then None
    else Some (RtoC (A + B * 1000 ^ 2 / IZR (int_power t w 2) + Cc * 1000 ^ 4 / IZR (int_power t w 4))%R).
  Proof.
    unfold cauchy_int, odiv. destruct (Z.eq_dec (int_power t w 2) 0) as [->|N2].
    - destruct (Req_EM_T 0 0); [reflexivity|lra].
    - destruct (Req_EM_T (IZR (int_power t w 2)) 0) as [E|_]; [apply eq_IZR in E; contradiction|]. cbn [obind].
      destruct (Z.eq_dec (int_power t w 4) 0) as [->|N4].
      + destruct (Req_EM_T 0 0); [reflexivity|lra].
      + destruct (Req_EM_T (IZR (int_power t w 4)) 0) as [E|_]; [apply eq_IZR in E; contradiction|]. reflexivity.
  Qed.
  Lemma cauchy_exact A B Cc w : w <> 0 -> fits t (w ^ 2) -> fits t (w ^ 4) -> cauchy_int t A B Cc w = Some (cauchy_formula A B Cc (IZR w)).
  Proof.
    intros N F2 F4. rewrite cauchy_cases. apply (power_exact w 2) in F2. apply (power_exact w 4) in F4. rewrite F2, F4.
    destruct (Z.eq_dec (w ^ 2) 0) as [E|_]; [exfalso; nia|]. destruct (Z.eq_dec (w ^ 4) 0) as [E|_].
    - exfalso. replace (w ^ 4) with (w * w * (w * w)) in E by ring. assert (w * w <> 0) by nia. nia.
    - unfold cauchy_formula. rewrite IZR_pow2, IZR_pow4. reflexivity.
  Qed.
  Lemma cauchy_iff A B Cc w : w <> 0 -> fits t (w ^ 2) ->
    (cauchy_int t A B Cc w = Some (cauchy_formula A B Cc (IZR w)) <-> fits t (w ^ 4) \/ (Cc = 0%R /\ ~ left_of t (w ^ 4) 0)).
  Proof.
    intros N F2. pose proof (proj2 (power_exact w 2) F2) as E2.
    assert (W2 : w ^ 2 <> 0) by nia. assert (W4 : w ^ 4 <> 0) by (replace (w ^ 4) with (w ^ 2 * w ^ 2) by ring; nia).
    assert (V4 : IZR (w ^ 4) <> 0%R) by (intros Z; apply eq_IZR in Z; contradiction).
    split.
    - rewrite cauchy_cases, E2. destruct (Z.eq_dec (w ^ 2) 0); [discriminate|]. destruct (Z.eq_dec (int_power t w 4) 0) as [|N4]; [discriminate|].
      intros E. assert (V : IZR (int_power t w 4) <> 0%R) by (intros Z; apply eq_IZR in Z; contradiction).
      apply (f_equal (fun o => match o with Some z => Re z | None => 0%R end)) in E. unfold cauchy_formula in E. cbn [Re RtoC fst] in E.
      rewrite <- (IZR_pow2 w), <- (IZR_pow4 w) in E.
      destruct (Req_EM_T Cc 0) as [->|NC].
      + right. split; [reflexivity|]. intros L. apply N4. exact (left_unique _ _ _ (power_left w 4) L).
      + left. apply (power_exact w 4). apply eq_IZR. change (w ^ Zpos 4) with (w ^ 4).
        assert (Q : (Cc * 1000 ^ 4 / IZR (int_power t w 4) = Cc * 1000 ^ 4 / IZR (w ^ 4))%R) by lra.
        set (u := IZR (int_power t w 4)) in *. set (v := IZR (w ^ 4)) in *. set (K := (Cc * 1000 ^ 4)%R) in *.
        assert (K0 : K <> 0%R) by (unfold K; apply Rmult_integral_contrapositive; split; [exact NC|lra]).
        assert (H : (K * v = K * u)%R) by (replace (K * v)%R with (K / u * (u * v))%R by (field; exact V); rewrite Q; field; exact V4).
        apply Rmult_eq_reg_l in H; [|exact K0]. lra.
    - intros [F4|[-> L]]; [apply cauchy_exact; assumption|]. rewrite cauchy_cases, E2.
      destruct (Z.eq_dec (w ^ 2) 0); [contradiction|]. destruct (Z.eq_dec (int_power t w 4) 0) as [E|N4].
      + exfalso. apply L. rewrite <- E. apply power_left.
      + unfold cauchy_formula. rewrite <- (IZR_pow2 w). do 2 f_equal. unfold Rdiv. rewrite !Rmult_0_l. reflexivity.
  Qed.
End Type_.

Lemma fourth_mono a b : 0 <= a <= b -> a ^ 4 <= b ^ 4.
Proof. intros H. apply Z.pow_le_mono_l. exact H. Qed.
Lemma fourth_abs w : w ^ 4 = Z.abs w ^ 4.
Proof. destruct (Z.abs_eq_or_opp w) as [-> | ->]; ring. Qed.
Lemma square_abs w : w ^ 2 = Z.abs w ^ 2.
Proof. destruct (Z.abs_eq_or_opp w) as [-> | ->]; ring. Qed.
Lemma signed_fits b z : 1 <= b -> 0 <= z -> fits (signed b) z <-> z < 2 ^ (b - 1).
Proof.
  intros B Z0. unfold fits, signed. cbn [it_least it_bits].
  assert (2 ^ b = 2 * 2 ^ (b - 1)) by (rewrite <- Z.pow_succ_r by lia; f_equal; lia).
  assert (0 < 2 ^ (b - 1)) by (apply Z.pow_pos_nonneg; lia). lia.
Qed.
Lemma int64_exact A B Cc w : w <> 0 -> Z.abs w <= 55108 -> cauchy_int (signed 64) A B Cc w = Some (cauchy_formula A B Cc (IZR w)).
Proof.
  intros N H. assert (F4 : w ^ 4 < 2 ^ 63).
  { rewrite fourth_abs. eapply Z.le_lt_trans; [apply fourth_mono; split; [apply Z.abs_nonneg|exact H]|reflexivity]. }
  assert (P4 : 0 <= w ^ 4) by (rewrite fourth_abs; apply Z.pow_nonneg, Z.abs_nonneg).
  assert (P2 : 0 <= w ^ 2) by nia. assert (Q : w ^ 4 = w ^ 2 * w ^ 2) by ring.
  apply cauchy_exact; [cbn; lia|exact N| |]; apply signed_fits; try lia; change (64 - 1) with 63; nia.
Qed.
Lemma int32_exact A B Cc w : w <> 0 -> Z.abs w <= 215 -> cauchy_int (signed 32) A B Cc w = Some (cauchy_formula A B Cc (IZR w)).
Proof.
  intros N H. assert (F4 : w ^ 4 < 2 ^ 31).
  { rewrite fourth_abs. eapply Z.le_lt_trans; [apply fourth_mono; split; [apply Z.abs_nonneg|exact H]|reflexivity]. }
  assert (P4 : 0 <= w ^ 4) by (rewrite fourth_abs; apply Z.pow_nonneg, Z.abs_nonneg).
  assert (P2 : 0 <= w ^ 2) by nia. assert (Q : w ^ 4 = w ^ 2 * w ^ 2) by ring.
  apply cauchy_exact; [cbn; lia|exact N| |]; apply signed_fits; try lia; change (32 - 1) with 31; nia.
Qed.
Lemma int32_wrong A B Cc w : 216 <= w <= 46340 -> Cc <> 0%R -> cauchy_int (signed 32) A B Cc w <> Some (cauchy_formula A B Cc (IZR w)).
Proof.
  intros H NC E. assert (P2 : 0 <= w ^ 2) by nia.
  assert (F2 : fits (signed 32) (w ^ 2)).
  { apply signed_fits; [lia|exact P2|]. change (2 ^ (32 - 1)) with 2147483648. nia. }
  apply cauchy_iff in E; [|cbn; lia|lia|exact F2]. destruct E as [F4|[Z _]]; [|contradiction].
  assert (L : 216 ^ 4 <= w ^ 4) by (apply fourth_mono; lia). apply signed_fits in F4; [|lia|lia].
  change (216 ^ 4) with 2176782336 in L. change (2 ^ (32 - 1)) with 2147483648 in F4. lia.
Qed.
Lemma int32_nan A B Cc m : cauchy_int (signed 32) A B Cc (256 * m) = None.
Proof.
  rewrite cauchy_cases. destruct (Z.eq_dec (int_power (signed 32) (256 * m) 2) 0); [reflexivity|].
  destruct (Z.eq_dec (int_power (signed 32) (256 * m) 4) 0) as [|N]; [reflexivity|]. exfalso. apply N.
  assert (P : 0 <= it_bits (signed 32)) by (cbn; lia).
  apply (left_unique (signed 32) P ((256 * m) ^ 4)); [apply (power_left (signed 32) P (256 * m) 4)|].
  split; [unfold fits; cbn; lia|]. exists (m ^ 4). cbn [it_bits signed]. change (2 ^ 32) with (256 ^ 4). ring.
Qed.
(** ** without a sign *)
Lemma uint_exact b m A B Cc w : 0 < b -> m ^ 4 < 2 ^ b -> 0 < w <= m -> cauchy_int (unsigned b) A B Cc w = Some (cauchy_formula A B Cc (IZR w)).
Proof.
  intros Hb M H. assert (L : w ^ 4 <= m ^ 4) by (apply fourth_mono; lia).
  assert (P2 : 0 < w ^ 2) by nia. assert (Q : w ^ 4 = w ^ 2 * w ^ 2) by ring.
  apply cauchy_exact; [cbn; lia|lia| |]; unfold fits; cbn [it_least it_bits unsigned]; nia.
Qed.
Lemma uint32_exact A B Cc w : 0 < w <= 255 -> cauchy_int (unsigned 32) A B Cc w = Some (cauchy_formula A B Cc (IZR w)).
Proof. apply uint_exact; reflexivity. Qed.
Lemma uint64_exact A B Cc w : 0 < w <= 65535 -> cauchy_int (unsigned 64) A B Cc w = Some (cauchy_formula A B Cc (IZR w)).
Proof. apply uint_exact; reflexivity. Qed.
Lemma uint32_wrong A B Cc w : 256 <= w <= 65535 -> Cc <> 0%R -> cauchy_int (unsigned 32) A B Cc w <> Some (cauchy_formula A B Cc (IZR w)).
Proof.
  intros H NC E. assert (F2 : fits (unsigned 32) (w ^ 2)).
  { unfold fits. cbn [it_least it_bits unsigned]. change (0 + 2 ^ 32) with 4294967296. nia. }
  apply cauchy_iff in E; [|cbn; lia|lia|exact F2]. destruct E as [F4|[Z _]]; [|contradiction].
  assert (L : 256 ^ 4 <= w ^ 4) by (apply fourth_mono; lia). unfold fits in F4. cbn [it_least it_bits unsigned] in F4.
  change (256 ^ 4) with (0 + 2 ^ 32) in L. lia.
Qed.
