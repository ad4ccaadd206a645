(** * Maxwell-Garnett in double precision, transparent media: the bound *)

Require Import Reals ZArith Bool Lra Lia Psatz.
From Flocq Require Import Core.
From Flocq.IEEE754 Require Import BinarySingleNaN.
From Verif Require Import M_float Spec_float P_float P_float2 M_float2 Spec_float2 P_float3 P_float4 M_float3 P_float6 P_float7 P_float8 P_float10.
Open Scope R_scope.

Lemma one_sized : sized 400 1.
Proof. right. rewrite Rabs_R1. split; change 1 with (bpow radix2 0); apply bpow_le; lia. Qed.

(** the two factors *)
Lemma factors (v dp : f64) : finite v -> finite dp -> moderate (val v) -> moderate (val dp) -> 0 <= val v <= 1 -> 0 <= val dp <= 1 ->
  let p := fmul dp (fsub (fZ 1) v) in
  finite p /\ Rabs (val p - val dp * (1 - val v)) <= 6 * u /\
  finite (fadd p v) /\ Rabs (val (fadd p v) - (val dp * (1 - val v) + val v)) <= 6 * u.
Proof.
  intros Fv Fd Mv Md Rv Rd. cbv zeta. pose proof u_pos as U. pose proof u_tiny as Ut.
  destruct (rest_val v Fv Rv) as [Fw Vw]. pose proof (rest_sized (val v) (val_fmt v) Rv) as Sr.
  assert (Hw : Rabs (val (fsub (fZ 1) v) - (1 - val v)) <= 2 * u * (1 - val v)).
  { rewrite Vw. apply rnd_in; [apply (sized_mono 53); [lia|exact Sr]|lra|]. rewrite Rabs_pos_eq; lra. }
  set (w := fsub (fZ 1) v) in *. clearbody w.
  assert (Hw' : Rabs (val w - (1 - val v)) <= 2 * u). { apply Rle_trans with (1 := Hw). assert (u * (1 - val v) <= u * 1) by (apply Rmult_le_compat_l; lra). lra. }
  assert (H1 : Rabs (val dp * val w - val dp * (1 - val v)) <= 2 * u).
  { rewrite <- Rmult_minus_distr_l, Rabs_mult, (Rabs_pos_eq (val dp)) by lra.
    assert (val dp * Rabs (val w - (1 - val v)) <= 1 * (2 * u)) by (apply Rmult_le_compat; auto using Rabs_pos; lra). lra. }
  assert (Pd : 0 <= val dp * (1 - val v) <= 1 - val v).
  { split; [apply Rmult_le_pos; lra|]. rewrite <- (Rmult_1_l (1 - val v)) at 2. apply Rmult_le_compat_r; lra. }
  pose proof (Rabs_le_inv _ _ H1) as H1'.
  assert (H2 : Rabs (val dp * val w) <= 3 / 2 * 1) by (apply Rabs_le; lra).
  destruct (fmul_val dp w Fd Fw) as [Vp Fp]; [apply thousand, (big_of 1); auto using one_sized; lra|].
  pose proof (rnd_in 1 _ one_sized ltac:(lra) H2) as E. rewrite <- Vp in E. pose proof (Rabs_le_inv _ _ E) as E'.
  split; [exact Fp|]. split; [apply Rabs_le; lra|].
  assert (H3 : Rabs (val (fmul dp w) + val v) <= 3 / 2 * 1) by (apply Rabs_le; lra).
  destruct (fadd_val _ _ Fp Fv) as [Vc Fc]; [apply thousand, (big_of 1); auto using one_sized; lra|].
  pose proof (rnd_in 1 _ one_sized ltac:(lra) H3) as E2. rewrite <- Vc in E2. pose proof (Rabs_le_inv _ _ E2) as E2'.
  split; [exact Fc|]. apply Rabs_le. lra.
Qed.

(** relative errors *)
Lemma near_rel t t0 m M K e : 0 < m -> m <= t0 -> M <= K * m -> 0 <= K -> 0 <= e -> Rabs (t - t0) <= e * M ->
  exists d, Rabs d <= e * K /\ t = t0 * (1 + d).
Proof.
  intros Pm L HK Kp Pe H. exists ((t - t0) / t0). split; [|field; lra]. unfold Rdiv. rewrite Rabs_mult, Rabs_inv, (Rabs_pos_eq t0) by lra.
  apply Rmult_le_reg_r with t0; [lra|]. rewrite Rmult_assoc, Rinv_l, Rmult_1_r by lra. apply Rle_trans with (1 := H).
  assert (e * M <= e * (K * m)) by (apply Rmult_le_compat_l; auto). assert (e * K * m <= e * K * t0) by (apply Rmult_le_compat_l; [apply Rmult_le_pos; auto|auto]). lra.
Qed.
Lemma quot_rel d e q : 0 <= q -> 100 * q <= 1 -> Rabs d <= 21 * q -> Rabs e <= 21 * q -> Rabs ((1 + d) / (1 + e) - 1) <= 54 * q.
Proof.
  intros P Q D E. apply Rabs_le_inv in D, E. replace ((1 + d) / (1 + e) - 1) with ((d - e) / (1 + e)) by (field; lra).
  unfold Rdiv. rewrite Rabs_mult, Rabs_inv, (Rabs_pos_eq (1 + e)) by lra. apply Rmult_le_reg_r with (1 + e); [lra|].
  rewrite Rmult_assoc, Rinv_l, Rmult_1_r by lra. apply Rle_trans with (42 * q); [apply Rabs_le; lra|]. nra.
Qed.
Lemma prod_rel x f q : 0 <= q -> 100 * q <= 1 -> Rabs x <= 54 * q -> Rabs (f - 1) <= 9 * q -> Rabs ((1 + x) * f - 1) <= 68 * q.
Proof.
  intros P Q X F. replace ((1 + x) * f - 1) with (x + (1 + x) * (f - 1)) by ring. eapply Rle_trans; [apply Rabs_triang|].
  rewrite Rabs_mult. apply Rabs_le_inv in X as X'. rewrite (Rabs_pos_eq (1 + x)) by lra.
  assert ((1 + x) * Rabs (f - 1) <= 154 / 100 * (9 * q)) by (apply Rmult_le_compat; auto using Rabs_pos; lra). lra.
Qed.
Lemma root_rel y : -1 <= y -> Rabs (sqrt (1 + y) - 1) <= Rabs y.
Proof.
  intros Y. pose proof (sqrt_pos (1 + y)) as S. pose proof (sqrt_sqrt (1 + y) ltac:(lra)) as Q. set (s := sqrt (1 + y)) in *. clearbody s.
  replace y with ((s - 1) * (s + 1)) by lra. rewrite Rabs_mult, (Rabs_pos_eq (s + 1)) by lra. pose proof (Rabs_pos (s - 1)). nra.
Qed.

Lemma sized_between k x y z : sized k x -> sized k z -> 0 < x -> x <= y <= z -> sized k y.
Proof.
  intros [->|[A _]] [->|[_ B]] P L; try lra. right. rewrite Rabs_pos_eq in * by lra. lra.
Qed.

Theorem maxwell_float cs A B (v dp : f64) a b K : axis A a -> axis B b -> moderate a -> moderate b -> a <> 0 -> b <> 0 ->
  finite v -> finite dp -> moderate (val v) -> moderate (val dp) -> 0 <= val v <= 1 -> 0 <= val dp <= 1 ->
  a * a <= K * (b * b) -> b * b <= K * (a * a) -> 1 <= K -> 100 * (u * K) <= 1 ->
  let p0 := val dp * (1 - val v) in
  let exact := sqrt (a * a * ((a * a + (p0 + val v) * (b * b - a * a)) / (a * a + p0 * (b * b - a * a)))) in
  exists n, axis (fl_maxwell cs A B v dp) n /\ Rabs (n - exact) <= 75 * (u * K) * exact.
Proof.
  intros HA HB Ma Mb Na Nb Fv Fd Mv Md Rv Rd K1 K2 K3 K4. cbv zeta. pose proof u_pos as U. pose proof u_tiny as Ut.
  destruct (factors v dp Fv Fd Mv Md Rv Rd) as (Fp & Hp & Fc & Hc). set (p := fmul dp (fsub (fZ 1) v)) in *.
  set (p0 := val dp * (1 - val v)) in *.
  assert (P0 : 0 <= p0 <= 1 - val v).
  { unfold p0. split; [apply Rmult_le_pos; lra|]. rewrite <- (Rmult_1_l (1 - val v)) at 2. apply Rmult_le_compat_r; lra. }
  destruct (blend A B a b HA HB Ma Mb Na Nb p p0 Fp ltac:(lra) Hp) as (bt & Ab & Hb).
  destruct (blend A B a b HA HB Ma Mb Na Nb (fadd p v) (p0 + val v) Fc ltac:(lra) Hc) as (tp & At & Ht).
  destruct (square_axis A B a b HA HB Ma Mb Na Nb) as (A1 & _ & E1 & _).
  pose proof (bounds a b) as [Ba Bb]. pose proof (m_pos a b Na Nb) as Pm. pose proof (sized_M a b Ma Mb) as SM. pose proof (sized_m a b Ma Mb) as Sm.
  assert (HK : Rmax (a * a) (b * b) <= K * Rmin (a * a) (b * b)).
  { unfold Rmax, Rmin. pose proof (a2 a b Na Nb). destruct (Rle_dec (a * a) (b * b)); auto. }
  set (M := Rmax (a * a) (b * b)) in *. set (m := Rmin (a * a) (b * b)) in *.
  assert (uK : u <= u * K) by (rewrite <- (Rmult_1_r u) at 1; apply Rmult_le_compat_l; lra).
  set (q := u * K) in *.
  (* numerator and denominator *)
  assert (Cb : forall k0, 0 <= k0 <= 1 -> m <= (1 - k0) * (a * a) + k0 * (b * b) <= M).
  { intros k0 Hk. assert ((1 - k0) * m <= (1 - k0) * (a * a) <= (1 - k0) * M) by (split; apply Rmult_le_compat_l; lra).
    assert (k0 * m <= k0 * (b * b) <= k0 * M) by (split; apply Rmult_le_compat_l; lra). lra. }
  pose proof (Cb p0 ltac:(lra)) as Cb0. pose proof (Cb (p0 + val v) ltac:(lra)) as Ct0. clear Cb.
  replace (a * a + p0 * (b * b - a * a)) with ((1 - p0) * (a * a) + p0 * (b * b)) by ring.
  replace (a * a + (p0 + val v) * (b * b - a * a)) with ((1 - (p0 + val v)) * (a * a) + (p0 + val v) * (b * b)) by ring.
  set (b0 := (1 - p0) * (a * a) + p0 * (b * b)) in *. set (t0 := (1 - (p0 + val v)) * (a * a) + (p0 + val v) * (b * b)) in *.
  clearbody b0 t0.
  destruct (near_rel bt b0 m M K (21 * u) Pm (proj1 Cb0) HK ltac:(lra) ltac:(lra) Hb) as (eb & Heb & Eb).
  destruct (near_rel tp t0 m M K (21 * u) Pm (proj1 Ct0) HK ltac:(lra) ltac:(lra) Ht) as (et & Het & Et).
  rewrite Rmult_assoc in Heb, Het. fold q in Heb, Het.
  assert (q0 : 0 <= q) by lra.
  assert (Sb0 : sized 200 b0) by (apply (sized_between 200 m b0 M); auto).
  assert (St0 : sized 200 t0) by (apply (sized_between 200 m t0 M); auto).
  assert (near1 : forall e, Rabs e <= 21 * q -> / 2 <= 1 + e <= 2) by (intros e He; apply Rabs_le_inv in He; lra).
  assert (Sc : forall e, Rabs e <= 21 * q -> sized 1 (1 + e)).
  { intros e He. specialize (near1 e He). right. rewrite Rabs_pos_eq by lra. change (bpow radix2 (-(1))) with (/ 2). change (bpow radix2 1) with 2. lra. }
  assert (Sb : sized 201 bt) by (rewrite Eb; apply (sized_mult 200 1); auto).
  assert (St : sized 201 tp) by (rewrite Et; apply (sized_mult 200 1); auto).
  assert (Nb0 : bt <> 0) by (rewrite Eb; specialize (near1 eb Heb); apply Rmult_integral_contrapositive_currified; lra).
  assert (Si : sized 201 (1 / bt)) by (unfold Rdiv; rewrite Rmult_1_l; now apply sized_inv).
  assert (Ri : rel 1 (rnd (1 / bt)) (1 / bt)) by (apply rnd_fac, (sized_mono 201); [lia|exact Si]).
  assert (Sri : sized 202 (rnd (1 / bt))) by exact (sized_rel 1 201 _ _ ltac:(lia) Ri Si).
  assert (Sp : sized 403 (tp * rnd (1 / bt))) by exact (sized_mult 201 202 _ _ St Sri).
  assert (Rq : rel 1 (rnd (tp * rnd (1 / bt))) (tp * rnd (1 / bt))) by (apply rnd_fac, (sized_mono 403); [lia|exact Sp]).
  pose proof (axis_div _ _ _ _ At Ab Nb0 (abs_of 201 _ ltac:(lia) St) (abs_of 201 _ ltac:(lia) Sb) (abs_of 201 _ ltac:(lia) Si)
    (abs_of 403 _ ltac:(lia) Sp)) as Aq.
  set (vq := rnd (tp * rnd (1 / bt))) in *.
  assert (Svq : sized 404 vq) by exact (sized_rel 1 403 _ _ ltac:(lia) Rq Sp).
  destruct (square_rel a Ma) as [Re Se]. set (Ea := rnd (a * a)) in *.
  assert (SE : sized 605 (Ea * vq)) by exact (sized_mult 201 404 _ _ Se Svq).
  assert (RE : rel 1 (rnd (Ea * vq)) (Ea * vq)) by (apply rnd_fac, (sized_mono 605); [lia|exact SE]).
  pose proof (axis_mul _ _ _ _ A1 Aq (abs_of 605 _ ltac:(lia) SE)) as AE.
  assert (Fq : fc_finite (fc_div (fc_add (fc_mul A A) (fc_mul (fc_real (fadd p v)) (fc_sub (fc_mul B B) (fc_mul A A))))
                 (fc_add (fc_mul A A) (fc_mul (fc_real p) (fc_sub (fc_mul B B) (fc_mul A A))))) = true).
  { destruct Aq as (Q1 & Q2 & _). unfold fc_finite. unfold finite in Q1, Q2. rewrite Q1, Q2. reflexivity. }
  (* the value *)
  assert (R4 : rel 4 (rnd (Ea * vq)) (a * a * (tp / bt))).
  { apply (rel_trans 1 3 _ (Ea * vq)); [exact RE|]. apply (rel_mult 1 2); [exact Re|].
    apply (rel_trans 1 1 _ (tp * rnd (1 / bt))); [exact Rq|]. unfold Rdiv at 2. rewrite <- (Rmult_1_l (/ bt)).
    apply (rel_mult 0 1); [apply rel_refl|exact Ri]. }
  destruct R4 as (f & Hf & VE). pose proof (fac_err 4 f ltac:(lia) Hf) as Hf'. replace (2 * INR 4 + 1) with 9 in Hf' by (cbn; lra).
  set (E0 := a * a * (t0 / b0)).
  assert (Pa : 0 < a * a) by apply (a2 a b Na Nb). assert (PE : 0 < E0).
  { unfold E0. apply Rmult_lt_0_compat; [exact Pa|]. apply Rdiv_lt_0_compat; lra. }
  set (x := (1 + et) / (1 + eb) - 1).
  pose proof (quot_rel et eb q q0 K4 Het Heb) as Hx. fold x in Hx.
  assert (VE' : rnd (Ea * vq) = E0 * ((1 + x) * f)).
  { rewrite VE, Et, Eb. unfold E0, x. specialize (near1 eb Heb). field. split; lra. }
  set (y := (1 + x) * f - 1).
  assert (Hy : Rabs y <= 68 * q) by (apply prod_rel; auto; lra).
  assert (VE2 : rnd (Ea * vq) = E0 * (1 + y)) by (rewrite VE'; unfold y; f_equal; ring).
  pose proof (Rabs_le_inv _ _ Hy) as Hy'.
  assert (Pv : 0 < rnd (Ea * vq)) by (rewrite VE2; apply Rmult_lt_0_compat; lra).
  exists (rnd (sqrt (rnd (Ea * vq)))). split.
  { unfold fl_maxwell, fl_maxwell_epsilon. cbv zeta. fold p. rewrite Fq. apply axis_sqrt; [exact AE|lra]. }
  assert (Rs : rel 1 (rnd (sqrt (rnd (Ea * vq)))) (sqrt (rnd (Ea * vq)))).
  { destruct AE as (Q1 & _ & V & _). rewrite <- V in Pv |- *. destruct (fsqrt_rel _ Q1 Pv) as [_ Q]. destruct (fsqrt_val _ Q1 (Rlt_le _ _ Pv)) as [_ W]. now rewrite W in Q. }
  destruct Rs as (g & Hg & Vg). rewrite Vg, VE2. pose proof (fac_err 1 g ltac:(lia) Hg) as Hg'. replace (2 * INR 1 + 1) with 3 in Hg' by (cbn; lra).
  rewrite sqrt_mult by lra. fold E0. pose proof (sqrt_lt_R0 E0 PE) as S0. pose proof (root_rel y ltac:(lra)) as Hr.
  set (s := sqrt (1 + y)) in *. set (r := sqrt E0) in *.
  replace (r * s * g - r) with (r * ((s - 1) + s * (g - 1))) by ring. rewrite Rabs_mult, (Rabs_pos_eq r), Rmult_comm by lra.
  apply Rmult_le_compat_r; [lra|]. eapply Rle_trans; [apply Rabs_triang|]. rewrite Rabs_mult.
  assert (Hs : Rabs s <= 168 / 100). { pose proof (Rle_trans _ _ _ Hr Hy) as Q. apply Rabs_le_inv in Q. apply Rabs_le. lra. }
  assert (Rabs s * Rabs (g - 1) <= 168 / 100 * (3 * u)) by (apply Rmult_le_compat; auto using Rabs_pos). lra.
Qed.
