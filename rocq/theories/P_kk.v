(** * The Kramers-Kronig integral of (xi - g)^2 / ((xi^2 - w^2)^2 + c^2 xi^2) *)

Require Import Reals Lra Lia Psatz.
From Coquelicot Require Import Coquelicot.
From Verif Require Import Spec_kk.
Open Scope R_scope.

Definition den (w c x : R) : R := (x ^ 2 - w ^ 2) ^ 2 + (c * x) ^ 2.
Definition qplus (w al x : R) : R := x ^ 2 + al * x + w ^ 2.
Definition qminus (w al x : R) : R := x ^ 2 - al * x + w ^ 2.
Definition ga2 (w c : R) : R := w ^ 2 - c ^ 2 / 2.

Definition bL (w al x : R) : R := ln (qplus w al x) - ln (qminus w al x).
Definition bT (al c x : R) : R := atan ((2 * x + al) / c) + atan ((2 * x - al) / c).
Definition bU (w al c x : R) : R := atan (2 * (x ^ 2 - ga2 w c) / (al * c)).

Definition in_range (w c al : R) : Prop := 0 < w /\ 0 < c /\ 0 < al /\ al ^ 2 = 4 * w ^ 2 - c ^ 2.

Lemma q_pos w c al x : in_range w c al -> 0 < qplus w al x /\ 0 < qminus w al x.
Proof.
  intros (Hw & Hc & Ha & E). unfold qplus, qminus. split.
  - assert (0 <= (2 * x + al) ^ 2) by apply pow2_ge_0. nra.
  - assert (0 <= (2 * x - al) ^ 2) by apply pow2_ge_0. nra.
Qed.
Lemma den_q w c al x : in_range w c al -> den w c x = qplus w al x * qminus w al x.
Proof.
  intros (Hw & Hc & Ha & E). unfold den, qplus, qminus.
  replace ((c * x) ^ 2) with ((4 * w ^ 2 - al ^ 2) * x ^ 2) by (rewrite E; ring). ring.
Qed.
Lemma den_pos w c al x : in_range w c al -> 0 < den w c x.
Proof. intros H. rewrite (den_q w c al) by auto. destruct (q_pos w c al x H). apply Rmult_lt_0_compat; auto. Qed.

Lemma bL_derive w c al x : in_range w c al ->
  is_derive (bL w al) x (2 * al * (w ^ 2 - x ^ 2) / den w c x).
Proof.
  intros H. destruct (q_pos w c al x H) as [H1 H2]. unfold bL, qplus, qminus in *. auto_derive; [repeat split; lra|].
  rewrite (den_q w c al) by auto. unfold qplus, qminus. field. lra.
Qed.
Lemma bT_derive w c al x : in_range w c al ->
  is_derive (bT al c) x (c * (x ^ 2 + w ^ 2) / den w c x).
Proof.
  intros H. destruct (q_pos w c al x H) as [H1 H2]. pose proof H as (Hw & Hc & Ha & E).
  unfold bT. auto_derive; [lra|].
  rewrite (den_q w c al) by auto.
  assert (E1 : 1 + ((2 * x + al) / c) ^ 2 = 4 * qplus w al x / c ^ 2).
  { unfold qplus. replace (4 * (x ^ 2 + al * x + w ^ 2)) with (4 * x ^ 2 + 4 * al * x + (al ^ 2 + c ^ 2)) by (rewrite E; ring).
    field. lra. }
  assert (E2 : 1 + ((2 * x - al) / c) ^ 2 = 4 * qminus w al x / c ^ 2).
  { unfold qminus. replace (4 * (x ^ 2 - al * x + w ^ 2)) with (4 * x ^ 2 - 4 * al * x + (al ^ 2 + c ^ 2)) by (rewrite E; ring).
    field. lra. }
  transitivity (2 / c * / (1 + ((2 * x + al) / c) ^ 2) + 2 / c * / (1 + ((2 * x - al) / c) ^ 2)).
  { match goal with |- ?a1 * / ?b1 + ?a2 * / ?b2 = _ =>
      replace b1 with (1 + ((2 * x + al) / c) ^ 2) by (unfold Rdiv, Rminus; ring);
      replace b2 with (1 + ((2 * x - al) / c) ^ 2) by (unfold Rdiv, Rminus; ring);
      replace a1 with (2 / c) by (unfold Rdiv; ring); replace a2 with (2 / c) by (unfold Rdiv; ring) end.
    reflexivity. }
  rewrite E1, E2. assert (Hq : 2 * x ^ 2 + 2 * w ^ 2 = qplus w al x + qminus w al x) by (unfold qplus, qminus; ring).
  transitivity (c / 2 * ((qplus w al x + qminus w al x) / (qplus w al x * qminus w al x))); [field; lra|].
  rewrite <- Hq. field. lra.
Qed.
Lemma bU_derive w c al x : in_range w c al ->
  is_derive (bU w al c) x (al * c * x / den w c x).
Proof.
  intros H. pose proof (den_pos w c al x H) as HD. pose proof H as (Hw & Hc & Ha & E).
  unfold bU, ga2. auto_derive; [auto|].
  assert (E1 : 1 + (2 * (x ^ 2 - (w ^ 2 - c ^ 2 / 2)) / (al * c)) ^ 2 = 4 * den w c x / (al ^ 2 * c ^ 2)).
  { unfold den. field_simplify_eq; [|lra]. rewrite E. ring. }
  transitivity (4 * x / (al * c) / (1 + (2 * (x ^ 2 - (w ^ 2 - c ^ 2 / 2)) / (al * c)) ^ 2)).
  { assert (0 < 1 + (2 * (x ^ 2 - (w ^ 2 - c ^ 2 / 2)) / (al * c)) ^ 2)
      by (assert (0 <= (2 * (x ^ 2 - (w ^ 2 - c ^ 2 / 2)) / (al * c)) ^ 2) by apply pow2_ge_0; lra).
    rewrite E1 in *. 
    match goal with |- ?a * / (1 + ?b) = _ => replace (1 + b) with (4 * den w c x / (al ^ 2 * c ^ 2)) by (rewrite <- E1; unfold Rdiv, Rminus; ring) end.
    field. lra. }
  rewrite E1. field. lra.
Qed.
Lemma lnden_derive w c al x : in_range w c al ->
  is_derive (fun x => ln (den w c x)) x ((4 * x ^ 3 - 4 * ga2 w c * x) / den w c x).
Proof.
  intros H. pose proof (den_pos w c al x H) as HD. unfold den, ga2 in *. auto_derive; [lra|].
  field. lra.
Qed.

(** ** The antiderivative *)
Definition cD (g w c e : R) : R := g / (2 * den w c e).
Definition m0 (g w c e : R) : R := (1 - (e ^ 2 + g ^ 2) * (e ^ 2 - 2 * ga2 w c) / den w c e) / w ^ 2.
Definition m2 (g w c e : R) : R := - (e ^ 2 + g ^ 2) / den w c e.
Definition cT (g w c e : R) : R := (m0 g w c e + m2 g w c e) / (2 * c).
Definition cL (g w c al e : R) : R := (m0 g w c e - m2 g w c e) / (4 * al).
Definition cU (g w c al e : R) : R := 2 * g * (e ^ 2 - ga2 w c) / (den w c e * (al * c)).
Definition ca (g w c e : R) : R := (e - g) ^ 2 / (2 * e * den w c e).
Definition cb (g w c e : R) : R := - (e + g) ^ 2 / (2 * e * den w c e).

(** the part without singularity *)
Definition smooth (g w c al e x : R) : R :=
  cD g w c e * ln (den w c x) + cL g w c al e * bL w al x + cT g w c e * bT al c x + cU g w c al e * bU w al c x.
Definition smooth' (g w c e x : R) : R :=
  cD g w c e * ((4 * x ^ 3 - 4 * ga2 w c * x) / den w c x)
  + (m0 g w c e * w ^ 2 + m2 g w c e * x ^ 2) / den w c x
  + 2 * g * (e ^ 2 - ga2 w c) / den w c e * (x / den w c x).

Lemma smooth_derive g w c al e x : in_range w c al -> is_derive (smooth g w c al e) x (smooth' g w c e x).
Proof.
  intros H. pose proof (den_pos w c al x H) as HD. pose proof (den_pos w c al e H) as HE. pose proof H as (Hw & Hc & Ha & E).
  pose proof (lnden_derive w c al x H) as D1. pose proof (bL_derive w c al x H) as D2.
  pose proof (bT_derive w c al x H) as D3. pose proof (bU_derive w c al x H) as D4.
  apply (is_derive_scal _ _ (cD g w c e)) in D1. apply (is_derive_scal _ _ (cL g w c al e)) in D2.
  apply (is_derive_scal _ _ (cT g w c e)) in D3. apply (is_derive_scal _ _ (cU g w c al e)) in D4.
  pose proof (is_derive_plus _ _ _ _ _ (is_derive_plus _ _ _ _ _ (is_derive_plus _ _ _ _ _ D1 D2) D3) D4) as D.
  replace (smooth' g w c e x) with
    (plus (plus (plus (cD g w c e * ((4 * x ^ 3 - 4 * ga2 w c * x) / den w c x))
       (cL g w c al e * (2 * al * (w ^ 2 - x ^ 2) / den w c x)))
       (cT g w c e * (c * (x ^ 2 + w ^ 2) / den w c x))) (cU g w c al e * (al * c * x / den w c x))).
  { exact D. }
  unfold plus; simpl. unfold smooth', cL, cT, cU. 
  field. repeat split; lra.
Qed.

Definition kernel (g w c e x : R) : R := (x - g) ^ 2 / (den w c x * (x ^ 2 - e ^ 2)).

Lemma kernel_split g w c al e x : in_range w c al -> 0 < e -> 0 <= x -> x <> e ->
  kernel g w c e x = ca g w c e / (x - e) + cb g w c e / (x + e) + smooth' g w c e x.
Proof.
  intros H He Hx Hne. pose proof (den_pos w c al x H) as HD. pose proof (den_pos w c al e H) as HE.
  pose proof H as (Hw & Hc & Ha & E).
  unfold kernel, ca, cb, smooth', cD, m0, m2, ga2, den in *.
  assert (x - e <> 0) by lra. assert (x + e <> 0) by lra.
  replace (x ^ 2 - e ^ 2) with ((x - e) * (x + e)) by ring.
  field. repeat split; try lra; nra.
Qed.

(** ** Integrals on either side of the singularity *)
Definition Fbelow (g w c al e x : R) : R := ca g w c e * ln (e - x) + cb g w c e * ln (x + e) + smooth g w c al e x.
Definition Fabove (g w c al e x : R) : R := ca g w c e * ln (x - e) + cb g w c e * ln (x + e) + smooth g w c al e x.

Lemma kernel_continuous g w c al e x : in_range w c al -> 0 < e -> 0 <= x -> x <> e ->
  continuous (kernel g w c e) x.
Proof.
  intros H He Hx Hne. pose proof (den_pos w c al x H) as HD.
  apply (ex_derive_continuous (kernel g w c e)). unfold kernel, den in *. auto_derive.
  assert (x - e <> 0) by lra. assert (x + e <> 0) by lra.
  apply Rmult_integral_contrapositive_currified; [intros K; apply (Rlt_not_eq _ _ HD); rewrite <- K; ring|].
  intros K. apply (Rmult_integral_contrapositive_currified (x - e) (x + e)); auto. rewrite <- K. ring.
Qed.

Lemma Fbelow_derive g w c al e x : in_range w c al -> 0 < e -> 0 <= x < e ->
  is_derive (Fbelow g w c al e) x (kernel g w c e x).
Proof.
  intros H He Hx. rewrite (kernel_split g w c al) by (auto; lra).
  apply (is_derive_plus (fun x => ca g w c e * ln (e - x) + cb g w c e * ln (x + e)) (smooth g w c al e));
    [|apply smooth_derive; auto].
  auto_derive; [split; [lra|split; [lra|auto]]|]. field. lra.
Qed.
Lemma Fabove_derive g w c al e x : in_range w c al -> 0 < e < x ->
  is_derive (Fabove g w c al e) x (kernel g w c e x).
Proof.
  intros H Hx. rewrite (kernel_split g w c al) by (auto; lra).
  apply (is_derive_plus (fun x => ca g w c e * ln (x - e) + cb g w c e * ln (x + e)) (smooth g w c al e));
    [|apply smooth_derive; auto].
  auto_derive; [split; [lra|split; [lra|auto]]|]. field. lra.
Qed.

Lemma int_below g w c al e p q : in_range w c al -> 0 < e -> 0 <= p <= q -> q < e ->
  is_RInt (kernel g w c e) p q (Fbelow g w c al e q - Fbelow g w c al e p).
Proof.
  intros H He Hp Hq.
  apply (is_RInt_derive (Fbelow g w c al e) (kernel g w c e)); intros x; rewrite Rmin_left, Rmax_right by lra; intros Hx.
  - apply Fbelow_derive; auto; lra.
  - apply (kernel_continuous g w c al); auto; lra.
Qed.
Lemma int_above g w c al e p q : in_range w c al -> 0 < e < p -> p <= q ->
  is_RInt (kernel g w c e) p q (Fabove g w c al e q - Fabove g w c al e p).
Proof.
  intros H He Hp.
  apply (is_RInt_derive (Fabove g w c al e) (kernel g w c e)); intros x; rewrite Rmin_left, Rmax_right by lra; intros Hx.
  - apply Fabove_derive; auto; lra.
  - apply (kernel_continuous g w c al); auto; lra.
Qed.

(** ** The antiderivative at infinity *)
Definition Hinf (g w c al e u : R) : R :=
  ca g w c e * ln (1 - e * u) + cb g w c e * ln (1 + e * u)
  + (cD g w c e * ln (1 - 2 * ga2 w c * u ^ 2 + w ^ 4 * u ^ 4)
     + cL g w c al e * (ln (1 + al * u + w ^ 2 * u ^ 2) - ln (1 - al * u + w ^ 2 * u ^ 2))
     + cT g w c e * (PI - atan (c * u / (2 + al * u)) - atan (c * u / (2 - al * u)))
     + cU g w c al e * (PI / 2 - atan (al * c * u ^ 2 / (2 * (1 - ga2 w c * u ^ 2))))).

Lemma atan_big x y : 0 < x -> 0 < y -> atan (x / y) = PI / 2 - atan (y / x).
Proof.
  intros Hx Hy. replace (y / x) with (/ (x / y)) by (field; lra).
  rewrite atan_inv by (apply Rdiv_lt_0_compat; auto). lra.
Qed.

Lemma ln_scale x y : 0 < x -> 0 < y -> ln (x * y) = ln x + ln y.
Proof. intros. apply ln_mult; auto. Qed.

Lemma Fabove_Hinf g w c al e x : in_range w c al -> 0 < e -> e < x -> al < x -> w < x ->
  Fabove g w c al e x = Hinf g w c al e (/ x).
Proof.
  intros H He H1 H2 H3. pose proof H as (Hw & Hc & Ha & E).
  assert (Hx : 0 < x) by lra. pose proof (den_pos w c al e H) as HE.
  pose proof (den_pos w c al x H) as HD. destruct (q_pos w c al x H) as [Q1 Q2].
  assert (Hu : 0 < / x) by (apply Rinv_0_lt_compat; auto).
  assert (Hux : x * / x = 1) by (field; lra).
  set (u := / x) in *.
  assert (P2 : 0 < x ^ 2) by nra. assert (P4 : 0 < x ^ 4) by nra.
  assert (E1 : x - e = x * (1 - e * u)) by (rewrite Rmult_minus_distr_l; replace (x * (e * u)) with (e * (x * u)) by ring; rewrite Hux; ring).
  assert (E2 : x + e = x * (1 + e * u)) by (rewrite Rmult_plus_distr_l; replace (x * (e * u)) with (e * (x * u)) by ring; rewrite Hux; ring).
  assert (E3 : den w c x = x ^ 4 * (1 - 2 * ga2 w c * u ^ 2 + w ^ 4 * u ^ 4)).
  { replace (x ^ 4 * (1 - 2 * ga2 w c * u ^ 2 + w ^ 4 * u ^ 4)) with
      (x ^ 4 - 2 * ga2 w c * (x * u) ^ 2 * x ^ 2 + w ^ 4 * (x * u) ^ 4) by ring.
    rewrite Hux. unfold den, ga2. field. }
  assert (E4 : qplus w al x = x ^ 2 * (1 + al * u + w ^ 2 * u ^ 2)).
  { replace (x ^ 2 * (1 + al * u + w ^ 2 * u ^ 2)) with (x ^ 2 + al * (x * u) * x + w ^ 2 * (x * u) ^ 2) by ring.
    rewrite Hux. unfold qplus. ring. }
  assert (E5 : qminus w al x = x ^ 2 * (1 - al * u + w ^ 2 * u ^ 2)).
  { replace (x ^ 2 * (1 - al * u + w ^ 2 * u ^ 2)) with (x ^ 2 - al * (x * u) * x + w ^ 2 * (x * u) ^ 2) by ring.
    rewrite Hux. unfold qminus. ring. }
  assert (Z1 : 0 < 1 - e * u) by (apply (Rmult_lt_reg_l x); lra).
  assert (Z2 : 0 < 1 + e * u) by (apply (Rmult_lt_reg_l x); lra).
  assert (Z3 : 0 < 1 - 2 * ga2 w c * u ^ 2 + w ^ 4 * u ^ 4) by (apply (Rmult_lt_reg_l (x ^ 4)); lra).
  assert (Z4 : 0 < 1 + al * u + w ^ 2 * u ^ 2) by (apply (Rmult_lt_reg_l (x ^ 2)); lra).
  assert (Z5 : 0 < 1 - al * u + w ^ 2 * u ^ 2) by (apply (Rmult_lt_reg_l (x ^ 2)); lra).
  assert (Hau : al * u < 1) by (apply (Rmult_lt_reg_l x); auto; replace (x * (al * u)) with (al * (x * u)) by ring; rewrite Hux; lra).
  assert (Hau0 : 0 < al * u) by (apply Rmult_lt_0_compat; auto).
  assert (Hga : ga2 w c * u ^ 2 < 1).
  { apply (Rmult_lt_reg_l (x ^ 2)); auto. replace (x ^ 2 * (ga2 w c * u ^ 2)) with (ga2 w c * (x * u) ^ 2) by ring.
    rewrite Hux. unfold ga2. nra. }
  unfold Fabove, smooth, bL, bT, bU, Hinf.
  rewrite E1, E2, E3, E4, E5.
  rewrite !ln_scale by auto.
  assert (L4 : ln (x ^ 4) = 4 * ln x) by (rewrite ln_pow by auto; simpl; ring).
  assert (L2 : ln (x ^ 2) = 2 * ln x) by (rewrite ln_pow by auto; simpl; ring).
  rewrite L4, L2.
  assert (A1 : atan ((2 * x + al) / c) = PI / 2 - atan (c * u / (2 + al * u))).
  { rewrite atan_big by lra. f_equal. f_equal. 
    replace (2 * x + al) with (x * (2 + al * u)) by (rewrite Rmult_plus_distr_l; replace (x * (al * u)) with (al * (x * u)) by ring; rewrite Hux; ring).
    unfold u. field. fold u. lra. }
  assert (A2 : atan ((2 * x - al) / c) = PI / 2 - atan (c * u / (2 - al * u))).
  { rewrite atan_big by lra. f_equal. f_equal. 
    replace (2 * x - al) with (x * (2 - al * u)) by (rewrite Rmult_minus_distr_l; replace (x * (al * u)) with (al * (x * u)) by ring; rewrite Hux; ring).
    unfold u. field. fold u. lra. }
  assert (A3 : atan (2 * (x ^ 2 - ga2 w c) / (al * c)) = PI / 2 - atan (al * c * u ^ 2 / (2 * (1 - ga2 w c * u ^ 2)))).
  { assert (EE : x ^ 2 - ga2 w c = x ^ 2 * (1 - ga2 w c * u ^ 2)).
    { replace (x ^ 2 * (1 - ga2 w c * u ^ 2)) with (x ^ 2 - ga2 w c * (x * u) ^ 2) by ring. rewrite Hux. ring. }
    rewrite EE. rewrite atan_big; [|apply Rmult_lt_0_compat; [lra|]; apply Rmult_lt_0_compat; lra|apply Rmult_lt_0_compat; auto].
    f_equal. f_equal. set (k := 1 - ga2 w c * u ^ 2) in *. assert (k <> 0) by (unfold k; lra).
    unfold u. field. lra. }
  rewrite A1, A2, A3.
  assert (Hs : ca g w c e + cb g w c e + 4 * cD g w c e = 0).
  { unfold ca, cb, cD. field. lra. }
  set (l1 := ln (1 - e * u)). set (l2 := ln (1 + e * u)). set (l3 := ln (1 - 2 * ga2 w c * u ^ 2 + w ^ 4 * u ^ 4)).
  set (l4 := ln (1 + al * u + w ^ 2 * u ^ 2)). set (l5 := ln (1 - al * u + w ^ 2 * u ^ 2)).
  replace (cb g w c e) with (- ca g w c e - 4 * cD g w c e) by lra. field.
Qed.

Lemma Hinf_0 g w c al e : Hinf g w c al e 0 = cT g w c e * PI + cU g w c al e * (PI / 2).
Proof.
  unfold Hinf.
  replace (1 - e * 0) with 1 by ring. replace (1 + e * 0) with 1 by ring.
  replace (1 - 2 * ga2 w c * 0 ^ 2 + w ^ 4 * 0 ^ 4) with 1 by ring.
  replace (1 + al * 0 + w ^ 2 * 0 ^ 2) with 1 by ring. replace (1 - al * 0 + w ^ 2 * 0 ^ 2) with 1 by ring.
  replace (c * 0 / (2 + al * 0)) with 0 by (unfold Rdiv; ring).
  replace (c * 0 / (2 - al * 0)) with 0 by (unfold Rdiv; ring).
  replace (al * c * 0 ^ 2 / (2 * (1 - ga2 w c * 0 ^ 2))) with 0 by (unfold Rdiv; ring).
  rewrite ln_1, atan_0. ring.
Qed.

Lemma Hinf_continuous g w c al e : continuous (Hinf g w c al e) 0.
Proof.
  apply (ex_derive_continuous (Hinf g w c al e)). unfold Hinf. auto_derive.
  rewrite !Rmult_0_r, ?Rmult_0_l, ?pow_i by lia. repeat split; try lra.
Qed.

Lemma continuous_eps (f : R -> R) x : continuous f x ->
  forall eps, 0 < eps -> exists d, 0 < d /\ forall y, Rabs (y - x) < d -> Rabs (f y - f x) < eps.
Proof.
  intros H eps He. destruct (proj1 (filterlim_locally f (f x)) H (mkposreal eps He)) as [d Hd].
  exists d. split; [apply cond_pos|]. intros y Hy. apply (Hd y). exact Hy.
Qed.

Lemma Fabove_limit g w c al e : in_range w c al -> 0 < e -> forall eps, 0 < eps ->
  exists b0, e < b0 /\ forall b, b0 < b -> Rabs (Fabove g w c al e b - (cT g w c e * PI + cU g w c al e * (PI / 2))) < eps.
Proof.
  intros H He eps Hp. pose proof H as (Hw & Hc & Ha & E).
  destruct (continuous_eps _ 0 (Hinf_continuous g w c al e) eps Hp) as [d [Hd K]].
  exists (e + al + w + / d). assert (0 < / d) by (apply Rinv_0_lt_compat; auto).
  split; [lra|]. intros b Hb. rewrite Fabove_Hinf by (auto; lra). rewrite <- Hinf_0. apply K.
  rewrite Rminus_0_r. rewrite Rabs_pos_eq by (apply Rlt_le, Rinv_0_lt_compat; lra).
  rewrite <- (Rinv_involutive d) by lra. apply Rinv_lt_contravar; [|lra].
  apply Rmult_lt_0_compat; lra.
Qed.

Ltac toR := match goal with |- @eq _ ?a ?b => change (@eq R a b) end.

(** ** The principal value *)
Definition Fat (g w c al e : R) : R :=
  ca g w c e * ln (Rabs (e - g)) + cb g w c e * ln (e + g) + smooth g w c al e g.
Definition pv (g w c al e : R) : R := cT g w c e * PI + cU g w c al e * (PI / 2) - Fat g w c al e.

Definition cut (g w c x : R) : R := if Rlt_dec g x then (x - g) ^ 2 / (den w c x * x) else 0.

Lemma int_zero (p q : R) : is_RInt (fun _ => 0) p q 0.
Proof.
  pose proof (is_RInt_const p q 0) as K. unfold scal in K; simpl in K; unfold mult in K; simpl in K.
  rewrite Rmult_0_r in K. exact K.
Qed.
Lemma chasles0 (f : R -> R) (a b c I : R) : is_RInt f a b 0 -> is_RInt f b c I -> is_RInt f a c I.
Proof.
  intros H1 H2. pose proof (is_RInt_Chasles f a b c _ _ H1 H2) as K. unfold plus in K; simpl in K.
  rewrite Rplus_0_l in K. exact K.
Qed.
Lemma cut_zero g w c e p q : 0 <= p -> p <= q -> q <= g ->
  is_RInt (fun xi => xi * cut g w c xi / (xi ^ 2 - e ^ 2)) p q 0.
Proof.
  intros Hp Hq Hg. apply (is_RInt_ext (fun _ => 0)).
  - intros x. rewrite Rmin_left, Rmax_right by lra. intros Hx. unfold cut. destruct Rlt_dec; [lra|].
    toR. unfold Rdiv. ring.
  - apply int_zero.
Qed.

Lemma cut_kernel g w c al e p q I : in_range w c al -> 0 <= g -> g <= p -> p <= q ->
  is_RInt (kernel g w c e) p q I -> is_RInt (fun xi => xi * cut g w c xi / (xi ^ 2 - e ^ 2)) p q I.
Proof.
  intros H Hg Hp Hq HI. apply (is_RInt_ext (kernel g w c e)); auto.
  intros x. rewrite Rmin_left, Rmax_right by lra. intros Hx. unfold cut, kernel. destruct Rlt_dec; [|lra].
  pose proof (den_pos w c al x H) as HD. 
  toR. replace (x * ((x - g) ^ 2 / (den w c x * x))) with ((x - g) ^ 2 / den w c x) by (field; lra).
  toR. unfold Rdiv. rewrite Rinv_mult. ring.
Qed.

Lemma jump_limit g w c al e : in_range w c al -> 0 < e -> forall eps, 0 < eps -> exists d0, 0 < d0 /\ d0 < e /\
  forall d, 0 < d < d0 ->
  Rabs (cb g w c e * (ln (2 * e - d) - ln (2 * e + d)) + (smooth g w c al e (e - d) - smooth g w c al e (e + d))) < eps.
Proof.
  intros H He eps Hp.
  set (J := fun d => cb g w c e * (ln (2 * e - d) - ln (2 * e + d)) + (smooth g w c al e (e - d) - smooth g w c al e (e + d))).
  assert (HJ : continuous J 0).
  { apply (ex_derive_continuous J). unfold J.
    apply (ex_derive_plus (fun d => cb g w c e * (ln (2 * e - d) - ln (2 * e + d)))
             (fun d => smooth g w c al e (e - d) - smooth g w c al e (e + d))).
    - auto_derive. split; lra.
    - apply (ex_derive_minus (fun d => smooth g w c al e (e - d)) (fun d => smooth g w c al e (e + d))).
      + apply (ex_derive_comp (smooth g w c al e)); [|auto_derive; auto].
        exists (smooth' g w c e (e - 0)). apply smooth_derive; auto.
      + apply (ex_derive_comp (smooth g w c al e)); [|auto_derive; auto].
        exists (smooth' g w c e (e + 0)). apply smooth_derive; auto. }
  destruct (continuous_eps J 0 HJ eps Hp) as [d [Hd K]].
  exists (Rmin d (e / 2)). assert (Rmin d (e / 2) <= d) by apply Rmin_l. assert (Rmin d (e / 2) <= e / 2) by apply Rmin_r.
  split; [apply Rmin_glb_lt; lra|]. split; [lra|]. intros x Hx.
  assert (J0 : J 0 = 0). { unfold J. replace (2 * e - 0) with (2 * e + 0) by ring. replace (e - 0) with (e + 0) by ring. ring. }
  specialize (K x). rewrite J0, Rminus_0_r, Rminus_0_r in K. apply K. rewrite Rabs_pos_eq; lra.
Qed.

Lemma cut_kk g w c al e : in_range w c al -> 0 <= g -> 0 < e -> e <> g ->
  kramers_kronig (cut g w c) e (2 / PI * pv g w c al e).
Proof.
  intros H Hg He Hne eps Hp. pose proof PI_RGT_0 as HPI.
  set (eps' := eps * PI / 4). assert (He' : 0 < eps') by (unfold eps'; assert (0 < eps * PI) by (apply Rmult_lt_0_compat; auto); lra).
  destruct (Fabove_limit g w c al e H He eps' He') as [b0 [Hb0 HB]].
  destruct (jump_limit g w c al e H He eps' He') as [d1 [Hd1 [Hd1e HJ]]].
  assert (Fin : forall X, Rabs (X - pv g w c al e) < 2 * eps' -> Rabs (2 / PI * X - 2 / PI * pv g w c al e) < eps).
  { intros X HX. rewrite <- Rmult_minus_distr_l, Rabs_mult, (Rabs_pos_eq (2 / PI)) by (apply Rlt_le, Rdiv_lt_0_compat; lra).
    apply (Rmult_lt_reg_l (PI / 2)); [lra|]. replace (PI / 2 * (2 / PI * Rabs (X - pv g w c al e))) with (Rabs (X - pv g w c al e)) by (field; lra).
    replace (PI / 2 * eps) with (2 * eps') by (unfold eps'; field). exact HX. }
  destruct (Rlt_dec g e) as [L|L].
  - exists (Rmin d1 (e - g)), (b0 + e). pose proof (Rmin_l d1 (e - g)). pose proof (Rmin_r d1 (e - g)).
    split; [apply Rmin_glb_lt; lra|]. split; [lra|]. intros d b Hd Hb.
    exists (Fbelow g w c al e (e - d) - Fbelow g w c al e g), (Fabove g w c al e b - Fabove g w c al e (e + d)).
    split; [|split].
    + apply (chasles0 _ 0 g (e - d)); [apply cut_zero; lra|].
      apply (cut_kernel g w c al); auto; try lra. apply int_below; auto; lra.
    + apply (cut_kernel g w c al); auto; try lra. apply int_above; auto; lra.
    + apply Fin. specialize (HB b ltac:(lra)). specialize (HJ d ltac:(lra)).
      unfold pv, Fat. rewrite (Rabs_pos_eq (e - g)) by lra.
      match type of HB with Rabs ?x < _ => match type of HJ with Rabs ?y < _ =>
        match goal with |- Rabs ?z < _ => replace z with (x + y) end; pose proof (Rabs_triang x y); [lra|] end end.
      unfold Fbelow, Fabove.
      replace (e - (e - d)) with d by ring. replace (e + d - e) with d by ring.
      replace (e - d + e) with (2 * e - d) by ring. replace (e + d + e) with (2 * e + d) by ring.
      rewrite (Rplus_comm g e). ring.
  - assert (Lg : e < g) by lra.
    exists (Rmin e (g - e)), (b0 + g). pose proof (Rmin_l e (g - e)). pose proof (Rmin_r e (g - e)).
    split; [apply Rmin_glb_lt; lra|]. split; [lra|]. intros d b Hd Hb.
    exists 0, (Fabove g w c al e b - Fabove g w c al e g).
    split; [|split].
    + apply cut_zero; lra.
    + apply (chasles0 _ (e + d) g b); [apply cut_zero; lra|].
      apply (cut_kernel g w c al); auto; try lra. apply int_above; auto; lra.
    + apply Fin. specialize (HB b ltac:(lra)).
      unfold pv, Fat. rewrite (Rabs_left (e - g)) by lra.
      match type of HB with Rabs ?x < _ => match goal with |- Rabs ?z < _ => replace z with x end; [lra|] end.
      unfold Fabove. replace (- (e - g)) with (g - e) by ring. rewrite (Rplus_comm g e). ring.
Qed.

(** ** Linearity *)
Lemma kk_ext im im' e re : (forall x, im x = im' x) -> kramers_kronig im e re -> kramers_kronig im' e re.
Proof.
  intros Hx H eps Hp. destruct (H eps Hp) as (d0 & b0 & Hd & Hb & K). exists d0, b0. split; [auto|split; [auto|]].
  intros d b H1 H2. destruct (K d b H1 H2) as (I1 & I2 & K1 & K2 & K3). exists I1, I2. split; [|split; [|auto]].
  - eapply is_RInt_ext; [|exact K1]. intros x _. cbv beta. rewrite Hx. reflexivity.
  - eapply is_RInt_ext; [|exact K2]. intros x _. cbv beta. rewrite Hx. reflexivity.
Qed.
Lemma kk_zero e : kramers_kronig (fun _ => 0) e 0.
Proof.
  intros eps Hp. exists 1, 1. split; [lra|split; [lra|]]. intros d b _ _. exists 0, 0.
  assert (Z : forall p q, is_RInt (fun xi => xi * 0 / (xi ^ 2 - e ^ 2)) p q 0).
  { intros p q. apply (is_RInt_ext (fun _ => 0)); [intros; toR; unfold Rdiv; ring|].
    apply int_zero. }
  split; [apply Z|split; [apply Z|]]. replace (2 / PI * (0 + 0) - 0) with 0 by ring. rewrite Rabs_R0. exact Hp.
Qed.
Lemma kk_plus im1 im2 e re1 re2 : kramers_kronig im1 e re1 -> kramers_kronig im2 e re2 ->
  kramers_kronig (fun x => im1 x + im2 x) e (re1 + re2).
Proof.
  intros H1 H2 eps Hp. destruct (H1 (eps / 2) ltac:(lra)) as (d1 & b1 & Hd1 & Hb1 & K1).
  destruct (H2 (eps / 2) ltac:(lra)) as (d2 & b2 & Hd2 & Hb2 & K2).
  exists (Rmin d1 d2), (b1 + b2). pose proof (Rmin_l d1 d2). pose proof (Rmin_r d1 d2).
  split; [apply Rmin_glb_lt; auto|]. split; [lra|]. intros d b Hd Hb.
  destruct (K1 d b ltac:(lra) ltac:(lra)) as (I1 & J1 & A1 & B1 & C1).
  destruct (K2 d b ltac:(lra) ltac:(lra)) as (I2 & J2 & A2 & B2 & C2).
  exists (I1 + I2), (J1 + J2). split; [|split].
  - eapply is_RInt_ext; [|exact (is_RInt_plus _ _ _ _ _ _ A1 A2)]. intros x _. unfold plus; simpl. toR. unfold Rdiv. ring.
  - eapply is_RInt_ext; [|exact (is_RInt_plus _ _ _ _ _ _ B1 B2)]. intros x _. unfold plus; simpl. toR. unfold Rdiv. ring.
  - replace (2 / PI * (I1 + I2 + (J1 + J2)) - (re1 + re2)) with
      ((2 / PI * (I1 + J1) - re1) + (2 / PI * (I2 + J2) - re2)) by ring.
    eapply Rle_lt_trans; [apply Rabs_triang|lra].
Qed.
Lemma kk_scal k im e re : kramers_kronig im e re -> kramers_kronig (fun x => k * im x) e (k * re).
Proof.
  intros H eps Hp. assert (0 < Rabs k + 1) by (pose proof (Rabs_pos k); lra).
  destruct (H (eps / (Rabs k + 1)) ltac:(apply Rdiv_lt_0_compat; auto)) as (d0 & b0 & Hd0 & Hb0 & K).
  exists d0, b0. split; [auto|split; [auto|]]. intros d b Hd Hb.
  destruct (K d b Hd Hb) as (I & J & A & B & Cl). exists (k * I), (k * J). split; [|split].
  - eapply is_RInt_ext; [|exact (is_RInt_scal _ _ _ k _ A)]. intros x _. unfold scal; simpl. unfold mult; simpl. toR. unfold Rdiv. ring.
  - eapply is_RInt_ext; [|exact (is_RInt_scal _ _ _ k _ B)]. intros x _. unfold scal; simpl. unfold mult; simpl. toR. unfold Rdiv. ring.
  - replace (2 / PI * (k * I + k * J) - k * re) with (k * (2 / PI * (I + J) - re)) by ring. rewrite Rabs_mult.
    apply (Rle_lt_trans _ (Rabs k * (eps / (Rabs k + 1)))).
    + apply Rmult_le_compat_l; [apply Rabs_pos|lra].
    + apply (Rmult_lt_reg_r (Rabs k + 1)); auto. replace (Rabs k * (eps / (Rabs k + 1)) * (Rabs k + 1)) with (Rabs k * eps) by (field; lra).
      lra.
Qed.
