(** * The Lorentz oscillator satisfies the Kramers-Kronig relation *)

Require Import Reals List Lra Psatz.
From Coquelicot Require Import Coquelicot.
From Verif Require Import Base Cplx M_ema M_disp Spec_disp P_disp P_disp2 Spec_kk P_kk P_kk2.
Import ListNotations.
Open Scope R_scope.

Definition tends (S : R -> R) (l : R) : Prop :=
  forall eps, 0 < eps -> exists b0, 0 < b0 /\ forall b, b0 < b -> Rabs (S b - l) < eps.

Lemma tends_plus f g l m : tends f l -> tends g m -> tends (fun x => f x + g x) (l + m).
Proof.
  intros H1 H2 eps He. destruct (H1 (eps / 2) ltac:(lra)) as (b1 & P1 & K1). destruct (H2 (eps / 2) ltac:(lra)) as (b2 & P2 & K2).
  exists (b1 + b2). split; [lra|]. intros b Hb. specialize (K1 b ltac:(lra)). specialize (K2 b ltac:(lra)).
  replace (f b + g b - (l + m)) with ((f b - l) + (g b - m)) by ring. eapply Rle_lt_trans; [apply Rabs_triang|lra].
Qed.
Lemma tends_scal k f l : tends f l -> tends (fun x => k * f x) (k * l).
Proof.
  intros H eps He. assert (0 < Rabs k + 1) by (pose proof (Rabs_pos k); lra).
  destruct (H (eps / (Rabs k + 1)) ltac:(apply Rdiv_lt_0_compat; auto)) as (b0 & P & K).
  exists b0. split; auto. intros b Hb. specialize (K b Hb). rewrite <- Rmult_minus_distr_l, Rabs_mult.
  apply (Rle_lt_trans _ (Rabs k * (eps / (Rabs k + 1)))).
  - apply Rmult_le_compat_l; [apply Rabs_pos|lra].
  - apply (Rmult_lt_reg_r (Rabs k + 1)); auto. replace (Rabs k * (eps / (Rabs k + 1)) * (Rabs k + 1)) with (Rabs k * eps) by (field; lra). lra.
Qed.
(** functions of 1/x *)
Lemma tends_inv f (h : R -> R) : continuous h 0 -> (exists b1, forall x, b1 < x -> 0 < x -> f x = h (/ x)) -> tends f (h 0).
Proof.
  intros Hc [b1 Hf] eps He. destruct (continuous_eps h 0 Hc eps He) as [d [Hd K]].
  assert (0 < / d) by (apply Rinv_0_lt_compat; auto).
  exists (Rabs b1 + / d). pose proof (Rabs_pos b1). pose proof (Rle_abs b1). split; [lra|]. intros b Hb.
  rewrite Hf by lra. apply K. rewrite Rminus_0_r, Rabs_pos_eq by (apply Rlt_le, Rinv_0_lt_compat; lra).
  rewrite <- (Rinv_involutive d) by lra. apply Rinv_lt_contravar; [|lra]. apply Rmult_lt_0_compat; lra.
Qed.
Lemma tends_atan p : 0 < p -> tends (fun x => atan (x / p)) (PI / 2).
Proof.
  intros Hp. pose (h u := PI / 2 - atan (p * u)).
  replace (PI / 2) with (h 0) by (unfold h; rewrite Rmult_0_r, atan_0; lra).
  apply tends_inv.
  - apply (ex_derive_continuous h). unfold h. auto_derive. auto.
  - exists 0. intros x _ Hx. unfold h. rewrite atan_big by auto. reflexivity.
Qed.
Lemma tends_frac P : 0 < P -> tends (fun x => x / (x ^ 2 + P)) 0.
Proof.
  intros HP. pose (h u := u / (1 + P * u ^ 2)). replace 0 with (h 0) by (unfold h; field).
  apply tends_inv.
  - apply (ex_derive_continuous h). unfold h. auto_derive. rewrite !Rmult_0_l, Rmult_0_r. lra.
  - exists 0. intros x _ Hx. unfold h. field. split; nra.
Qed.
Lemma tends_log e : 0 < e -> tends (fun x => ln (x - e) - ln (x + e)) 0.
Proof.
  intros He. pose (h u := ln (1 - e * u) - ln (1 + e * u)).
  replace 0 with (h 0). 2: { unfold h. rewrite Rmult_0_r, Rminus_0_r, Rplus_0_r. ring. }
  apply tends_inv.
  - apply (ex_derive_continuous h). unfold h. auto_derive. rewrite Rmult_0_r. lra.
  - exists e. intros x Hx _. unfold h. assert (0 < x) by lra. assert (0 < / x) by (apply Rinv_0_lt_compat; auto).
    assert (x * / x = 1) by (field; lra).
    assert (Hu : e * / x < 1) by (apply (Rmult_lt_reg_l x); auto; replace (x * (e * / x)) with e by (field; lra); lra).
    assert (0 < e * / x) by (apply Rmult_lt_0_compat; auto).
    replace (x - e) with (x * (1 - e * / x)) by (field; lra). replace (x + e) with (x * (1 + e * / x)) by (field; lra).
    rewrite !ln_mult by lra. ring.
Qed.

(** the principal value of an even integrand k/(x-e) - k/(x+e) + S'(x) *)
Lemma pv_even im e k S S' l : 0 < e ->
  (forall x, 0 <= x -> x <> e -> x * im x / (x ^ 2 - e ^ 2) = k / (x - e) - k / (x + e) + S' x) ->
  (forall x, 0 <= x -> is_derive S x (S' x)) -> (forall x, 0 <= x -> continuous S' x) -> tends S l ->
  kramers_kronig im e (2 / PI * (l - S 0)).
Proof.
  intros He Hf HS Hc Hl eps Hp. pose proof PI_RGT_0 as HPI.
  set (eps' := eps * PI / 4). assert (He' : 0 < eps') by (unfold eps'; assert (0 < eps * PI) by (apply Rmult_lt_0_compat; auto); lra).
  set (f := fun xi => xi * im xi / (xi ^ 2 - e ^ 2)).
  set (F1 := fun x => k * (ln (e - x) - ln (x + e)) + S x). set (F2 := fun x => k * (ln (x - e) - ln (x + e)) + S x).
  set (df := fun x => k / (x - e) - k / (x + e) + S' x).
  assert (Cdf : forall x, 0 <= x -> x <> e -> continuous df x).
  { intros x H1 H2. apply (continuous_plus (fun x => k / (x - e) - k / (x + e)) S'); [|auto].
    apply (ex_derive_continuous (fun x => k / (x - e) - k / (x + e))). auto_derive. split; lra. }
  assert (IB : forall q, 0 <= q < e -> is_RInt f 0 q (F1 q - F1 0)).
  { intros q Hq. apply (is_RInt_ext df).
    - intros x. rewrite Rmin_left, Rmax_right by lra. intros Hx. unfold df, f. rewrite Hf by lra. reflexivity.
    - apply (is_RInt_derive F1 df); intros x; rewrite Rmin_left, Rmax_right by lra; intros Hx.
      + apply (is_derive_plus (fun x => k * (ln (e - x) - ln (x + e))) S); [|apply HS; lra].
        auto_derive; [split; [lra|split; [lra|auto]]|]. field. lra.
      + apply Cdf; lra. }
  assert (IA : forall p q, e < p <= q -> is_RInt f p q (F2 q - F2 p)).
  { intros p q Hq. apply (is_RInt_ext df).
    - intros x. rewrite Rmin_left, Rmax_right by lra. intros Hx. unfold df, f. rewrite Hf by lra. reflexivity.
    - apply (is_RInt_derive F2 df); intros x; rewrite Rmin_left, Rmax_right by lra; intros Hx.
      + apply (is_derive_plus (fun x => k * (ln (x - e) - ln (x + e))) S); [|apply HS; lra].
        auto_derive; [split; [lra|split; [lra|auto]]|]. field. lra.
      + apply Cdf; lra. }
  assert (HT : tends F2 l).
  { replace l with (k * 0 + l) by ring. apply tends_plus; auto. apply tends_scal. apply tends_log; auto. }
  destruct (HT eps' He') as (b0 & Hb0 & HB).
  set (J := fun d => k * (ln (2 * e + d) - ln (2 * e - d)) + (S (e - d) - S (e + d))).
  assert (HJ : continuous J 0).
  { apply (ex_derive_continuous J). unfold J.
    apply (ex_derive_plus (fun d => k * (ln (2 * e + d) - ln (2 * e - d))) (fun d => S (e - d) - S (e + d))).
    - auto_derive. split; lra.
    - apply (ex_derive_minus (fun d => S (e - d)) (fun d => S (e + d))).
      + apply (ex_derive_comp S); [|auto_derive; auto]. exists (S' (e - 0)). apply HS; lra.
      + apply (ex_derive_comp S); [|auto_derive; auto]. exists (S' (e + 0)). apply HS; lra. }
  destruct (continuous_eps J 0 HJ eps' He') as [d1 [Hd1 K]].
  assert (J0 : J 0 = 0). { unfold J. replace (2 * e - 0) with (2 * e + 0) by ring. replace (e - 0) with (e + 0) by ring. ring. }
  exists (Rmin d1 (e / 2)), (b0 + 2 * e). pose proof (Rmin_l d1 (e / 2)). pose proof (Rmin_r d1 (e / 2)).
  split; [apply Rmin_glb_lt; lra|]. split; [lra|]. intros d b Hd Hb.
  exists (F1 (e - d) - F1 0), (F2 b - F2 (e + d)). split; [apply IB; lra|]. split; [apply IA; lra|].
  specialize (K d). rewrite J0, !Rminus_0_r in K. specialize (K ltac:(rewrite Rabs_pos_eq; lra)).
  specialize (HB b ltac:(lra)).
  replace (2 / PI * (F1 (e - d) - F1 0 + (F2 b - F2 (e + d))) - 2 / PI * (l - S 0)) with (2 / PI * ((F2 b - l) + J d)).
  - rewrite Rabs_mult, (Rabs_pos_eq (2 / PI)) by (apply Rlt_le, Rdiv_lt_0_compat; lra).
    pose proof (Rabs_triang (F2 b - l) (J d)).
    apply (Rmult_lt_reg_l (PI / 2)); [lra|].
    replace (PI / 2 * (2 / PI * Rabs (F2 b - l + J d))) with (Rabs (F2 b - l + J d)) by (field; lra).
    replace (PI / 2 * eps) with (2 * eps') by (unfold eps'; field). lra.
  - unfold F1, J. replace (F2 (e + d)) with (k * (ln d - ln (2 * e + d)) + S (e + d)).
    2: { unfold F2. replace (e + d - e) with d by ring. replace (e + d + e) with (2 * e + d) by ring. reflexivity. }
    replace (e - (e - d)) with d by ring. replace (e - d + e) with (2 * e - d) by ring.
    replace (e - 0) with e by ring. replace (0 + e) with e by ring. ring.
Qed.

(** ** The three cases *)
Definition lorentz_re (A B E e : R) : R := A * (E ^ 2 - e ^ 2) / den E B e.

Lemma kk_ext_pos im im' e re : 0 < e -> (forall x, 0 < x -> im x = im' x) -> kramers_kronig im e re -> kramers_kronig im' e re.
Proof.
  intros He Hx H eps Hp. destruct (H eps Hp) as (d0 & b0 & Hd & Hb & K).
  exists (Rmin d0 e), (b0 + 2 * e). pose proof (Rmin_l d0 e). pose proof (Rmin_r d0 e).
  split; [apply Rmin_glb_lt; auto|split; [lra|]].
  intros d b Hd1 Hb1. destruct (K d b ltac:(lra) ltac:(lra)) as (I1 & I2 & K1 & K2 & K3). exists I1, I2. split; [|split; [|auto]].
  - eapply is_RInt_ext; [|exact K1]. intros x. rewrite Rmin_left, Rmax_right by lra. intros Hr. cbv beta. rewrite Hx by lra. reflexivity.
  - eapply is_RInt_ext; [|exact K2]. intros x. rewrite Rmin_left, Rmax_right by lra. intros Hr. cbv beta. rewrite Hx by lra. reflexivity.
Qed.

Lemma lorentz_under A B E e : 0 < B -> 0 < E -> B ^ 2 < 4 * E ^ 2 -> 0 < e ->
  kramers_kronig (lorentz_absorption A B E) e (lorentz_re A B E e).
Proof.
  intros HB HE HBE He. pose proof PI_RGT_0 as HPI.
  set (al := sqrt (4 * E ^ 2 - B ^ 2)).
  assert (HR : in_range E B al).
  { repeat split; auto; [apply sqrt_lt_R0; lra|]. unfold al. rewrite pow2_sqrt; lra. }
  pose proof (den_pos E B al e HR) as HD. pose proof HR as (_ & _ & Ha & _).
  replace (lorentz_re A B E e) with (A * B * (2 / PI * pv 0 E B al e)).
  - apply (kk_ext_pos (fun x => A * B * cut 0 E B x)); auto.
    + intros x Hx. pose proof (den_pos E B al x HR) as HX. unfold cut, lorentz_absorption. destruct Rlt_dec; [|lra].
      replace ((E ^ 2 - x ^ 2) ^ 2 + (B * x) ^ 2) with (den E B x) by (unfold den; ring). field. lra.
    + apply kk_scal. apply cut_kk; auto; lra.
  - unfold lorentz_re, pv, Fat, smooth, bL, bT, bU.
    replace (qplus E al 0) with (E ^ 2) by (unfold qplus; ring). replace (qminus E al 0) with (E ^ 2) by (unfold qminus; ring).
    replace ((2 * 0 + al) / B) with (al / B) by (field; lra). replace ((2 * 0 - al) / B) with (- (al / B)) by (field; lra).
    rewrite atan_opp, Rminus_0_r, Rplus_0_r, (Rabs_pos_eq e) by lra.
    unfold ca, cb, cD, cU, cT, m0, m2, ga2.
    set (l := ln e). set (l2 := ln (den E B 0)). set (l3 := ln (E ^ 2)). set (t := atan (al / B)).
    set (t2 := atan _). clearbody l l2 l3 t t2. unfold den in *. field. repeat split; lra.
Qed.

Lemma lorentz_over A p q e : 0 < p -> 0 < q -> p <> q -> 0 < e ->
  kramers_kronig (fun x => A * (p + q) * x / ((x ^ 2 + p ^ 2) * (x ^ 2 + q ^ 2))) e
    (A * (p * q - e ^ 2) / ((e ^ 2 + p ^ 2) * (e ^ 2 + q ^ 2))).
Proof.
  intros Hp Hq Hne He. pose proof PI_RGT_0 as HPI.
  set (W := A * (p + q)).
  set (a1 := W * (p / ((q ^ 2 - p ^ 2) * (p ^ 2 + e ^ 2)))).
  set (a2 := W * (q / ((p ^ 2 - q ^ 2) * (q ^ 2 + e ^ 2)))).
  set (S := fun x => a1 * atan (x / p) + a2 * atan (x / q)).
  set (S' := fun x => a1 * (p / (x ^ 2 + p ^ 2)) + a2 * (q / (x ^ 2 + q ^ 2))).
  assert (Hpq : q ^ 2 - p ^ 2 <> 0). { replace (q ^ 2 - p ^ 2) with ((q - p) * (q + p)) by ring. apply Rmult_integral_contrapositive_currified; lra. }
  assert (Hpq' : p ^ 2 - q ^ 2 <> 0) by lra.
  assert (P2 : 0 < p ^ 2) by nra. assert (Q2 : 0 < q ^ 2) by nra. assert (E2 : 0 < e ^ 2) by nra.
  replace (A * (p * q - e ^ 2) / ((e ^ 2 + p ^ 2) * (e ^ 2 + q ^ 2))) with
    (2 / PI * ((a1 * (PI / 2) + a2 * (PI / 2)) - S 0)).
  - apply (pv_even _ e (W * (e / (2 * ((e ^ 2 + p ^ 2) * (e ^ 2 + q ^ 2))))) S S'); auto.
    + intros x Hx Hxe. assert (0 <= x ^ 2) by apply pow2_ge_0. unfold S', a1, a2.
      replace (x ^ 2 - e ^ 2) with ((x - e) * (x + e)) by ring. field. repeat split; try lra; try nra.
    + intros x Hx. assert (0 <= x ^ 2) by apply pow2_ge_0. unfold S, S'.
      assert (D1 : is_derive (fun x => a1 * atan (x / p)) x (a1 * (p / (x ^ 2 + p ^ 2)))).
      { auto_derive; [auto|]. field. repeat split; try lra; nra. }
      assert (D2 : is_derive (fun x => a2 * atan (x / q)) x (a2 * (q / (x ^ 2 + q ^ 2)))).
      { auto_derive; [auto|]. field. repeat split; try lra; nra. }
      exact (is_derive_plus _ _ _ _ _ D1 D2).
    + intros x Hx. assert (0 <= x ^ 2) by apply pow2_ge_0. apply (ex_derive_continuous S'). unfold S'. auto_derive.
      split; [|split; auto]; intros K; nra.
    + apply tends_plus; apply tends_scal; apply tends_atan; auto.
  - unfold S. replace (0 / p) with 0 by (field; lra). replace (0 / q) with 0 by (field; lra). rewrite atan_0.
    unfold a1, a2, W. assert (0 < p + q) by lra. replace (p ^ 2 - q ^ 2) with (- ((q - p) * (q + p))) by ring.
    replace (q ^ 2 - p ^ 2) with ((q - p) * (q + p)) by ring. field. repeat split; lra.
Qed.

Lemma lorentz_critical A p e : 0 < p -> 0 < e ->
  kramers_kronig (fun x => A * (p + p) * x / ((x ^ 2 + p ^ 2) * (x ^ 2 + p ^ 2))) e
    (A * (p * p - e ^ 2) / ((e ^ 2 + p ^ 2) * (e ^ 2 + p ^ 2))).
Proof.
  intros Hp He. pose proof PI_RGT_0 as HPI.
  set (W := A * (p + p)).
  set (a1 := W * (- e ^ 2 / (p * (e ^ 2 + p ^ 2) ^ 2) + 1 / (2 * p * (e ^ 2 + p ^ 2)))).
  set (a2 := W * (1 / (2 * (e ^ 2 + p ^ 2)))).
  set (S := fun x => a1 * atan (x / p) + a2 * (x / (x ^ 2 + p ^ 2))).
  set (S' := fun x => a1 * (p / (x ^ 2 + p ^ 2)) + a2 * ((p ^ 2 - x ^ 2) / (x ^ 2 + p ^ 2) ^ 2)).
  assert (P2 : 0 < p ^ 2) by nra. assert (E2 : 0 < e ^ 2) by nra.
  replace (A * (p * p - e ^ 2) / ((e ^ 2 + p ^ 2) * (e ^ 2 + p ^ 2))) with
    (2 / PI * ((a1 * (PI / 2) + a2 * 0) - S 0)).
  - apply (pv_even _ e (W * (e / (2 * (e ^ 2 + p ^ 2) ^ 2))) S S'); auto.
    + intros x Hx Hxe. assert (0 <= x ^ 2) by apply pow2_ge_0. unfold S', a1, a2.
      replace (x ^ 2 - e ^ 2) with ((x - e) * (x + e)) by ring. field. repeat split; try lra; try nra.
    + intros x Hx. assert (0 <= x ^ 2) by apply pow2_ge_0. unfold S, S'.
      assert (D1 : is_derive (fun x => a1 * atan (x / p)) x (a1 * (p / (x ^ 2 + p ^ 2)))).
      { auto_derive; [auto|]. field. repeat split; try lra; nra. }
      assert (D2 : is_derive (fun x => a2 * (x / (x ^ 2 + p ^ 2))) x (a2 * ((p ^ 2 - x ^ 2) / (x ^ 2 + p ^ 2) ^ 2))).
      { auto_derive; [intros K; nra|]. field. lra. }
      exact (is_derive_plus _ _ _ _ _ D1 D2).
    + intros x Hx. assert (0 <= x ^ 2) by apply pow2_ge_0. apply (ex_derive_continuous S'). unfold S'. auto_derive.
      split; [|split; auto]; intros K; nra.
    + apply tends_plus; apply tends_scal; [apply tends_atan; auto|apply tends_frac; auto].
  - unfold S. replace (0 / p) with 0 by (field; lra). replace (0 / (0 ^ 2 + p ^ 2)) with 0 by (field; lra). rewrite atan_0.
    unfold a1, a2, W. field. repeat split; lra.
Qed.

Lemma lorentz_kk_one A B E e : 0 < B -> 0 < E -> 0 < e ->
  kramers_kronig (lorentz_absorption A B E) e (lorentz_re A B E e).
Proof.
  intros HB HE He. destruct (Rlt_dec (B ^ 2) (4 * E ^ 2)) as [L|L]; [apply lorentz_under; auto|].
  set (r := sqrt (B ^ 2 - 4 * E ^ 2)). assert (Hr2 : r ^ 2 = B ^ 2 - 4 * E ^ 2) by (unfold r; rewrite pow2_sqrt; lra).
  assert (Hr : 0 <= r) by apply sqrt_pos.
  assert (HrB : r < B) by nra.
  set (p := (B - r) / 2). set (q := (B + r) / 2).
  assert (Hp : 0 < p) by (unfold p; lra). assert (Hq : 0 < q) by (unfold q; lra).
  assert (Hs : B = p + q) by (unfold p, q; lra).
  assert (Hpq : p * q = E ^ 2) by (unfold p, q; nra).
  assert (HD : forall x, den E B x = (x ^ 2 + p ^ 2) * (x ^ 2 + q ^ 2)).
  { intros x. unfold den. rewrite <- Hpq, Hs. ring. }
  apply (kk_ext (fun x => A * (p + q) * x / ((x ^ 2 + p ^ 2) * (x ^ 2 + q ^ 2)))).
  { intros x. unfold lorentz_absorption. rewrite <- HD, <- Hs. f_equal. unfold den. ring. }
  unfold lorentz_re. rewrite HD, <- Hpq.
  destruct (Req_dec p q) as [Epq|Npq].
  - rewrite <- Epq. apply lorentz_critical; auto.
  - apply lorentz_over; auto.
Qed.

Lemma lorentz_term_parts A B E e : 0 < B -> 0 < E -> 0 < e ->
  exists v, lorentz_term e (A, B, E) = Some (lorentz_re A B E e, v).
Proof.
  intros HB HE He. unfold lorentz_term, cdivo.
  set (z := (RtoC (E ^ 2 - e ^ 2) - Ci * RtoC (B * e))%C).
  assert (Hz : z = (E ^ 2 - e ^ 2, - (B * e))).
  { unfold z, Cminus, Cplus, Copp, Cmult, RtoC, Ci; cbn [fst snd]. f_equal; ring. }
  assert (Hn : 0 < B * e) by (apply Rmult_lt_0_compat; auto).
  destruct Ceq_dec as [K|K].
  - exfalso. rewrite Hz in K. apply (f_equal snd) in K. unfold RtoC in K. simpl in K. lra.
  - exists (snd (RtoC A / z)%C). f_equal. rewrite (surjective_pairing (RtoC A / z)%C) at 1. f_equal.
    rewrite Hz. unfold Cdiv, Cinv, Cmult, RtoC; cbn [fst snd]. unfold lorentz_re, den.
    assert (0 <= (E ^ 2 - e ^ 2) ^ 2) by apply pow2_ge_0. assert (0 <= (e ^ 2 - E ^ 2) ^ 2) by apply pow2_ge_0.
    assert (0 < (B * e) ^ 2) by nra. field. repeat split; nra.
Qed.

Lemma lorentz_kramers_kronig os Einf e : 0 < e -> List.Forall (fun o => 0 < osc_B o /\ 0 < osc_E o) os ->
  exists z : C, lorentz_epsilon os Einf e = Some z /\
    kramers_kronig (fun xi => over_all (fun A B E => lorentz_absorption A B E xi) os) e (Re z - Einf).
Proof.
  intros He Hf.
  assert (HS : exists s : C, osum (map (lorentz_term e) os) = Some s /\
    kramers_kronig (fun xi => over_all (fun A B E => lorentz_absorption A B E xi) os) e (Re s)).
  { induction os as [|[[A B] E] os IH].
    - exists (RtoC 0). split; [reflexivity|]. unfold over_all. simpl. apply kk_zero.
    - inversion Hf as [|o l Ho Hl]. destruct (IH Hl) as [s [Es Ks]]. destruct Ho as [H1 H2].
      unfold osc_B, osc_E in H1, H2. cbn [fst snd] in H1, H2.
      destruct (lorentz_term_parts A B E e H1 H2 He) as [v Ev].
      exists ((lorentz_re A B E e, v) + s)%C. split.
      + cbn [map osum]. rewrite Ev, Es. reflexivity.
      + replace (Re ((lorentz_re A B E e, v) + s)%C) with (lorentz_re A B E e + Re s) by reflexivity.
        apply (kk_plus _ _ _ _ _ (lorentz_kk_one A B E e H1 H2 He) Ks). }
  destruct HS as [s [Es Ks]]. exists (s + RtoC Einf)%C. split; [unfold lorentz_epsilon; rewrite Es; reflexivity|].
  replace (Re (s + RtoC Einf)%C - Einf) with (Re s); auto. unfold Re, Cplus, RtoC; simpl. ring.
Qed.

(** the relation determines the real part *)
Lemma kk_unique im e re re' : kramers_kronig im e re -> kramers_kronig im e re' -> re = re'.
Proof.
  intros H H'. apply Rminus_diag_uniq. destruct (Req_dec (re - re') 0) as [|N]; auto. exfalso.
  set (eps := Rabs (re - re') / 2). assert (Hp : 0 < Rabs (re - re')) by (apply Rabs_pos_lt; auto).
  destruct (H eps ltac:(unfold eps; lra)) as (d0 & b0 & H1 & H2 & K).
  destruct (H' eps ltac:(unfold eps; lra)) as (d1 & b1 & H3 & H4 & K').
  pose proof (Rmin_l d0 d1). pose proof (Rmin_r d0 d1). assert (0 < Rmin d0 d1) by (apply Rmin_glb_lt; auto).
  destruct (K (Rmin d0 d1 / 2) (b0 + b1) ltac:(lra) ltac:(lra)) as (I & J & A & B & L).
  destruct (K' (Rmin d0 d1 / 2) (b0 + b1) ltac:(lra) ltac:(lra)) as (I' & J' & A' & B' & L').
  rewrite <- (is_RInt_unique _ _ _ _ A), <- (is_RInt_unique _ _ _ _ B) in L.
  rewrite <- (is_RInt_unique _ _ _ _ A'), <- (is_RInt_unique _ _ _ _ B') in L'.
  set (X := 2 / PI * _) in L. change (Rabs (X - re') < eps) in L'.
  assert (Rabs (re - re') <= Rabs (X - re') + Rabs (X - re)).
  { replace (re - re') with ((X - re') + - (X - re)) by ring. eapply Rle_trans; [apply Rabs_triang|]. rewrite Rabs_Ropp. lra. }
  unfold eps in *. lra.
Qed.

(** ** The claims *)
Lemma tl_kk_claim os g Einf e : 0 <= g -> 0 < e -> e <> g -> List.Forall tl_good os ->
  exists z : C, tl_epsilon os g Einf e = Some z /\
    Im z = over_all (fun A B E => tauc_lorentz_absorption A B E g e) os /\
    kramers_kronig (fun xi => over_all (fun A B E => tauc_lorentz_absorption A B E g xi) os) e (Re z - Einf).
Proof.
  intros Hg He Hne Hf. destruct (tl_kramers_kronig os g Einf e Hg He Hne Hf) as [z [Ez Kz]].
  exists z. split; [exact Ez|]. split; [apply (tl_Im os g Einf e z Ez)|exact Kz].
Qed.
Lemma lorentz_kk_claim os Einf e : 0 < e -> List.Forall (fun o => 0 < osc_B o /\ 0 < osc_E o) os ->
  exists z : C, lorentz_epsilon os Einf e = Some z /\
    Im z = over_all (fun A B E => lorentz_absorption A B E e) os /\
    kramers_kronig (fun xi => over_all (fun A B E => lorentz_absorption A B E xi) os) e (Re z - Einf).
Proof.
  intros He Hf. destruct (lorentz_kramers_kronig os Einf e He Hf) as [z [Ez Kz]].
  exists z. split; [exact Ez|]. split; [apply (lorentz_Im os Einf e z Ez)|exact Kz].
Qed.
