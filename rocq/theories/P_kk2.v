(** * The Tauc-Lorentz real part is the Kramers-Kronig transform of the imaginary part *)

Require Import Reals List Lra Psatz.
From Coquelicot Require Import Coquelicot.
From Verif Require Import Base Cplx M_ema M_disp Spec_disp P_disp P_disp2 Spec_kk P_kk.
Import ListNotations.
Open Scope R_scope.

Lemma tl_re_pv A c w g e : 0 < c -> 0 < w -> c ^ 2 <= 2 * w ^ 2 -> 0 <= g -> 0 < e -> e <> g ->
  tl_re A c w g e = A * w * c * (2 / PI * pv g w c (sqrt (4 * w ^ 2 - c ^ 2)) e).
Proof.
  intros Hc Hw Hcw Hg He Hne. pose proof PI_RGT_0 as HPI.
  assert (Ha : 0 < 4 * w ^ 2 - c ^ 2) by nra.
  pose proof (sqrt_lt_R0 _ Ha) as Hal.
  assert (Hal2 : sqrt (4 * w ^ 2 - c ^ 2) ^ 2 = 4 * w ^ 2 - c ^ 2) by (rewrite pow2_sqrt; lra).
  assert (Hga2 : sqrt (w ^ 2 - c ^ 2 / 2) ^ 2 = ga2 w c) by (unfold ga2; rewrite pow2_sqrt; lra).
  unfold tl_re. set (al := sqrt (4 * w ^ 2 - c ^ 2)) in *. cbv zeta.
  assert (HR : in_range w c al) by (repeat split; auto).
  pose proof (den_pos w c al e HR) as HE. pose proof (den_pos w c al g HR) as HG.
  destruct (q_pos w c al g HR) as [Q1 Q2].
  unfold tl_zeta4. rewrite Hga2.
  replace ((e ^ 2 - ga2 w c) ^ 2 + 1 / 4 * al ^ 2 * c ^ 2) with (den w c e) by (rewrite Hal2; unfold den, ga2; field).
  replace (w ^ 2 + g ^ 2 + al * g) with (qplus w al g) by (unfold qplus; ring).
  replace (w ^ 2 + g ^ 2 - al * g) with (qminus w al g) by (unfold qminus; ring).
  replace ((w ^ 2 - g ^ 2) ^ 2 + g ^ 2 * c ^ 2) with (den w c g) by (unfold den; ring).
  assert (Hab : 0 < Rabs (e - g)) by (apply Rabs_pos_lt; lra).
  rewrite (ln_div (qplus w al g)) by auto.
  rewrite (ln_div (Rabs (e - g))) by lra.
  rewrite (ln_div (Rabs (e - g) * (e + g))) by (try apply sqrt_lt_R0; auto; apply Rmult_lt_0_compat; lra).
  rewrite (ln_mult (Rabs (e - g))) by lra.
  assert (Hs : ln (sqrt (den w c g)) = ln (den w c g) / 2).
  { rewrite <- (sqrt_sqrt (den w c g)) at 2 by lra. rewrite ln_mult by (apply sqrt_lt_R0; auto). field. }
  rewrite Hs.
  replace (2 * (ga2 w c - g ^ 2) / al / c) with (- (2 * (g ^ 2 - ga2 w c) / (al * c))) by (field; lra).
  replace ((al - 2 * g) / c) with (- ((2 * g - al) / c)) by (field; lra).
  rewrite !atan_opp.
  unfold pv, Fat, smooth, bL, bT, bU.
  set (l1 := ln (qplus w al g)). set (l2 := ln (qminus w al g)). set (l3 := ln (den w c g)).
  set (l4 := ln (Rabs (e - g))). set (l5 := ln (e + g)).
  set (t1 := atan ((2 * g + al) / c)). set (t2 := atan ((2 * g - al) / c)).
  set (t3 := atan (2 * (g ^ 2 - ga2 w c) / (al * c))).
  clearbody l1 l2 l3 l4 l5 t1 t2 t3 al.
  unfold ca, cb, cD, cL, cT, cU, m0, m2, tl_a_ln, tl_a_atan, ga2.
  unfold den in *. field. repeat split; lra.
Qed.

Lemma tl_absorption_cut A c w g x : 0 < c -> 0 < w -> 0 <= g ->
  tauc_lorentz_absorption A c w g x = A * w * c * cut g w c x.
Proof.
  intros Hc Hw Hg. unfold tauc_lorentz_absorption, cut. destruct Rlt_dec as [L|L]; [|ring].
  assert (0 < den w c x). { unfold den. assert (0 <= (x ^ 2 - w ^ 2) ^ 2) by apply pow2_ge_0. assert (0 < c * x) by nra. nra. }
  replace ((x ^ 2 - w ^ 2) ^ 2 + c ^ 2 * x ^ 2) with (den w c x) by (unfold den; ring). field. lra.
Qed.

Definition tl_good (o : R * R * R) : Prop := 0 < osc_B o /\ 0 < osc_E o /\ osc_B o ^ 2 <= 2 * osc_E o ^ 2.

Lemma tl_one_kk A c w g e : tl_good (A, c, w) -> 0 <= g -> 0 < e -> e <> g ->
  kramers_kronig (fun xi => tauc_lorentz_absorption A c w g xi) e (tl_re A c w g e).
Proof.
  intros (Hc & Hw & Hcw) Hg He Hne. unfold osc_B, osc_E in *. cbn [fst snd] in *.
  rewrite tl_re_pv by auto.
  apply (kk_ext (fun xi => A * w * c * cut g w c xi)).
  { intros x. symmetry. apply tl_absorption_cut; auto. }
  apply kk_scal. apply cut_kk; auto.
  assert (Ha : 0 < 4 * w ^ 2 - c ^ 2) by nra.
  repeat split; auto; [apply sqrt_lt_R0; auto|]. rewrite pow2_sqrt; lra.
Qed.

Lemma tl_kk_sum os g e : 0 <= g -> 0 < e -> e <> g -> List.Forall tl_good os ->
  exists s : C, osum (map (tl_term g e) os) = Some s /\
    kramers_kronig (fun xi => over_all (fun A B E => tauc_lorentz_absorption A B E g xi) os) e (Re s).
Proof.
  intros Hg He Hne. induction os as [|[[A c] w] os IH]; intros Hf.
  - exists (RtoC 0). split; [reflexivity|]. simpl. unfold over_all. simpl. apply kk_zero.
  - inversion Hf as [|o l Ho Hl]. destruct (IH Hl) as [s [Es Ks]]. pose proof Ho as (H1 & H2 & H3).
    unfold osc_B, osc_E in H1, H2, H3. cbn [fst snd] in H1, H2, H3.
    destruct (tl_e2_defined A c w g e H1 He) as [v Ev].
    exists ((tl_re A c w g e, v) + s)%C. split.
    + cbn [map osum]. unfold tl_term at 1. rewrite tl_e1_defined by auto. cbn [obind]. rewrite Ev. cbn [obind].
      rewrite Es. reflexivity.
    + replace (Re ((tl_re A c w g e, v) + s)%C) with (tl_re A c w g e + Re s) by reflexivity.
      apply (kk_plus _ _ _ _ _ (tl_one_kk A c w g e Ho Hg He Hne) Ks).
Qed.

Lemma tl_kramers_kronig os g Einf e : 0 <= g -> 0 < e -> e <> g -> List.Forall tl_good os ->
  exists z : C, tl_epsilon os g Einf e = Some z /\
    kramers_kronig (fun xi => over_all (fun A B E => tauc_lorentz_absorption A B E g xi) os) e (Re z - Einf).
Proof.
  intros Hg He Hne Hf. destruct (tl_kk_sum os g e Hg He Hne Hf) as [s [Es Ks]].
  exists (s + RtoC Einf)%C. split; [unfold tl_epsilon; rewrite Es; reflexivity|].
  replace (Re (s + RtoC Einf)%C - Einf) with (Re s); auto. unfold Re, Cplus, RtoC; simpl. ring.
Qed.
