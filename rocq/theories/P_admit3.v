(** * Lemmas: psi and delta of quarter-wave mirrors *)

Require Import Reals Lra Lia Psatz List.
From Coquelicot Require Import Coquelicot.
Require Import List.
From Verif Require Import Base Cplx M_tmm Spec_optics Spec_admit P_tmm2 P_tmm3 P_psidelta P_psidelta2 P_film P_examples P_admit P_admit2.
Import ListNotations.
Open Scope R_scope.


Lemma s0_lt n0 aoi : 0 < n0 -> cos (rad aoi) <> 0 ->
  n0 * sin (rad aoi) * (n0 * sin (rad aoi)) < n0 * n0.
Proof.
  intros H0 HC. pose proof (sin2_cos2 (rad aoi)) as K. unfold Rsqr in K.
  assert (0 < cos (rad aoi) * cos (rad aoi)) by nra.
  replace (n0 * sin (rad aoi) * (n0 * sin (rad aoi))) with (n0 * n0 * (sin (rad aoi) * sin (rad aoi))) by ring.
  assert (0 < n0 * n0) by nra. nra.
Qed.

Lemma real_angles (rs rp : R) : rs <> 0 -> rp <> 0 ->
  ellipsometric (RtoC rs) (RtoC rp) (atan (Rabs (rp / rs)) * (180 / PI)) (if Rlt_dec (rp * rs) 0 then 180 else 360).
Proof.
  intros N1 N2. unfold ellipsometric. rewrite deg_rad, tan_atan, <- RtoC_div by auto.
  pose proof PI_RGT_0 as HP.
  assert (E : forall x, (- (Ci * RtoC x))%C = (0, - x)) by (intros x; apply C_eq; simpl; ring).
  rewrite E. unfold cexp. cbn [Re Im fst snd]. rewrite exp_0.
  assert (Q : rp / rs = rp * rs / (rs * rs)) by (field; auto).
  assert (P : 0 < rs * rs) by nra.
  destruct (Rlt_dec (rp * rs) 0) as [G|G].
  - replace (rad 180) with PI by (unfold rad; field). rewrite cos_neg, sin_neg, cos_PI, sin_PI.
    assert (rp / rs < 0).
    { rewrite Q. unfold Rdiv. apply Ropp_lt_cancel. rewrite Ropp_0, Ropp_mult_distr_l.
      apply Rmult_lt_0_compat; [lra|]. apply Rinv_0_lt_compat; auto. }
    rewrite Rabs_left by auto. apply C_eq; cbn [Cmult RtoC Re Im fst snd]; ring.
  - replace (rad 360) with (2 * PI) by (unfold rad; field). rewrite cos_neg, sin_neg, cos_2PI, sin_2PI.
    assert (0 <= rp / rs).
    { rewrite Q. unfold Rdiv. apply Rmult_le_pos; [lra|]. left. apply Rinv_0_lt_compat; auto. }
    rewrite Rabs_pos_eq by auto. apply C_eq; cbn [Cmult RtoC Re Im fst snd]; ring.
Qed.

Theorem mirror_angles tA rA tB rB n0 nH dH rH nL dL rL nB aoi w off N :
  quarter_mirror n0 nH dH nL dL nB aoi w ->
  let rs := mirror_r pS n0 nH nL nB aoi N in
  let rp := mirror_r pP n0 nH nL nB aoi N in
  rs <> 0 -> rp <> 0 ->
  fst (Delta_Psi_TMM [aoi] (table tA (RtoC n0) rA (periods N nH dH rH nL dL rL) tB (RtoC nB) rB) w off false) =
  Ok [(Some (atan (Rabs (rp / rs)) * (180 / PI)), Some (off + (if Rlt_dec (rp * rs) 0 then 180 else 360)))].
Proof.
  intros Q rs rp N1 N2.
  destruct (mirror_amplitudes n0 nH dH rH nL dL rL nB aoi w N Q) as (ts & tp & H).
  fold (mirror_r pS n0 nH nL nB aoi N) in H. fold (mirror_r pP n0 nH nL nB aoi N) in H. fold rs rp in H.
  destruct (table_encodes tA rA tB rB (RtoC n0) (RtoC nB) (periods N nH dH rH nL dL rL) aoi w off (RtoC rs) ts (RtoC rp) tp H)
    as (psi & delta & E & _ & _ & _ & U).
  { intros Z; apply RtoC_inj in Z; auto. }
  { intros Z; apply RtoC_inj in Z; auto. }
  rewrite E.
  destruct (U (atan (Rabs (rp / rs)) * (180 / PI)) (if Rlt_dec (rp * rs) 0 then 180 else 360)) as [U1 U2].
  - pose proof PI_RGT_0 as HP. pose proof (atan_bound (Rabs (rp / rs))) as B.
    assert (0 <= atan (Rabs (rp / rs))).
    { rewrite <- atan_0. destruct (Rabs_pos (rp / rs)) as [L|L]; [left; apply atan_increasing; auto|rewrite <- L; lra]. }
    split.
    + apply Rmult_le_pos; auto. left. apply Rdiv_lt_0_compat; lra.
    + apply Rlt_le_trans with (PI / 2 * (180 / PI)); [|right; field; lra].
      apply Rmult_lt_compat_r; [apply Rdiv_lt_0_compat; lra|lra].
  - destruct Rlt_dec; lra.
  - apply real_angles; auto.
  - rewrite U1, U2. replace (off + (delta - off)) with delta by ring. reflexivity.
Qed.

(** ** Many periods *)
Lemma mismatch_lim_big y0 y q : 0 < y0 -> 0 < y -> 1 < q ->
  is_lim_seq (fun N => mismatch y0 (q ^ N * y)) (-1).
Proof.
  intros H0 Hy Hq.
  assert (E : forall N, (2 * y0 / y) * / (q ^ N) / (1 + (y0 / y) * / q ^ N) - 1 = mismatch y0 (q ^ N * y)).
  { intros N. assert (0 < q ^ N) by (apply pow_lt; lra). assert (0 < q ^ N * y) by (apply Rmult_lt_0_compat; auto).
    unfold mismatch. field. repeat split; nra. }
  eapply is_lim_seq_ext; [exact E|].
  assert (L : is_lim_seq (fun N => / q ^ N) 0).
  { eapply is_lim_seq_ext; [|apply (is_lim_seq_geom (/ q))].
    - intros N. cbv beta. rewrite <- Rinv_pow by lra. reflexivity.
    - rewrite Rabs_right; [|left; apply Rinv_0_lt_compat; lra]. rewrite <- Rinv_1. apply Rinv_lt_contravar; lra. }
  replace (Finite (-1)) with (Finite (2 * y0 / y * 0 / (1 + y0 / y * 0) - 1)) by (f_equal; field; lra).
  apply is_lim_seq_minus'; [|apply is_lim_seq_const].
  apply is_lim_seq_div'; [apply (is_lim_seq_scal_l _ _ 0); auto| |lra].
  apply is_lim_seq_plus'; [apply is_lim_seq_const|apply (is_lim_seq_scal_l _ _ 0); auto].
Qed.
Lemma mismatch_lim_small y0 y q : 0 < y0 -> 0 < y -> 0 < q < 1 ->
  is_lim_seq (fun N => mismatch y0 (q ^ N * y)) 1.
Proof.
  intros H0 Hy Hq. unfold mismatch.
  assert (L : is_lim_seq (fun N => q ^ N) 0).
  { apply is_lim_seq_geom. rewrite Rabs_right; lra. }
  assert (L' : is_lim_seq (fun N => q ^ N * y) (0 * y)) by (apply (is_lim_seq_scal_r _ y 0); auto).
  replace (Finite 1) with (Finite ((y0 - 0 * y) / (y0 + 0 * y))) by (f_equal; field; lra).
  apply is_lim_seq_div'; [apply is_lim_seq_minus'|apply is_lim_seq_plus'|lra]; auto; apply is_lim_seq_const.
Qed.

Lemma ratio_pow p s nH nL nB N : mirror_admittance p s nH nL nB N =
  (tilted p s nH / tilted p s nL * (tilted p s nH / tilted p s nL)) ^ N * tilted p s nB.
Proof. unfold mirror_admittance. rewrite pow_mult. do 2 f_equal. ring. Qed.

Lemma sq_gt1 a b : 0 < b -> b < a -> 1 < a / b * (a / b).
Proof.
  intros Hb H. assert (1 < a / b) by (apply Rlt_div_r; lra). nra.
Qed.
Lemma sq_lt1 a b : 0 < a -> a < b -> 0 < a / b * (a / b) < 1.
Proof.
  intros Ha H. assert (0 < a / b) by (apply Rdiv_lt_0_compat; lra).
  assert (a / b < 1) by (apply Rlt_div_l; lra). nra.
Qed.

Lemma normal_lt s a b : s * s < a * a -> 0 < a -> a < b -> normal s a < normal s b.
Proof. intros H1 H2 H3. apply sqrt_lt_1; nra. Qed.

Lemma brewster_p s nH nL : 0 < nL -> nL < nH -> s * s < nL * nL ->
  s * s * (nH * nH + nL * nL) < nH * nH * (nL * nL) -> tilted pP s nH < tilted pP s nL.
Proof.
  intros HL LH SL B. unfold tilted. assert (SH : s * s < nH * nH) by nra.
  pose proof (normal_pos s nH SH) as PH. pose proof (normal_pos s nL SL) as PL.
  pose proof (normal_sq s nH SH) as QH. pose proof (normal_sq s nL SL) as QL.
  set (qH := normal s nH) in *. set (qL := normal s nL) in *. clearbody qH qL.
  set (h := nH * nH) in *. set (l := nL * nL) in *. set (z := s * s) in *.
  assert (Hl : 0 < l) by (unfold l; nra). assert (Hh : l < h) by (unfold h, l; nra). clearbody h l z.
  apply Rlt_div_l; [lra|]. replace (qL / l * h) with (qL * h / l) by (field; lra). apply Rlt_div_r; [lra|].
  apply Rnot_le_lt. intros G.
  assert (X : qL * h * (qL * h) <= qH * l * (qH * l)).
  { apply Rmult_le_compat; auto; apply Rmult_le_pos; lra. }
  assert (Y : (l - z) * h * h <= (h - z) * l * l) by (rewrite <- QH, <- QL; lra).
  assert (Zz : 0 < (h - l) * (h * l - z * (h + l))) by (apply Rmult_lt_0_compat; lra).
  lra.
Qed.
Lemma brewster_p' s nH nL : 0 < nL -> nL < nH -> s * s < nL * nL ->
  nH * nH * (nL * nL) < s * s * (nH * nH + nL * nL) -> tilted pP s nL < tilted pP s nH.
Proof.
  intros HL LH SL B. unfold tilted. assert (SH : s * s < nH * nH) by nra.
  pose proof (normal_pos s nH SH) as PH. pose proof (normal_pos s nL SL) as PL.
  pose proof (normal_sq s nH SH) as QH. pose proof (normal_sq s nL SL) as QL.
  set (qH := normal s nH) in *. set (qL := normal s nL) in *. clearbody qH qL.
  set (h := nH * nH) in *. set (l := nL * nL) in *. set (z := s * s) in *.
  assert (Hl : 0 < l) by (unfold l; nra). assert (Hh : l < h) by (unfold h, l; nra). clearbody h l z.
  apply Rlt_div_l; [lra|]. replace (qH / h * l) with (qH * l / h) by (field; lra). apply Rlt_div_r; [lra|].
  apply Rnot_le_lt. intros G.
  assert (X : qH * l * (qH * l) <= qL * h * (qL * h)).
  { apply Rmult_le_compat; auto; apply Rmult_le_pos; lra. }
  assert (Y : (h - z) * l * l <= (l - z) * h * h) by (rewrite <- QH, <- QL; lra).
  assert (Zz : 0 < (h - l) * (z * (h + l) - h * l)) by (apply Rmult_lt_0_compat; lra).
  lra.
Qed.
Lemma brewster_eq s nH nL : 0 < nL -> nL < nH -> s * s < nL * nL ->
  s * s * (nH * nH + nL * nL) = nH * nH * (nL * nL) -> tilted pP s nH = tilted pP s nL.
Proof.
  intros HL LH SL B. unfold tilted. assert (SH : s * s < nH * nH) by nra.
  pose proof (normal_pos s nH SH) as PH. pose proof (normal_pos s nL SL) as PL.
  pose proof (normal_sq s nH SH) as QH. pose proof (normal_sq s nL SL) as QL.
  set (qH := normal s nH) in *. set (qL := normal s nL) in *. clearbody qH qL.
  set (h := nH * nH) in *. set (l := nL * nL) in *. set (z := s * s) in *.
  assert (Hl : 0 < l) by (unfold l; nra). assert (Hh : l < h) by (unfold h, l; nra). clearbody h l z.
  assert (Y : qL * h * (qL * h) = qH * l * (qH * l)).
  { transitivity (h * h * (qL * qL)); [ring|]. transitivity (l * l * (qH * qH)); [|ring]. rewrite QH, QL.
    assert (Zz : (h - l) * (h * l - z * (h + l)) = 0) by (rewrite B; ring). lra. }
  assert (W : qL * h = qH * l).
  { assert (F : (qL * h - qH * l) * (qL * h + qH * l) = 0) by lra.
    assert (0 < qL * h + qH * l) by (apply Rplus_lt_0_compat; apply Rmult_lt_0_compat; lra).
    apply Rmult_integral in F as [F|F]; lra. }
  transitivity (qH * l / (h * l)); [field; lra|]. rewrite <- W. field. lra.
Qed.

Lemma atan_lim (rs rp : nat -> R) (a b : R) : is_lim_seq rs a -> is_lim_seq rp b -> Rabs a = 1 -> Rabs b = 1 ->
  is_lim_seq (fun N => atan (Rabs (rp N / rs N)) * (180 / PI)) 45.
Proof.
  intros La Lb Ha Hb. pose proof PI_RGT_0 as HP.
  replace (Finite 45) with (Finite (PI / 4 * (180 / PI))) by (f_equal; field; lra).
  assert (L : is_lim_seq (fun N => Rabs (rp N / rs N)) 1).
  { assert (a <> 0) by (intros Z; rewrite Z, Rabs_R0 in Ha; lra).
    pose proof (is_lim_seq_div' _ _ _ _ Lb La H) as L. apply is_lim_seq_abs in L. cbn [Rbar_abs] in L.
    unfold Rdiv in L at 2. rewrite Rabs_mult, Rabs_inv, Ha, Hb, Rinv_1, Rmult_1_r in L. exact L. }
  apply (is_lim_seq_scal_r _ (180 / PI) (PI / 4)). rewrite <- atan_1.
  apply (is_lim_seq_continuous atan (fun N => Rabs (rp N / rs N)) 1); auto.
  apply derivable_continuous_pt, derivable_pt_atan.
Qed.

Lemma lim_away (u : nat -> R) (a b : R) : is_lim_seq u a -> b < a -> exists N0, forall N, (N0 <= N)%nat -> b < u N.
Proof.
  intros L H. apply is_lim_seq_spec in L. cbn in L.
  destruct (L (mkposreal (a - b) ltac:(lra))) as [N0 K]. exists N0. intros N HN. specialize (K N HN). cbn in K.
  apply Rabs_def2 in K. lra.
Qed.
Lemma lim_below (u : nat -> R) (a b : R) : is_lim_seq u a -> a < b -> exists N0, forall N, (N0 <= N)%nat -> u N < b.
Proof.
  intros L H. apply is_lim_seq_spec in L. cbn in L.
  destruct (L (mkposreal (b - a) ltac:(lra))) as [N0 K]. exists N0. intros N HN. specialize (K N HN). cbn in K.
  apply Rabs_def2 in K. lra.
Qed.
Lemma lim_close (u : nat -> R) (a eps : R) : is_lim_seq u a -> 0 < eps -> exists N0, forall N, (N0 <= N)%nat -> Rabs (u N - a) < eps.
Proof.
  intros L H. apply is_lim_seq_spec in L. cbn in L. destruct (L (mkposreal eps H)) as [N0 K]. exists N0. exact K.
Qed.

Section Limits.
Context (n0 nH dH nL dL nB aoi w : R) (Q : quarter_mirror n0 nH dH nL dL nB aoi w) (LH : nL < nH).

Lemma rs_lim : is_lim_seq (mirror_r pS n0 nH nL nB aoi) (-1).
Proof.
  destruct Q as ((H0 & HH & HL & HB & Hw) & HC & (SH & SL & SB) & _).
  pose proof (s0_lt n0 aoi H0 HC) as S0. unfold mirror_r. set (s := n0 * sin (rad aoi)) in *.
  eapply is_lim_seq_ext; [intros N; symmetry; rewrite ratio_pow; reflexivity|].
  apply mismatch_lim_big; [apply y_pos; auto|apply y_pos; auto|].
  apply sq_gt1; [apply (y_pos pS); auto|]. apply normal_lt; auto.
Qed.

Lemma rp_lim_below : let s := n0 * sin (rad aoi) in
  s * s * (nH * nH + nL * nL) < nH * nH * (nL * nL) -> is_lim_seq (mirror_r pP n0 nH nL nB aoi) 1.
Proof.
  intros s BR. destruct Q as ((H0 & HH & HL & HB & Hw) & HC & (SH & SL & SB) & _).
  pose proof (s0_lt n0 aoi H0 HC) as S0. unfold mirror_r. fold s in SH, SL, SB, S0 |- *.
  eapply is_lim_seq_ext; [intros N; symmetry; rewrite ratio_pow; reflexivity|].
  apply mismatch_lim_small; [apply y_pos; auto|apply y_pos; auto|].
  apply sq_lt1; [apply (y_pos pP); auto|]. apply brewster_p; auto.
Qed.

Lemma rp_lim_above : let s := n0 * sin (rad aoi) in
  nH * nH * (nL * nL) < s * s * (nH * nH + nL * nL) -> is_lim_seq (mirror_r pP n0 nH nL nB aoi) (-1).
Proof.
  intros s BR. destruct Q as ((H0 & HH & HL & HB & Hw) & HC & (SH & SL & SB) & _).
  pose proof (s0_lt n0 aoi H0 HC) as S0. unfold mirror_r. fold s in SH, SL, SB, S0 |- *.
  eapply is_lim_seq_ext; [intros N; symmetry; rewrite ratio_pow; reflexivity|].
  apply mismatch_lim_big; [apply y_pos; auto|apply y_pos; auto|].
  apply sq_gt1; [apply (y_pos pP); auto|]. apply brewster_p'; auto.
Qed.
End Limits.

Theorem many_periods tA rA tB rB n0 nH dH rH nL dL rL nB aoi w off eps :
  quarter_mirror n0 nH dH nL dL nB aoi w -> nL < nH -> 0 < eps ->
  let s := n0 * sin (rad aoi) in
  let reads N psi delta :=
    fst (Delta_Psi_TMM [aoi] (table tA (RtoC n0) rA (periods N nH dH rH nL dL rL) tB (RtoC nB) rB) w off false) =
    Ok [(Some psi, Some delta)] in
  (s * s * (nH * nH + nL * nL) < nH * nH * (nL * nL) ->
   exists N0, forall N, (N0 <= N)%nat -> exists psi, reads N psi (off + 180) /\ Rabs (psi - 45) < eps) /\
  (nH * nH * (nL * nL) < s * s * (nH * nH + nL * nL) ->
   exists N0, forall N, (N0 <= N)%nat -> exists psi, reads N psi (off + 360) /\ Rabs (psi - 45) < eps).
Proof.
  intros Q LH He s reads.
  pose proof (rs_lim n0 nH dH nL dL nB aoi w Q LH) as Ls.
  destruct (lim_below _ _ 0 Ls ltac:(lra)) as [N1 K1].
  split; intros B.
  - pose proof (rp_lim_below n0 nH dH nL dL nB aoi w Q LH B) as Lp.
    destruct (lim_away _ _ 0 Lp ltac:(lra)) as [N2 K2].
    pose proof (atan_lim _ _ _ _ Ls Lp ltac:(rewrite Rabs_left; lra) ltac:(rewrite Rabs_right; lra)) as L.
    destruct (lim_close _ _ eps L He) as [N3 K3].
    exists (N1 + N2 + N3)%nat. intros N HN. specialize (K1 N ltac:(lia)). specialize (K2 N ltac:(lia)). specialize (K3 N ltac:(lia)).
    eexists. split; [|exact K3]. unfold reads. rewrite mirror_angles; auto; try lra.
    destruct Rlt_dec as [G|G]; [reflexivity|]. exfalso. nra.
  - pose proof (rp_lim_above n0 nH dH nL dL nB aoi w Q LH B) as Lp.
    destruct (lim_below _ _ 0 Lp ltac:(lra)) as [N2 K2].
    pose proof (atan_lim _ _ _ _ Ls Lp ltac:(rewrite Rabs_left; lra) ltac:(rewrite Rabs_left; lra)) as L.
    destruct (lim_close _ _ eps L He) as [N3 K3].
    exists (N1 + N2 + N3)%nat. intros N HN. specialize (K1 N ltac:(lia)). specialize (K2 N ltac:(lia)). specialize (K3 N ltac:(lia)).
    eexists. split; [|exact K3]. unfold reads. rewrite mirror_angles; auto; try lra.
    destruct Rlt_dec as [G|G]; [|reflexivity]. exfalso. nra.
Qed.

Theorem brewster_stack n0 nH dH rH nL dL rL nB aoi w N :
  quarter_mirror n0 nH dH nL dL nB aoi w -> nL < nH ->
  let s := n0 * sin (rad aoi) in
  s * s * (nH * nH + nL * nL) = nH * nH * (nL * nL) ->
  exists amps amps' rp tp tp',
  coh_tmm (ns (RtoC n0) (nm (periods N nH dH rH nL dL rL)) (RtoC nB))
          (ds PInf (nm (periods N nH dH rH nL dL rL)) PInf) [(rad aoi, w)] = Ok [amps] /\
  coh_tmm (ns (RtoC n0) [] (RtoC nB)) (ds PInf [] PInf) [(rad aoi, w)] = Ok [amps'] /\
  amp_p amps = Some (rp, tp) /\ amp_p amps' = Some (rp, tp').
Proof.
  intros Q LH s B.
  destruct (mirror_amplitudes n0 nH dH rH nL dL rL nB aoi w N Q) as (ts & tp & H).
  destruct (mirror_amplitudes n0 nH dH rH nL dL rL nB aoi w 0 Q) as (ts' & tp' & H').
  destruct Q as ((H0 & HH & HL & HB & Hw) & HC & (SH & SL & SB) & _). fold s in SH, SL, SB.
  rewrite nm_periods in H'. cbn [repeat concat] in H'.
  eexists _, _, _, tp, tp'. split; [exact H|]. split; [exact H'|]. cbn [amp_p]. split; [reflexivity|].
  do 4 f_equal. fold s. rewrite !ratio_pow, (brewster_eq s nH nL) by auto.
  pose proof (y_pos pP s nL HL SL) as Y.
  replace (tilted pP s nL / tilted pP s nL * (tilted pP s nL / tilted pP s nL)) with 1 by (field; lra).
  rewrite !pow1. reflexivity.
Qed.

