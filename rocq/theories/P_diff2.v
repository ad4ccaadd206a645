(** * Slopes of psi and delta *)

Require Import Reals.
From Coquelicot Require Import Coquelicot.
Require Import List Bool Arith ZArith Lra Lia Psatz.
From Verif Require Import Base Cplx M_tmm M_objective Spec_optics P_tmm P_tmm2 P_tmm3 P_tmm4 P_psidelta P_psidelta2 P_ident2 P_cont P_cont2 Spec_diff P_diff.
Import ListNotations.
Open Scope R_scope.
Open Scope C_scope.

Lemma slope_of (g : R -> option R) (q : R -> R) x : locally x (fun y => g y = Some (q y)) -> ex_derive q x -> slopes g x.
Proof.
  intros L [l D]. exists l. exists (q x). split; [exact (locally_singleton _ _ L)|]. apply is_derive_Reals in D. intros eps He.
  destruct (D eps He) as [del Hd]. destruct L as [e L]. exists (Rmin del e). split; [apply Rmin_glb_lt; [apply cond_pos|apply cond_pos]|].
  intros h Hn Hh. exists (q (x + h)%R). split.
  - apply L. change (Rabs (x + h - x) < e)%R. replace (x + h - x)%R with h by ring. eapply Rlt_le_trans; [exact Hh|apply Rmin_r].
  - apply Hd; [exact Hn|]. eapply Rlt_le_trans; [exact Hh|apply Rmin_l].
Qed.

Lemma circ_acos a d : (0 <= a <= 360)%R -> (0 <= d <= 360)%R ->
  (0 <= circular_distance a d 360 <= 180)%R /\ circular_distance a d 360 = (acos (cos (rad (a - d))) * (180 / PI))%R.
Proof.
  intros HA HD. pose proof PI_RGT_0 as PP. set (t := circular_distance a d 360).
  assert (T : (0 <= t <= 180)%R /\ cos (rad t) = cos (rad (a - d))).
  { unfold t, circular_distance, Rmin, Rabs.
    destruct (Rcase_abs (a - d)) as [n|n];
    match goal with |- context [Rle_dec ?u ?v] => destruct (Rle_dec u v) end; (split; [lra|]).
    - rewrite <- cos_neg. f_equal. unfold rad. ring.
    - rewrite <- (cos_period (rad (a - d)) 1). f_equal. unfold rad. simpl. field.
    - reflexivity.
    - rewrite <- cos_neg. rewrite <- (cos_period (- _) 1). f_equal. unfold rad. simpl. field. }
  destruct T as [T0 T1]. split; [exact T0|]. rewrite <- T1, acos_cos.
  - unfold rad. field. lra.
  - unfold rad. split; nra.
Qed.
Lemma diff_acos u : (-1 < u < 1)%R -> ex_derive acos u.
Proof. intros H. apply ex_derive_Reals_1. apply derivable_pt_acos. exact H. Qed.
Lemma carg_cos a (z : C) : z <> 0 -> cos (rad (a - (carg z + PI) * (180 / PI))) = (- (cos (rad a) * Re z + sin (rad a) * Im z) / Cmod z)%R.
Proof.
  intros H. pose proof PI_RGT_0 as PP. replace (rad (a - (carg z + PI) * (180 / PI))) with (rad a - carg z - PI)%R by (unfold rad; field; lra).
  destruct (carg_dir z H) as [C1 S1]. pose proof (Cmod_pos z H) as M.
  rewrite cos_minus, cos_PI, sin_PI, cos_minus, C1, S1. field. lra.
Qed.
Lemma circ_diff (z : R -> C) x a : cdiff z x -> z x <> 0 -> (0 <= a <= 360)%R ->
  let c := fun y => circular_distance a ((carg (z y) + PI) * (180 / PI)) 360 in
  (0 < c x < 180)%R -> ex_derive c x.
Proof.
  intros D N HA c HX. pose proof PI_RGT_0 as PP.
  assert (DR : forall y, (0 <= (carg (z y) + PI) * (180 / PI) <= 360)%R).
  { intros y. pose proof (carg_bounds (z y)). assert (C180 : (0 < 180 / PI)%R) by (apply Rdiv_lt_0_compat; lra).
    assert (PI2 : (PI * (180 / PI) = 180)%R) by (field; lra). split; nra. }
  set (g := fun y => (- (cos (rad a) * Re (z y) + sin (rad a) * Im (z y)) / Cmod (z y))%R).
  assert (G : forall y, z y <> 0 -> c y = (acos (g y) * (180 / PI))%R).
  { intros y Ny. unfold c. rewrite (proj2 (circ_acos a _ HA (DR y))), carg_cos by exact Ny. reflexivity. }
  assert (GC : forall y, z y <> 0 -> cos (rad (c y)) = g y).
  { intros y Ny. unfold c. rewrite (proj2 (circ_acos a _ HA (DR y))). rewrite carg_cos by exact Ny. fold (g y).
    replace (rad (acos (g y) * (180 / PI))) with (acos (g y)) by (unfold rad; field; lra). apply cos_acos.
    unfold g. rewrite <- carg_cos by exact Ny. apply COS_bound. }
  assert (GX : (-1 < g x < 1)%R).
  { rewrite <- (GC x N). assert (RX : (0 < rad (c x) < PI)%R) by (unfold rad; split; nra). rewrite <- cos_PI, <- cos_0.
    split; apply cos_decreasing_1; lra. }
  apply ex_derive_ext_loc with (fun y => (acos (g y) * (180 / PI))%R).
  - apply filter_imp with (2 := nz_near z x (cdiff_ccont _ _ D) N). intros y Ny. symmetry. apply G. exact Ny.
  - apply ex_derive_mult; [|apply ex_derive_const]. apply (diff_comp acos); [apply diff_acos; exact GX|].
    destruct D as [DA DB]. unfold g. apply ex_derive_div; [|apply cmod_diff; [exact N|split; assumption]|pose proof (Cmod_pos _ N); lra].
    apply (ex_derive_opp (V := R_NormedModule)). apply (ex_derive_plus (V := R_NormedModule)); apply ex_derive_mult; auto; apply ex_derive_const.
Qed.

Lemma half_circ v u m : (0 < v < 360)%R -> (0 < u <= 360)%R -> (m <= v / 2)%R -> (m <= (360 - v) / 2)%R -> (Rabs (circular_distance v u 360) < m)%R ->
  (circular_distance (v / 2) u 360 + v / 2 = u)%R.
Proof.
  intros V U M1 M2 H. assert (E : circular_distance v u 360 = Rabs (v - u)).
  { unfold circular_distance in *. apply Rmin_left. apply Rnot_lt_le. intros K. rewrite Rmin_right in H by lra.
    revert H K. unfold Rabs. destruct (Rcase_abs (v - u)); destruct (Rcase_abs _); lra. }
  rewrite E, Rabs_Rabsolu in H. apply Rabs_def2 in H. unfold circular_distance. rewrite (Rabs_left (v / 2 - u)) by lra. rewrite Rmin_left by lra. lra.
Qed.

Section stack.
  Context (tA rA tB rB : R) (nA : R -> C) (F : films) (nB : R -> C) (aoi w off x : R) (rs ts rp tp : C).
  Let T (y : R) := table tA (nA y) rA (film_of F y) tB (nB y) rB.
  Context (HS : smooth_stack nA F nB (rad aoi) w x).
  Context (HC : coh_tmm (ns (RtoC (Re (nA x))) (nm (film_of F x)) (nB x)) (ds PInf (nm (film_of F x)) PInf) [(rad aoi, w)]
    = Ok [mkAmp (Some (rs, ts)) (Some (rp, tp))]).
  Context (NS : rs <> 0) (NP : rp <> 0).

  Lemma on_one refl y : (psi_on T aoi w off refl y, delta_on T aoi w off refl y) = DP_one (nA y) (film_of F y) (nB y) w off refl aoi.
  Proof. unfold psi_on, delta_on, T. rewrite DP_map. cbn [map]. destruct (DP_one _ _ _ _ _ _ _). reflexivity. Qed.

  Lemma amps : exists fs gs fp gp : R -> C, fs x = rs /\ fp x = rp /\ cdiff fs x /\ cdiff fp x /\
    locally x (fun y => fs y <> 0 /\ fp y <> 0 /\
      tmm_point (ns (RtoC (Re (nA y))) (nm (film_of F y)) (nB y)) (ds PInf (nm (film_of F y)) PInf) true (rad aoi) w = mkAmp (Some (fs y, gs y)) (Some (fp y, gp y))).
  Proof.
    pose proof HC as H. rewrite coh_tmm_real_ok in H. cbn [map fst snd] in H. set (a := tmm_point _ _ _ _ _) in H.
    assert (A : a = mkAmp (Some (rs, ts)) (Some (rp, tp))) by congruence.
    assert (AS : amp pS a = Some (rs, ts)) by (rewrite A; reflexivity). assert (AP : amp pP a = Some (rp, tp)) by (rewrite A; reflexivity).
    destruct HS as (S1 & S2 & S3 & S4). pose proof (cdiff_RtoC _ x S1) as S0.
    destruct (amp_diff pS (fun y => RtoC (Re (nA y))) F nB PInf PInf (rad aoi) w x rs ts S0 S2 S3 S4 AS) as (fs & gs & X1 & D1 & L1).
    destruct (amp_diff pP (fun y => RtoC (Re (nA y))) F nB PInf PInf (rad aoi) w x rp tp S0 S2 S3 S4 AP) as (fp & gp & X2 & D2 & L2).
    exists fs, gs, fp, gp. split; [exact X1|]. split; [exact X2|]. split; [exact D1|]. split; [exact D2|].
    assert (N1 : locally x (fun y => fs y <> 0)) by (apply nz_near; [apply cdiff_ccont; exact D1|rewrite X1; exact NS]).
    assert (N2 : locally x (fun y => fp y <> 0)) by (apply nz_near; [apply cdiff_ccont; exact D2|rewrite X2; exact NP]).
    apply filter_imp with (2 := filter_and _ _ (filter_and _ _ N1 N2) (filter_and _ _ L1 L2)). intros y ((Y1 & Y2) & Y3 & Y4). split; [exact Y1|]. split; [exact Y2|].
    rewrite <- Y3, <- Y4. unfold amp. match goal with |- ?t = _ => destruct t; reflexivity end.
  Qed.

  Theorem psi_slope refl : slopes (psi_on T aoi w off refl) x.
  Proof.
    destruct amps as (fs & gs & fp & gp & X1 & X2 & D1 & D2 & L).
    assert (N1 : fs x <> 0) by (rewrite X1; exact NS). assert (N2 : fp x <> 0) by (rewrite X2; exact NP).
    assert (Q : cdiff (fun y => fp y / fs y) x) by exact (cdiff_div _ _ x N1 D2 D1).
    assert (QN : fp x / fs x <> 0). { intros E. apply N2. transitivity (fp x / fs x * fs x); [field; exact N1|rewrite E; ring]. }
    apply slope_of with (fun y => (atan (Cmod (fp y / fs y)%C) * (180 / PI))%R).
    - apply filter_imp with (2 := L). intros y (Y1 & Y2 & Y3). pose proof (on_one refl y) as O. unfold DP_one, psi_delta in O.
      cbn [amp] in *. rewrite Y3 in O. cbn [amp amp_s amp_p] in O. unfold psi_of in O. destruct (Ceq_dec (fs y) 0); [contradiction|]. congruence.
    - apply ex_derive_mult; [|apply ex_derive_const]. apply (diff_comp atan); [apply diff_atan|]. exact (cmod_diff _ x QN Q).
  Qed.

  Lemma delta_form refl : exists z : R -> C, cdiff z x /\ z x <> 0 /\
    locally x (fun y => z y <> 0 /\ let d := (carg (z y) + PI)%R in
      delta_on T aoi w off refl y = Some ((if refl then (if Rlt_dec PI d then 2 * PI - d else d) else d) * (180 / PI) + off)%R).
  Proof.
    destruct amps as (fs & gs & fp & gp & X1 & X2 & D1 & D2 & L).
    assert (N1 : fs x <> 0) by (rewrite X1; exact NS). assert (N2 : fp x <> 0) by (rewrite X2; exact NP).
    assert (QN : forall y, fs y <> 0 -> fp y <> 0 -> - fp y / fs y <> 0).
    { intros y A1 A2 E. apply A2. transitivity (- (- fp y / fs y * fs y)); [field; auto|rewrite E; ring]. }
    assert (ZN : forall y, fs y <> 0 -> fp y <> 0 -> 1 / (- fp y / fs y) <> 0).
    { intros y A1 A2 E. apply C1_neq_0. transitivity (1 / (- fp y / fs y) * (- fp y / fs y)); [|rewrite E; ring].
      set (q := - fp y / fs y). assert (q <> 0) by (apply QN; auto). field. auto. }
    exists (fun y => 1 / (- fp y / fs y)). split; [|split; [apply ZN; auto|]].
    - exact (cdiff_div _ _ x (QN x N1 N2) (cdiff_const 1 x) (cdiff_div _ _ x N1 (cdiff_opp _ x D2) D1)).
    - apply filter_imp with (2 := L). intros y (Y1 & Y2 & Y3). split; [apply ZN; auto|]. intros d. pose proof (on_one refl y) as O. unfold DP_one, psi_delta in O.
      rewrite Y3 in O. cbn [amp amp_s amp_p] in O. unfold delta_of in O. rewrite cdiv_some in O by auto. cbn [obind] in O. rewrite cdiv_some in O by (apply QN; auto).
      cbn [obind] in O. fold d in O. destruct refl; congruence.
  Qed.

  Theorem residual_slope measured d : (0 <= measured - off <= 360)%R -> delta_on T aoi w off false x = Some d -> (0 < circular_distance measured d 360 < 180)%R ->
    slopes (fun y => omap (fun d => circular_distance measured d 360) (delta_on T aoi w off false y)) x.
  Proof.
    intros HM HD HX. destruct (delta_form false) as (z & D & N & L).
    assert (E : forall v, circular_distance measured (v + off) 360 = circular_distance (measured - off) v 360).
    { intros v. unfold circular_distance. replace (measured - (v + off))%R with (measured - off - v)%R by ring. reflexivity. }
    apply slope_of with (fun y => circular_distance (measured - off) ((carg (z y) + PI) * (180 / PI)) 360).
    - apply filter_imp with (2 := L). intros y (_ & Y). cbv zeta in Y. rewrite Y. cbn [omap]. rewrite E. reflexivity.
    - apply circ_diff; auto. destruct (locally_singleton _ _ L) as (_ & Y). cbv zeta in Y. rewrite Y in HD. assert (d = ((carg (z x) + PI) * (180 / PI) + off)%R) by congruence. subst d.
      rewrite E in HX. exact HX.
  Qed.
  Theorem folded_slope d : delta_on T aoi w off true x = Some d -> d <> off -> d <> (off + 180)%R -> slopes (delta_on T aoi w off true) x.
  Proof.
    intros HD H0 H1. destruct (delta_form true) as (z & D & N & L). pose proof PI_RGT_0 as PP.
    assert (E : forall y, ((if Rlt_dec PI (carg (z y) + PI) then 2 * PI - (carg (z y) + PI) else carg (z y) + PI) * (180 / PI))%R = circular_distance 0 ((carg (z y) + PI) * (180 / PI)) 360).
    { intros y. apply fold_circ. pose proof (carg_bounds (z y)). lra. }
    apply slope_of with (fun y => (circular_distance 0 ((carg (z y) + PI) * (180 / PI)) 360 + off)%R).
    - apply filter_imp with (2 := L). intros y (_ & Y). cbv zeta in Y. rewrite Y, E. reflexivity.
    - apply (ex_derive_plus (V := R_NormedModule)); [|apply ex_derive_const]. apply circ_diff; auto; [lra|].
      destruct (locally_singleton _ _ L) as (_ & Y). cbv zeta in Y. rewrite E in Y. rewrite Y in HD.
      assert (DR : (0 <= (carg (z x) + PI) * (180 / PI) <= 360)%R).
      { pose proof (carg_bounds (z x)). assert (C180 : (0 < 180 / PI)%R) by (apply Rdiv_lt_0_compat; lra). assert (PI2 : (PI * (180 / PI) = 180)%R) by (field; lra). split; nra. }
      destruct (circ_acos 0 _ ltac:(lra) DR) as [B _]. set (v := circular_distance 0 _ 360) in *. assert (d = (v + off)%R) by congruence. lra.
  Qed.
  Theorem delta_slope d : delta_on T aoi w off false x = Some d -> d <> (off + 360)%R -> slopes (delta_on T aoi w off false) x.
  Proof.
    intros HD H1. destruct (delta_form false) as (z & D & N & L). pose proof PI_RGT_0 as PP.
    assert (C180 : (0 < 180 / PI)%R) by (apply Rdiv_lt_0_compat; lra). assert (PI2 : (PI * (180 / PI) = 180)%R) by (field; lra).
    set (v := fun y => ((carg (z y) + PI) * (180 / PI))%R).
    assert (DR : forall y, (0 < v y <= 360)%R). { intros y. unfold v. pose proof (carg_bounds (z y)). split; nra. }
    destruct (locally_singleton _ _ L) as (_ & Y). cbv zeta in Y. fold (v x) in Y. rewrite Y in HD. assert (DV : d = (v x + off)%R) by congruence. clear Y HD.
    assert (VX : (0 < v x < 360)%R) by (pose proof (DR x); lra).
    set (a := (v x / 2)%R). assert (EA : circular_distance a (v x) 360 = (v x - a)%R).
    { unfold circular_distance, Rmin, Rabs, a. destruct (Rcase_abs (v x / 2 - v x)); [|lra]. destruct Rle_dec; lra. }
    assert (DC : ex_derive (fun y => circular_distance a (v y) 360) x).
    { apply (circ_diff z x a D N); [unfold a; lra|]. fold (v x). rewrite EA. unfold a. lra. }
    pose proof (carg_circ_cont z x (v x) (cdiff_ccont _ _ D) N ltac:(lra)) as CC. cbv zeta in CC.
    destruct (CC (Rmin (v x / 2) ((360 - v x) / 2))) as (eta & He & CE); [apply Rmin_glb_lt; lra|].
    assert (NEAR : locally x (fun y => circular_distance a (v y) 360 + a = v y)%R).
    { exists (mkposreal eta He). intros y By. change (Rabs (y - x) < eta)%R in By. specialize (CE y By). fold (v y) in CE. fold (v x) in CE.
      assert (Z0 : circular_distance (v x) (v x) 360 = 0%R). { unfold circular_distance. rewrite Rminus_eq_0, Rabs_R0. apply Rmin_left. lra. }
      rewrite Z0, Rminus_0_r in CE. pose proof (Rmin_l (v x / 2) ((360 - v x) / 2)). pose proof (Rmin_r (v x / 2) ((360 - v x) / 2)). set (mm := Rmin (v x / 2) ((360 - v x) / 2)) in *.
      apply (half_circ (v x) (v y) mm); auto; try lra. }
    apply slope_of with (fun y => (v y + off)%R).
    - apply filter_imp with (2 := L). intros y (_ & Y). exact Y.
    - apply (ex_derive_plus (V := R_NormedModule)); [|apply ex_derive_const]. apply ex_derive_ext_loc with (2 := ex_derive_plus (V := R_NormedModule) _ _ x DC (ex_derive_const a x)). exact NEAR.
  Qed.
End stack.
