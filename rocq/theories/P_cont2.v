(** * psi, and the distance of delta from a measured value, depend continuously on
    the thicknesses *)

Require Import Reals.
From Coquelicot Require Import Rcomplements Complex.
Require Import List Bool Arith ZArith Lra Lia Psatz.
From Verif Require Import Base Cplx M_tmm Spec_optics P_tmm P_tmm2 P_tmm3 P_tmm4 P_psidelta P_psidelta2 M_objective
  Spec_ident P_ident2 P_cont.
Import ListNotations.
Open Scope R_scope.
Open Scope C_scope.

(** a film whose thicknesses (Angstrom) depend on a parameter *)
Definition film_at (F : list (C * (R -> R) * R)) (y : R) : list (C * R * R) :=
  map (fun x => (fst (fst x), snd (fst x) y, snd x)) F.

Lemma amp_cont p (n0 : C) F nB dA dB th w x r t :
  Forall (fun l => continuity_pt (snd (fst l)) x) F ->
  amp p (tmm_point (ns n0 (nm (film_at F x)) nB) (ds dA (nm (film_at F x)) dB) true th w) = Some (r, t) ->
  exists (rf tf : R -> C) eta, rf x = r /\ (0 < eta)%R /\ ccont rf x /\
    forall y, (Rabs (y - x) < eta)%R ->
      amp p (tmm_point (ns n0 (nm (film_at F y)) nB) (ds dA (nm (film_at F y)) dB) true th w) = Some (rf y, tf y).
Proof.
  intros HF H. apply tmm_point_iff in H. destruct H as (NZ & L & G & M & Er & Et).
  set (s := n0 * RtoC (sin th)) in *.
  set (FF := map (fun l : C * (R -> R) * R => (fst (fst l), code_cos s (fst (fst l)),
      fun y => clip35 (raw_phase s w (fst (fst l)) (snd (fst l) y / 10)))) F ++ [(nB, code_cos s nB, fun _ => RtoC 0)] : family).
  assert (ER : forall y, code_rest s w true (nm (film_at F y)) nB = at_ FF y).
  { intros y. unfold code_rest, at_, FF, nm, film_at. rewrite map_app, !map_map. reflexivity. }
  assert (CF : Forall (fun l => ccont (snd l) x) FF).
  { unfold FF. apply Forall_app. split; [|constructor; [apply ccont_const|constructor]].
    apply Forall_map. eapply Forall_impl; [|exact HF]. intros l Hl. cbn [snd].
    apply ccont_clip. unfold raw_phase. apply ccont_mult; [apply ccont_const|].
    apply ccont_RtoC. apply continuity_pt_mult; [exact Hl|]. apply continuity_pt_const; intros ? ?; reflexivity. }
  pose proof (tm_cont p FF x CF n0 (code_cos s n0) (fun _ => RtoC 0) (ccont_const _ _)) as (T0 & _ & T2 & _).
  set (T := fun y => tm p (mkMedium n0 (code_cos s n0) 0) (at_ FF y)) in *.
  assert (TX : forall y, tm p (code_end s n0) (code_rest s w true (nm (film_at F y)) nB) = T y).
  { intros y. unfold T. rewrite ER. reflexivity. }
  rewrite TX in M, Er, Et.
  destruct (ccont_nz _ _ T0 M) as (eta & He & HN).
  exists (fun y => m10 (T y) / m00 (T y)), (fun y => 1 / m00 (T y)), eta.
  split; [auto|]. split; [auto|]. split; [apply ccont_div; auto|].
  intros y Hy. apply tmm_point_iff. fold s.
  split.
  { destruct NZ as (N0 & N1 & N2). repeat split; auto. unfold nm, film_at in *. rewrite !Forall_map in *. exact N1. }
  split; [intros X; apply L; intros E; apply X; apply (f_equal (@List.length _)) in E;
     unfold nm, film_at in *; rewrite !map_length in E; destruct F; [reflexivity|discriminate]|].
  split.
  { assert (GG : forall q q' m m', map idx q = map idx q' -> map cosine q = map cosine q' ->
      idx m = idx m' -> cosine m = cosine m' -> good p m q -> good p m' q').
    { induction q as [|a q IH]; intros [|a' q'] m m' E1 E2 E3 E4; try discriminate; auto.
      cbn [map] in *. assert (idx a = idx a') by congruence. assert (cosine a = cosine a') by congruence.
      cbn [good]. unfold regular, fden. rewrite E3, E4, H, H0. intros (X1 & X2 & X3). repeat split; auto.
      apply (IH q' a a'); auto; congruence. }
    eapply GG; [| | | |exact G]; auto; rewrite !ER; unfold at_; rewrite !map_map; reflexivity. }
  rewrite TX. split; [apply HN; auto|]. auto.
Qed.

Lemma cp_eps f x : continuity_pt f x -> forall eps, (0 < eps)%R -> exists eta, (0 < eta)%R /\
  forall y, (Rabs (y - x) < eta)%R -> (Rabs (f y - f x) < eps)%R.
Proof.
  intros H eps He. destruct (H eps He) as (al & Ha & L). exists al. split; [exact Ha|].
  intros y Hy. destruct (Req_dec x y) as [<-|N].
  - rewrite Rminus_eq_0, Rabs_R0. exact He.
  - apply (L y). split; [split; auto; constructor|]. exact Hy.
Qed.

Definition psi_at tA nA rA F tB nB rB aoi w off refl (y : R) : option R :=
  match fst (Delta_Psi_TMM [aoi] (table tA nA rA (film_at F y) tB nB rB) w off refl) with
  | Ok [(psi, _)] => psi
  | _ => None
  end.
Definition delta_at tA nA rA F tB nB rB aoi w off refl (y : R) : option R :=
  match fst (Delta_Psi_TMM [aoi] (table tA nA rA (film_at F y) tB nB rB) w off refl) with
  | Ok [(_, delta)] => delta
  | _ => None
  end.

Lemma psi_delta_at tA nA rA F tB nB rB aoi w off refl y :
  (psi_at tA nA rA F tB nB rB aoi w off refl y, delta_at tA nA rA F tB nB rB aoi w off refl y) =
  DP_one nA (film_at F y) nB w off refl aoi.
Proof. unfold psi_at, delta_at. rewrite DP_map. cbn [map]. destruct (DP_one _ _ _ _ _ _ _). reflexivity. Qed.

Lemma ccont_Cmod f x : ccont f x -> continuity_pt (fun y => Cmod (f y)) x.
Proof.
  intros [A B].
  assert (N : continuity_pt (fun y => (Re (f y) * Re (f y) + Im (f y) * Im (f y))%R) x).
  { apply continuity_pt_plus; apply continuity_pt_mult; auto. }
  eapply cp_ext; [|apply (continuity_pt_comp _ sqrt _ N)].
  - intros y. unfold comp, Cmod. f_equal. unfold Re, Im. ring.
  - apply continuity_pt_sqrt. nra.
Qed.

(** psi *)
Theorem psi_continuous tA (nA : C) rA F tB (nB : C) rB (aoi w off : R) refl x rs ts rp tp :
  Forall (fun l => continuity_pt (snd (fst l)) x) F ->
  coh_tmm (ns (RtoC (Re nA)) (nm (film_at F x)) nB) (ds PInf (nm (film_at F x)) PInf) [(rad aoi, w)]
    = Ok [mkAmp (Some (rs, ts)) (Some (rp, tp))] ->
  rs <> 0 -> settles (psi_at tA nA rA F tB nB rB aoi w off refl) x.
Proof.
  intros HF HC NS. rewrite coh_tmm_real_ok in HC. cbn [map fst snd] in HC.
  set (a := tmm_point _ _ _ _ _) in HC.
  assert (A : a = mkAmp (Some (rs, ts)) (Some (rp, tp))) by congruence.
  assert (AS : amp pS a = Some (rs, ts)) by (rewrite A; reflexivity).
  assert (AP : amp pP a = Some (rp, tp)) by (rewrite A; reflexivity).
  destruct (amp_cont pS _ F nB PInf PInf (rad aoi) w x rs ts HF AS) as (fs & gs & e1 & X1 & E1 & C1 & H1).
  destruct (amp_cont pP _ F nB PInf PInf (rad aoi) w x rp tp HF AP) as (fp & gp & e2 & X2 & E2 & C2 & H2).
  assert (NS' : fs x <> 0) by (rewrite X1; auto).
  destruct (ccont_nz _ _ C1 NS') as (e3 & E3 & H3).
  set (q := fun y => (atan (Cmod (fp y / fs y)%C) * (180 / PI))%R).
  assert (CQ : continuity_pt q x).
  { unfold q. apply continuity_pt_mult; [|apply continuity_pt_const; intros ? ?; reflexivity].
    apply (continuity_pt_comp (fun y => Cmod (fp y / fs y)%C) atan).
    - apply ccont_Cmod. apply ccont_div; auto.
    - apply derivable_continuous_pt, derivable_pt_atan. }
  assert (V : forall y, (Rabs (y - x) < Rmin e1 (Rmin e2 e3))%R ->
     psi_at tA nA rA F tB nB rB aoi w off refl y = Some (q y)).
  { intros y Hy.
    pose proof (psi_delta_at tA nA rA F tB nB rB aoi w off refl y) as PD. unfold DP_one, psi_delta in PD.
    pose proof (Rmin_l e1 (Rmin e2 e3)). pose proof (Rmin_r e1 (Rmin e2 e3)).
    pose proof (Rmin_l e2 e3). pose proof (Rmin_r e2 e3).
    specialize (H1 y ltac:(lra)). specialize (H2 y ltac:(lra)). specialize (H3 y ltac:(lra)).
    cbn [amp] in H1, H2. rewrite H1, H2 in PD. unfold psi_of in PD.
    destruct (Ceq_dec (fs y) 0); [contradiction|]. unfold q. congruence. }
  exists (q x). split; [apply V; rewrite Rminus_eq_0, Rabs_R0; repeat apply Rmin_glb_lt; auto|].
  intros eps He. destruct (cp_eps _ _ CQ eps He) as (e4 & E4 & H4).
  exists (Rmin e4 (Rmin e1 (Rmin e2 e3))). split; [repeat apply Rmin_glb_lt; auto|].
  intros y Hy. pose proof (Rmin_l e4 (Rmin e1 (Rmin e2 e3))). pose proof (Rmin_r e4 (Rmin e1 (Rmin e2 e3))).
  exists (q y). split; [apply V; lra|apply H4; lra].
Qed.

(** ** delta *)
Lemma circ_lip a d e : (0 <= a <= 360)%R -> (0 <= d <= 360)%R -> (0 <= e <= 360)%R ->
  (Rabs (circular_distance a d 360 - circular_distance a e 360) <= circular_distance d e 360)%R.
Proof.
  intros HA HD HE. unfold circular_distance, Rmin.
  unfold Rabs. 
  repeat match goal with |- context [Rcase_abs ?z] => destruct (Rcase_abs z) end;
  repeat match goal with |- context [Rle_dec ?u ?v] => destruct (Rle_dec u v) end;
  repeat match goal with |- context [Rcase_abs ?z] => destruct (Rcase_abs z) end; lra.
Qed.

Lemma circ_small d e eps : (0 <= d <= 360)%R -> (0 <= e <= 360)%R -> (0 < eps <= 180)%R ->
  (cos (rad eps) < cos (rad (d - e)))%R -> (circular_distance d e 360 < eps)%R.
Proof.
  intros HD HE HP HC. pose proof PI_RGT_0 as PP.
  set (t := circular_distance d e 360).
  assert (T : (0 <= t <= 180)%R /\ cos (rad t) = cos (rad (d - e))).
  { unfold t, circular_distance, Rmin, Rabs.
    destruct (Rcase_abs (d - e)) as [n|n];
    match goal with |- context [Rle_dec ?u ?v] => destruct (Rle_dec u v) end; (split; [lra|]).
    - rewrite <- cos_neg. f_equal. unfold rad. ring.
    - rewrite <- (cos_period (rad (d - e)) 1). f_equal. unfold rad. simpl. field.
    - reflexivity.
    - rewrite <- cos_neg. rewrite <- (cos_period (- _) 1). f_equal. unfold rad. simpl. field. }
  destruct T as [T0 T1]. apply Rnot_le_lt. intros L.
  assert (R1 : forall u, (0 <= u <= 180)%R -> (0 <= rad u <= PI)%R) by (intros u Hu; unfold rad; split; nra).
  assert (cos (rad t) <= cos (rad eps))%R; [|lra].
  destruct L as [L|L]; [|rewrite L; lra].
  left. apply cos_decreasing_1; try (apply R1; lra). unfold rad. nra.
Qed.

Lemma carg_dir (z : C) : z <> 0 -> (cos (carg z) = Re z / Cmod z /\ sin (carg z) = Im z / Cmod z)%R.
Proof.
  intros H. pose proof (Cmod_pos z H) as M. pose proof (carg_polar z) as E.
  pose proof (f_equal Re E) as E1. pose proof (f_equal Im E) as E2. cbn [Re Im fst snd] in E1, E2.
  change (fst z) with (Re z) in E1. change (snd z) with (Im z) in E2.
  split; [rewrite E1|rewrite E2]; field; lra.
Qed.

(** delta of a function with continuous non-zero values, measured from [a] *)
Lemma carg_circ_cont (z : R -> C) (x a : R) : ccont z x -> z x <> 0 -> (0 <= a <= 360)%R ->
  let d := fun y => ((carg (z y) + PI) * (180 / PI))%R in
  forall eps, (0 < eps)%R -> exists eta, (0 < eta)%R /\ forall y, (Rabs (y - x) < eta)%R ->
   (Rabs (circular_distance a (d y) 360 - circular_distance a (d x) 360) < eps)%R.
Proof.
  intros HZ NZ HA d eps He. pose proof PI_RGT_0 as PP.
  assert (DR : forall y, (0 <= d y <= 360)%R).
  { intros y. unfold d. pose proof (carg_bounds (z y)).
    assert (C180 : (0 < 180 / PI)%R) by (apply Rdiv_lt_0_compat; lra).
    assert (PI2 : (PI * (180 / PI) = 180)%R) by (field; lra). split; nra. }
  destruct (ccont_nz _ _ HZ NZ) as (e1 & E1 & H1).
  set (g := fun y => ((Re (z y) * Re (z x) + Im (z y) * Im (z x)) / (Cmod (z y) * Cmod (z x)))%R).
  assert (M0 : (0 < Cmod (z x))%R) by (apply Cmod_pos; auto).
  assert (CG : continuity_pt g x).
  { destruct HZ as [ZA ZB]. pose proof (ccont_Cmod z x (conj ZA ZB)) as ZM.
    unfold g. apply continuity_pt_div.
    - apply continuity_pt_plus; apply continuity_pt_mult; auto; apply continuity_pt_const; intros ? ?; reflexivity.
    - apply continuity_pt_mult; auto; apply continuity_pt_const; intros ? ?; reflexivity.
    - nra. }
  assert (GX : g x = 1%R).
  { unfold g. rewrite Cmod_sq. field. apply Cmod2_nz; auto. }
  assert (GY : forall y, z y <> 0 -> cos (rad (d y - d x)) = g y).
  { intros y Hy. replace (rad (d y - d x)) with (carg (z y) - carg (z x))%R by (unfold rad, d; field; lra).
    rewrite cos_minus. destruct (carg_dir _ Hy) as [Y1 Y2]. destruct (carg_dir _ NZ) as [X1 X2].
    rewrite Y1, Y2, X1, X2. unfold g. pose proof (Cmod_pos _ Hy). field. split; lra. }
  set (ep := Rmin eps 180). assert (EP : (0 < ep <= 180)%R) by (split; [apply Rmin_glb_lt; lra|apply Rmin_r]).
  assert (CE : (cos (rad ep) < 1)%R).
  { rewrite <- cos_0. apply cos_decreasing_1; unfold rad; try lra; nra. }
  destruct (cp_eps _ _ CG (1 - cos (rad ep)) ltac:(lra)) as (e2 & E2 & H2).
  exists (Rmin e1 e2). split; [apply Rmin_glb_lt; auto|].
  intros y Hy. pose proof (Rmin_l e1 e2). pose proof (Rmin_r e1 e2).
  specialize (H1 y ltac:(lra)). specialize (H2 y ltac:(lra)).
  eapply Rle_lt_trans; [apply circ_lip; auto|].
  eapply Rlt_le_trans; [apply (circ_small _ _ ep); auto|apply Rmin_l].
  rewrite GY by auto. rewrite GX in H2. apply Rabs_def2 in H2. lra.
Qed.

Lemma fold_circ (d : R) : (0 < d <= 2 * PI)%R ->
  ((if Rlt_dec PI d then 2 * PI - d else d) * (180 / PI))%R = circular_distance 0 (d * (180 / PI)) 360.
Proof.
  intros H. pose proof PI_RGT_0 as PP. 
  assert (C180 : (0 < 180 / PI)%R) by (apply Rdiv_lt_0_compat; lra).
  assert (PI2 : (PI * (180 / PI) = 180)%R) by (field; lra).
  assert (K : forall u v, (u < v)%R -> (u * (180 / PI) < v * (180 / PI))%R) by (intros; nra).
  unfold circular_distance. rewrite Rminus_0_l, Rabs_Ropp, Rabs_pos_eq by nra.
  unfold Rmin. destruct (Rlt_dec PI d) as [L|L].
  - destruct (Rle_dec (d * (180 / PI)) (360 - d * (180 / PI))) as [M|M].
    + pose proof (K _ _ L). lra.
    + transitivity (2 * (PI * (180 / PI)) - d * (180 / PI))%R; [ring|]. rewrite PI2. ring.
  - destruct (Rle_dec (d * (180 / PI)) (360 - d * (180 / PI))) as [M|M]; auto.
    apply Rnot_lt_le in L. assert (d * (180 / PI) <= 180)%R by nra. lra.
Qed.

Lemma delta_circ tA (nA : C) rA F tB (nB : C) rB (aoi w off : R) refl x rs ts rp tp :
  Forall (fun l => continuity_pt (snd (fst l)) x) F ->
  coh_tmm (ns (RtoC (Re nA)) (nm (film_at F x)) nB) (ds PInf (nm (film_at F x)) PInf) [(rad aoi, w)]
    = Ok [mkAmp (Some (rs, ts)) (Some (rp, tp))] ->
  rs <> 0 -> rp <> 0 -> exists (z : R -> C) eta, ccont z x /\ z x <> 0 /\ (0 < eta)%R /\
    forall y, (Rabs (y - x) < eta)%R ->
      let d := (carg (z y) + PI)%R in
      delta_at tA nA rA F tB nB rB aoi w off refl y =
      Some ((if refl then (if Rlt_dec PI d then 2 * PI - d else d) else d) * (180 / PI) + off)%R.
Proof.
  intros HF HC NS NP. rewrite coh_tmm_real_ok in HC. cbn [map fst snd] in HC.
  set (a := tmm_point _ _ _ _ _) in HC.
  assert (A : a = mkAmp (Some (rs, ts)) (Some (rp, tp))) by congruence.
  assert (AS : amp pS a = Some (rs, ts)) by (rewrite A; reflexivity).
  assert (AP : amp pP a = Some (rp, tp)) by (rewrite A; reflexivity).
  destruct (amp_cont pS _ F nB PInf PInf (rad aoi) w x rs ts HF AS) as (fs & gs & e1 & X1 & E1 & C1 & H1).
  destruct (amp_cont pP _ F nB PInf PInf (rad aoi) w x rp tp HF AP) as (fp & gp & e2 & X2 & E2 & C2 & H2).
  assert (NS' : fs x <> 0) by (rewrite X1; auto). assert (NP' : fp x <> 0) by (rewrite X2; auto).
  destruct (ccont_nz _ _ C1 NS') as (e3 & E3 & H3). destruct (ccont_nz _ _ C2 NP') as (e4 & E4 & H4).
  assert (QN : forall y, fs y <> 0 -> fp y <> 0 -> - fp y / fs y <> 0).
  { intros y A1 A2 E. apply A2. transitivity (- (- fp y / fs y * fs y)); [field; auto|rewrite E; ring]. }
  exists (fun y => 1 / (- fp y / fs y)), (Rmin (Rmin e1 e2) (Rmin e3 e4)).
  split.
  { apply ccont_div; auto; [apply ccont_const|]. apply ccont_div; auto. apply ccont_opp; auto. }
  split.
  { intros E. apply C1_neq_0. transitivity (1 / (- fp x / fs x) * (- fp x / fs x)); [|rewrite E; ring].
    set (q := - fp x / fs x). assert (q <> 0) by (apply QN; auto). field. auto. }
  split; [repeat apply Rmin_glb_lt; auto|].
  intros y Hy d.
  pose proof (Rmin_l (Rmin e1 e2) (Rmin e3 e4)). pose proof (Rmin_r (Rmin e1 e2) (Rmin e3 e4)).
  pose proof (Rmin_l e1 e2). pose proof (Rmin_r e1 e2). pose proof (Rmin_l e3 e4). pose proof (Rmin_r e3 e4).
  specialize (H1 y ltac:(lra)). specialize (H2 y ltac:(lra)). specialize (H3 y ltac:(lra)). specialize (H4 y ltac:(lra)).
  pose proof (psi_delta_at tA nA rA F tB nB rB aoi w off refl y) as PD. unfold DP_one, psi_delta in PD.
  cbn [amp] in H1, H2. rewrite H1, H2 in PD. unfold delta_of in PD.
  rewrite cdiv_some in PD by auto. cbn [obind] in PD. rewrite cdiv_some in PD by (apply QN; auto).
  cbn [obind] in PD. fold d in PD. destruct refl; congruence.
Qed.

(** the delta residual: circular distance from the measured value *)
Theorem residual_continuous tA (nA : C) rA F tB (nB : C) rB (aoi w off : R) x rs ts rp tp (measured : R) :
  Forall (fun l => continuity_pt (snd (fst l)) x) F ->
  coh_tmm (ns (RtoC (Re nA)) (nm (film_at F x)) nB) (ds PInf (nm (film_at F x)) PInf) [(rad aoi, w)]
    = Ok [mkAmp (Some (rs, ts)) (Some (rp, tp))] ->
  rs <> 0 -> rp <> 0 -> (0 <= measured - off <= 360)%R ->
  settles (fun y => omap (fun d => circular_distance measured d 360)
                         (delta_at tA nA rA F tB nB rB aoi w off false y)) x.
Proof.
  intros HF HC NS NP HM.
  destruct (delta_circ tA nA rA F tB nB rB aoi w off false x rs ts rp tp HF HC NS NP) as (z & e1 & CZ & ZX & E1 & H1).
  set (d := fun y => ((carg (z y) + PI) * (180 / PI))%R).
  assert (V : forall y, (Rabs (y - x) < e1)%R -> omap (fun d => circular_distance measured d 360)
      (delta_at tA nA rA F tB nB rB aoi w off false y) = Some (circular_distance (measured - off) (d y) 360)).
  { intros y Hy. rewrite (H1 y Hy). cbn [omap]. f_equal. unfold circular_distance. 
    replace (measured - ((carg (z y) + PI) * (180 / PI) + off))%R with (measured - off - d y)%R; [reflexivity|].
    unfold d. ring. }
  exists (circular_distance (measured - off) (d x) 360).
  split; [apply V; rewrite Rminus_eq_0, Rabs_R0; auto|].
  intros eps He. destruct (carg_circ_cont z x (measured - off) CZ ZX HM eps He) as (e2 & E2 & H2).
  exists (Rmin e1 e2). split; [apply Rmin_glb_lt; auto|]. intros y Hy.
  pose proof (Rmin_l e1 e2). pose proof (Rmin_r e1 e2).
  eexists. split; [apply V; lra|]. apply H2. lra.
Qed.

(** folded delta is continuous itself *)
Theorem folded_continuous tA (nA : C) rA F tB (nB : C) rB (aoi w off : R) x rs ts rp tp :
  Forall (fun l => continuity_pt (snd (fst l)) x) F ->
  coh_tmm (ns (RtoC (Re nA)) (nm (film_at F x)) nB) (ds PInf (nm (film_at F x)) PInf) [(rad aoi, w)]
    = Ok [mkAmp (Some (rs, ts)) (Some (rp, tp))] ->
  rs <> 0 -> rp <> 0 ->
  settles (delta_at tA nA rA F tB nB rB aoi w off true) x.
Proof.
  intros HF HC NS NP.
  destruct (delta_circ tA nA rA F tB nB rB aoi w off true x rs ts rp tp HF HC NS NP) as (z & e1 & CZ & ZX & E1 & H1).
  set (d := fun y => ((carg (z y) + PI) * (180 / PI))%R).
  assert (V : forall y, (Rabs (y - x) < e1)%R -> delta_at tA nA rA F tB nB rB aoi w off true y =
      Some (circular_distance 0 (d y) 360 + off)%R).
  { intros y Hy. rewrite (H1 y Hy). rewrite fold_circ; [reflexivity|]. pose proof (carg_bounds (z y)). lra. }
  exists (circular_distance 0 (d x) 360 + off)%R.
  split; [apply V; rewrite Rminus_eq_0, Rabs_R0; auto|].
  intros eps He. destruct (carg_circ_cont z x 0 CZ ZX ltac:(lra) eps He) as (e2 & E2 & H2).
  exists (Rmin e1 e2). split; [apply Rmin_glb_lt; auto|]. intros y Hy.
  pose proof (Rmin_l e1 e2). pose proof (Rmin_r e1 e2).
  eexists. split; [apply V; lra|]. 
  replace (circular_distance 0 (d y) 360 + off - (circular_distance 0 (d x) 360 + off))%R with
    (circular_distance 0 (d y) 360 - circular_distance 0 (d x) 360)%R by ring.
  apply H2. lra.
Qed.
