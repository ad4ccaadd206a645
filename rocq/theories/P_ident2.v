(** * A bare substrate: Fresnel's formulas inverted *)

Require Import Reals.
From Coquelicot Require Import Rcomplements Complex.
Require Import List Bool Arith ZArith Lra Lia Psatz.
From Verif Require Import Base Cplx M_tmm Spec_optics P_tmm P_tmm2 P_tmm3 P_tmm4 P_flux P_flux2 P_flux3
  P_psidelta P_psidelta2 Spec_ident.
Import ListNotations.
Open Scope R_scope.
Open Scope C_scope.

Lemma bare_amp p (n0 nN : C) dA dB clip th0 lam r t :
  let s := n0 * RtoC (sin th0) in
  let a := RtoC (Rabs (cos th0)) in
  let c := code_cos s nN in
  amp p (tmm_point (ns n0 [] nN) (ds dA [] dB) clip th0 lam) = Some (r, t) ->
  n0 <> 0 /\ nN <> 0 /\ a <> 0 /\
  match p with
  | pS => n0 * a + nN * c <> 0 /\ r = (n0 * a - nN * c) / (n0 * a + nN * c)
  | pP => nN * a + n0 * c <> 0 /\ r = (nN * a - n0 * c) / (nN * a + n0 * c)
  end.
Proof.
  intros s a c H. apply tmm_point_iff in H. destruct H as ((Z0 & _ & Z1) & _ & G & M & Er & _).
  unfold code_rest in *. cbn [map app good] in G. destruct G as (G1 & G2 & _).
  unfold regular, code_end in G1. cbn [idx cosine] in G1. rewrite code_cos_front in G1 by auto.
  pose proof (Cmult_neq_0_r _ _ G1) as A. fold a in A, G1.
  unfold fden, code_end in G2. cbn [idx cosine] in G2. rewrite code_cos_front in G2 by auto. fold s a c in G2.
  pose proof C2_neq_0 as T2.
  split; [auto|]. split; [auto|]. split; [auto|].
  cbn [map app tm] in Er, M. unfold imat, m00, m10, ia, ib, code_end in Er, M. cbn [idx cosine] in Er, M.
  rewrite code_cos_front in Er, M by auto. fold s a c in Er, M.
  destruct p; (split; [exact G2|]); rewrite Er; field; auto.
Qed.

(** Fresnel solved for the index of the substrate *)
Lemma fresnel_inverse (n N a c sn : C) :
  n <> 0 -> N <> 0 -> a <> 0 -> sn <> 0 -> sn * sn = 1 - a * a ->
  c * c = 1 - (n * sn / N) * (n * sn / N) ->
  n * a + N * c <> 0 -> N * a + n * c <> 0 -> n * a - N * c <> 0 ->
  let rho := ((N * a - n * c) / (N * a + n * c)) / ((n * a - N * c) / (n * a + N * c)) in
  1 + rho <> 0 /\
  N * N = n * n * (sn * sn) * (1 + (sn / a) * (sn / a) * (((1 - rho) / (1 + rho)) * ((1 - rho) / (1 + rho)))).
Proof.
  intros Hn HN Ha Hs Es Ec F1 F2 F3 rho.
  assert (A2 : a * a = 1 - sn * sn) by (rewrite Es; ring).
  assert (EcN : N * N * (c * c) = N * N - n * n * (sn * sn)) by (rewrite Ec; field; auto).
  (* n^2 <> N^2 *)
  assert (K : (n * a - N * c) * (n * a + N * c) = n * n - N * N).
  { transitivity (n * n * (a * a) - N * N * (c * c)); [ring|]. rewrite EcN, A2. ring. }
  assert (D : n * n - N * N <> 0) by (rewrite <- K; apply Cmult_neq_0; auto).
  assert (S1 : (1 + rho) * ((N * a + n * c) * (n * a - N * c)) = 2 * n * N * (a * a - c * c)).
  { unfold rho. field; auto. }
  assert (S2 : (1 - rho) * ((N * a + n * c) * (n * a - N * c)) = 2 * a * c * (n * n - N * N)).
  { unfold rho. field; auto. }
  assert (AC : N * N * (a * a - c * c) = sn * sn * (n * n - N * N)).
  { transitivity (N * N * (a * a) - N * N * (c * c)); [ring|]. rewrite EcN, A2. ring. }
  pose proof C2_neq_0 as T2.
  assert (ACn : a * a - c * c <> 0).
  { intros E. rewrite E in AC. apply D. apply (Cmult_reg_l (sn * sn)); [apply Cmult_neq_0; auto|].
    rewrite <- AC. ring. }
  assert (P0 : 1 + rho <> 0).
  { intros E. rewrite E in S1. assert (X : 2 * n * N * (a * a - c * c) = 0) by (rewrite <- S1; ring).
    revert X. repeat apply Cmult_neq_0; auto. }
  split; [exact P0|].
  (* the quotient *)
  assert (Q : (1 - rho) / (1 + rho) = a * c * N / (n * (sn * sn))).
  { apply (Cmult_reg_l ((1 + rho) * (n * (sn * sn)))).
    { repeat apply Cmult_neq_0; auto. }
    transitivity ((1 - rho) * (n * (sn * sn))); [field; auto|].
    transitivity ((1 + rho) * (a * c * N)); [|field; auto].
    apply (Cmult_reg_l ((N * a + n * c) * (n * a - N * c))).
    { apply Cmult_neq_0; auto. }
    transitivity ((1 - rho) * ((N * a + n * c) * (n * a - N * c)) * (n * (sn * sn))); [ring|]. rewrite S2.
    transitivity ((1 + rho) * ((N * a + n * c) * (n * a - N * c)) * (a * c * N)); [|ring]. rewrite S1.
    transitivity (2 * a * c * n * (sn * sn * (n * n - N * N))); [ring|]. rewrite <- AC. ring. }
  rewrite Q.
  transitivity (n * n * (sn * sn) + N * N * (c * c)); [rewrite EcN; ring|]. field. auto.
Qed.

Lemma rad_range aoi : (0 < aoi < 90)%R -> (0 < rad aoi < PI / 2)%R.
Proof. unfold rad. pose proof PI_RGT_0. split; nra. Qed.

Lemma psi_delta_Some refl off a psi delta : psi_delta refl off a = (Some psi, Some delta) ->
  exists rs ts rp tp, amp_s a = Some (rs, ts) /\ amp_p a = Some (rp, tp) /\ rs <> 0 /\ rp <> 0 /\
    psi_of rs rp = Some psi /\ delta_of refl off rs rp = Some delta.
Proof.
  unfold psi_delta. destruct (amp_s a) as [[rs ts]|]; [|discriminate].
  destruct (amp_p a) as [[rp tp]|]; [|discriminate]. intros H.
  assert (H1 : psi_of rs rp = Some psi) by congruence.
  assert (H2 : delta_of refl off rs rp = Some delta) by congruence. clear H.
  exists rs, ts, rp, tp. repeat split; auto.
  - intros ->. unfold delta_of in H2. rewrite cdiv_none in H2. discriminate.
  - intros ->. unfold delta_of in H2. destruct (cdiv (- 0) rs) as [q|] eqn:E; [|discriminate].
    apply cdiv_inv in E as [E1 ->]. cbn [obind] in H2.
    replace (- 0 / rs) with (RtoC 0) in H2 by (field; auto). rewrite cdiv_none in H2. discriminate.
Qed.

Lemma ellipsometric_ratio rs rp psi delta : ellipsometric rs rp psi delta -> rp / rs = ratio psi delta.
Proof. auto. Qed.

(** one angle, unfolded: the ratio of the amplitudes and the two angles *)
Lemma psi_delta_ratio off a psi delta : psi_delta false off a = (Some psi, Some delta) ->
  exists rs ts rp tp, amp_s a = Some (rs, ts) /\ amp_p a = Some (rp, tp) /\ rs <> 0 /\ rp <> 0 /\
    rp / rs = ratio psi (delta - off).
Proof.
  intros H. apply psi_delta_Some in H as (rs & ts & rp & tp & A1 & A2 & N1 & N2 & P & D).
  exists rs, ts, rp, tp. repeat split; auto.
  destruct (psi_delta_spec off rs rp N1 N2) as (psi' & delta' & P' & D' & _ & _ & E).
  assert (psi' = psi) as <- by congruence. assert (delta' = delta) as <- by congruence. exact E.
Qed.

Lemma bare_eps (n0 : R) (nN : C) th w rs ts rp tp a :
  (0 < n0)%R -> (0 < th < PI / 2)%R ->
  a = tmm_point (ns (RtoC n0) [] nN) (ds PInf [] PInf) true th w ->
  amp_s a = Some (rs, ts) -> amp_p a = Some (rp, tp) -> rs <> 0 ->
  1 + rp / rs <> 0 /\ nN * nN = substrate_eps n0 th (rp / rs).
Proof.
  intros H0 HT -> AS AP NS.
  pose proof (bare_amp pS _ _ _ _ _ _ _ _ _ AS) as (Z0 & Z1 & Z2 & F1 & E1).
  pose proof (bare_amp pP _ _ _ _ _ _ _ _ _ AP) as (_ & _ & _ & F2 & E2).
  assert (CP : (0 < cos th)%R) by (apply cos_gt_0; lra).
  assert (SP : (0 < sin th)%R) by (apply sin_gt_0; lra).
  rewrite (Rabs_pos_eq (cos th)) in * by lra.
  set (c := code_cos (RtoC n0 * RtoC (sin th)) nN) in *.
  assert (F3 : RtoC n0 * RtoC (cos th) - nN * c <> 0).
  { intros E. apply NS. rewrite E1, E. field. auto. }
  assert (S0 : RtoC (sin th) <> 0) by (intros E; apply RtoC_inj in E; lra).
  assert (SC : RtoC (sin th) * RtoC (sin th) = 1 - RtoC (cos th) * RtoC (cos th)).
  { rewrite <- !RtoC_mult, <- RtoC_minus. f_equal. pose proof (sin2_cos2 th) as H. unfold Rsqr in H. lra. }
  pose proof (fresnel_inverse (RtoC n0) nN (RtoC (cos th)) c (RtoC (sin th)) Z0 Z1 Z2 S0 SC
    (code_cos_sq _ _) F1 F2 F3) as [K1 K2].
  rewrite <- E1, <- E2 in K1, K2. split; [exact K1|]. rewrite K2. unfold substrate_eps, tan.
  rewrite RtoC_div by lra. rewrite RtoC_mult. set (q := (1 - rp / rs) / (1 + rp / rs)). field. auto.
Qed.

Theorem bare_substrate tA (nA : C) rA tB nB rB (aoi w off psi delta : R) :
  (0 < Re nA)%R -> (0 < aoi < 90)%R ->
  fst (Delta_Psi_TMM [aoi] (table tA nA rA [] tB nB rB) w off false) = Ok [(Some psi, Some delta)] ->
  1 + ratio psi (delta - off) <> 0 /\
  nB * nB = substrate_eps (Re nA) (rad aoi) (ratio psi (delta - off)).
Proof.
  intros H0 HA H. rewrite DP_map in H. cbn [map] in H.
  assert (K : DP_one nA [] nB w off false aoi = (Some psi, Some delta)) by congruence. clear H.
  unfold DP_one in K. apply psi_delta_ratio in K as (rs & ts & rp & tp & A1 & A2 & N1 & N2 & E).
  rewrite <- E. eapply bare_eps; eauto. apply rad_range; auto.
Qed.

(** ** folding loses nothing *)
Lemma Cconj_eps (n0 th : R) (rho : C) : 1 + rho <> 0 ->
  substrate_eps n0 th (Cconj rho) = Cconj (substrate_eps n0 th rho).
Proof.
  intros H. unfold substrate_eps.
  assert (CR : forall x : R, Cconj (RtoC x) = RtoC x) by (intros; apply C_eq; simpl; lra).
  assert (CM : forall a b : C, Cconj (a * b) = Cconj a * Cconj b) by (intros; apply C_eq; simpl; ring).
  assert (CA : forall a b : C, Cconj (a + b) = Cconj a + Cconj b) by (intros; apply C_eq; simpl; ring).
  assert (CS : forall a b : C, Cconj (a - b) = Cconj a - Cconj b) by (intros; apply C_eq; simpl; ring).
  assert (CI : forall a : C, a <> 0 -> Cconj a <> 0).
  { intros [x y] Ha E. apply Ha. pose proof (f_equal Re E). pose proof (f_equal Im E). simpl in *. apply C_eq; simpl; lra. }
  assert (CD : forall a b : C, b <> 0 -> Cconj (a / b) = Cconj a / Cconj b).
  { intros a b Hb. apply (Cmult_reg_l (Cconj b)); [auto|]. rewrite <- CM.
    transitivity (Cconj a); [f_equal; field; auto|]. pose proof (CI b Hb). field. auto. }
  rewrite !CM, !CA, !CM, CD, CS, CA by auto. rewrite !CR. reflexivity.
Qed.

Lemma passive_sq_inj (a b : C) : passive a -> passive b -> a * a = b * b -> a = b.
Proof.
  intros [A1 A2] [B1 B2] E. apply sq_eq_pm in E as [E|E]; auto.
  exfalso. rewrite E in A1. simpl in A1. change (fst b) with (Re b) in A1. lra.
Qed.

Lemma passive_sq_conj (a b : C) : passive a -> passive b -> a * a = Cconj (b * b) -> a = b.
Proof.
  intros [A1 A2] [B1 B2] E.
  replace (Cconj (b * b)) with (Cconj b * Cconj b) in E by (apply C_eq; simpl; ring).
  apply sq_eq_pm in E as [E|E].
  - pose proof (f_equal Re E) as R1. pose proof (f_equal Im E) as I1. simpl in R1, I1.
    change (fst b) with (Re b) in R1. change (snd b) with (Im b) in I1. apply C_eq; lra.
  - exfalso. rewrite E in A1. simpl in A1. change (fst b) with (Re b) in A1. lra.
Qed.

Lemma ratio_conj psi d d' : cos (rad d') = cos (rad d) -> ratio psi d' = ratio psi d \/ ratio psi d' = Cconj (ratio psi d).
Proof.
  intros H. assert (K : (sin (rad d') = sin (rad d) \/ sin (rad d') = - sin (rad d))%R).
  { pose proof (sin2_cos2 (rad d)) as A. pose proof (sin2_cos2 (rad d')) as B. unfold Rsqr in *. rewrite H in B.
    assert (X : ((sin (rad d') - sin (rad d)) * (sin (rad d') + sin (rad d)) = 0)%R) by nra.
    apply Rmult_integral in X. lra. }
  assert (U : forall x, cexp (- (Ci * RtoC (rad x))) = (cos (rad x), (- sin (rad x))%R)).
  { intros x. unfold cexp. simpl. 
    replace (- (0 * rad x - 1 * 0))%R with 0%R by ring. rewrite exp_0.
    replace (- (0 * 0 + 1 * rad x))%R with (- rad x)%R by ring. rewrite cos_neg, sin_neg.
    apply C_eq; simpl; ring. }
  unfold ratio. rewrite !U, H. destruct K as [-> | ->]; [left|right]; apply C_eq; simpl; ring.
Qed.

Lemma bare_substrate_fold tA (nA : C) rA tB nB rB (aoi w off psi delta : R) refl :
  (0 < Re nA)%R -> (0 < aoi < 90)%R ->
  fst (Delta_Psi_TMM [aoi] (table tA nA rA [] tB nB rB) w off refl) = Ok [(Some psi, Some delta)] ->
  let rho := ratio psi (delta - off) in
  nB * nB = substrate_eps (Re nA) (rad aoi) rho \/ nB * nB = Cconj (substrate_eps (Re nA) (rad aoi) rho).
Proof.
  intros H0 HA H rho. destruct refl; [|left; eapply bare_substrate; eauto].
  rewrite DP_map in H. cbn [map] in H.
  assert (K : DP_one nA [] nB w off true aoi = (Some psi, Some delta)) by congruence. clear H.
  unfold DP_one in K. apply psi_delta_Some in K as (rs & ts & rp & tp & A1 & A2 & N1 & N2 & P & D).
  destruct (psi_delta_spec off rs rp N1 N2) as (psi' & delta' & P' & D' & _ & _ & E).
  assert (psi' = psi) as -> by congruence. 
  destruct (delta_reflect off rs rp delta' D') as (d2 & D2 & _ & CC & _).
  assert (d2 = delta) as -> by congruence.
  apply ellipsometric_ratio in E.
  destruct (bare_eps (Re nA) nB (rad aoi) w rs ts rp tp _ H0 (rad_range _ HA) eq_refl A1 A2 N1) as [K1 K2].
  rewrite E in K1, K2.
  destruct (ratio_conj psi _ _ CC) as [EE|EE]; unfold rho; rewrite EE; [left; exact K2|right].
  rewrite Cconj_eps by exact K1. rewrite <- K2. apply C_eq; simpl; ring.
Qed.

Theorem bare_identified tA tA' (nA : C) rA rA' tB tB' nB nB' rB rB' (aoi w w' off psi delta : R) refl :
  (0 < Re nA)%R -> (0 < aoi < 90)%R -> passive nB -> passive nB' ->
  fst (Delta_Psi_TMM [aoi] (table tA nA rA [] tB nB rB) w off refl) = Ok [(Some psi, Some delta)] ->
  fst (Delta_Psi_TMM [aoi] (table tA' nA rA' [] tB' nB' rB') w' off refl) = Ok [(Some psi, Some delta)] ->
  nB = nB'.
Proof.
  intros H0 HA P P' H H'. apply bare_substrate_fold in H; auto. apply bare_substrate_fold in H'; auto.
  set (e := substrate_eps (Re nA) (rad aoi) (ratio psi (delta - off))) in *. cbv zeta in H, H'.
  assert (CCe : Cconj (Cconj e) = e) by (apply C_eq; simpl; ring).
  destruct H as [H|H], H' as [H'|H'].
  - apply passive_sq_inj; congruence.
  - apply passive_sq_conj; auto. rewrite H', H. symmetry; exact CCe.
  - apply passive_sq_conj; auto. rewrite H', H. reflexivity.
  - apply passive_sq_inj; congruence.
Qed.
