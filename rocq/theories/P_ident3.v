(** * Brewster's angle and total reflection *)

Require Import Reals.
From Coquelicot Require Import Rcomplements Complex.
Require Import List Bool Arith ZArith Lra Lia Psatz.
From Verif Require Import Base Cplx M_tmm Spec_optics P_tmm P_tmm2 P_tmm3 P_tmm4 P_flux P_flux2 P_flux3
  P_psidelta P_psidelta2 Spec_ident P_ident P_ident2.
Import ListNotations.
Open Scope R_scope.
Open Scope C_scope.

Lemma passive_film_nil s lam nB : passive nB -> passive_film s lam [] nB.
Proof. intros H. repeat split; auto; apply H. Qed.

Theorem brewster tA (nA : C) rA tB nB rB (aoi w off : R) refl :
  (0 < Re nA)%R -> (0 < aoi < 90)%R -> (0 < w)%R -> passive nB -> nB <> RtoC (Re nA) ->
  exists psi od,
    fst (Delta_Psi_TMM [aoi] (table tA nA rA [] tB nB rB) w off refl) = Ok [(Some psi, od)] /\
    (psi = 0%R <-> Im nB = 0%R /\ tan (rad aoi) = (Re nB / Re nA)%R) /\
    (psi = 0%R <-> od = None).
Proof.
  intros H0 HA HW HP NE. pose proof (rad_range _ HA) as HT. set (th := rad aoi) in *.
  assert (CP : (0 < cos th)%R) by (apply cos_gt_0; lra).
  assert (SP : (0 < sin th)%R) by (apply sin_gt_0; lra).
  rewrite DP_map. cbn [map]. unfold DP_one. cbn [nm map]. fold th.
  destruct (passive_amp pS (Re nA) [] nB PInf PInf th w H0 HW ltac:(lra) (passive_film_nil _ _ _ HP)) as (rs & ts & AS).
  destruct (passive_amp pP (Re nA) [] nB PInf PInf th w H0 HW ltac:(lra) (passive_film_nil _ _ _ HP)) as (rp & tp & AP).
  pose proof (bare_amp pS _ _ _ _ _ _ _ _ _ AS) as (Z0 & Z1 & Z2 & F1 & E1).
  pose proof (bare_amp pP _ _ _ _ _ _ _ _ _ AP) as (_ & _ & _ & F2 & E2).
  rewrite (Rabs_pos_eq (cos th)) in * by lra.
  set (s := RtoC (Re nA) * RtoC (sin th)) in *. set (c := code_cos s nB) in *.
  set (n := Re nA) in *.
  assert (C2 : nB * nB * (c * c) = nB * nB - s * s).
  { unfold c. rewrite code_cos_sq. field. auto. }
  assert (NS : rs <> 0).
  { intros E. rewrite E1 in E.
    assert (X : RtoC n * RtoC (cos th) - nB * c = 0).
    { transitivity ((RtoC n * RtoC (cos th) - nB * c) / (RtoC n * RtoC (cos th) + nB * c) *
        (RtoC n * RtoC (cos th) + nB * c)); [field; auto|rewrite E; ring]. }
    assert (Y : nB * nB = RtoC n * RtoC n).
    { transitivity (nB * c * (nB * c) + s * s).
      - transitivity (nB * nB * (c * c) + s * s); [rewrite C2; ring|ring].
      - replace (nB * c) with (RtoC n * RtoC (cos th)).
        + unfold s. rewrite <- !RtoC_mult, <- RtoC_plus. f_equal.
          pose proof (sin2_cos2 th) as H. unfold Rsqr in H. nra.
        + transitivity (RtoC n * RtoC (cos th) - nB * c + nB * c); [ring|rewrite X; ring]. }
    apply NE. apply passive_sq_inj; auto. split; simpl; lra. }
  unfold psi_delta. cbn [amp] in AS, AP. rewrite AS, AP.
  assert (RP0 : rp = 0 <-> Im nB = 0%R /\ tan th = (Re nB / n)%R).
  { assert (RPE : rp = 0 <-> nB * RtoC (cos th) = RtoC n * c).
    { rewrite E2. split; intros X.
      - transitivity ((nB * RtoC (cos th) - RtoC n * c) / (nB * RtoC (cos th) + RtoC n * c) *
          (nB * RtoC (cos th) + RtoC n * c) + RtoC n * c); [field; auto|rewrite X; ring].
      - rewrite X. rewrite X in F2. field. auto. }
    rewrite RPE. split.
    - intros X.
      assert (P4 : (nB * nB - RtoC n * RtoC n) * (nB * nB * RtoC (cos th) * RtoC (cos th) - s * s) = 0).
      { assert (Y : nB * nB * (nB * RtoC (cos th) * (nB * RtoC (cos th))) = RtoC n * RtoC n * (nB * nB - s * s)).
        { rewrite X. transitivity (RtoC n * RtoC n * (nB * nB * (c * c))); [ring|rewrite C2; ring]. }
        assert (SC : s * s = RtoC n * RtoC n - RtoC n * RtoC n * RtoC (cos th) * RtoC (cos th)).
        { unfold s. rewrite <- !RtoC_mult, <- RtoC_minus. f_equal.
          pose proof (sin2_cos2 th) as H. unfold Rsqr in H.
          replace (sin th * sin th)%R with (1 - cos th * cos th)%R by lra.
          transitivity (n * n * (sin th * sin th))%R; [ring|].
          replace (sin th * sin th)%R with (1 - cos th * cos th)%R by lra. ring. }
        transitivity (nB * nB * (nB * RtoC (cos th) * (nB * RtoC (cos th))) - RtoC n * RtoC n * (nB * nB * RtoC (cos th) * RtoC (cos th))
          - nB * nB * (s * s) + RtoC n * RtoC n * (s * s)); [ring|].
        rewrite Y. transitivity (RtoC n * RtoC n * (nB * nB) - RtoC n * RtoC n * (nB * nB * RtoC (cos th) * RtoC (cos th)) - nB * nB * (s * s)); [ring|].
        rewrite SC. ring. }
      apply Cmult_integral in P4 as [P4|P4].
      { exfalso. apply NE. apply passive_sq_inj; auto; [split; simpl; lra|].
        transitivity (nB * nB - RtoC n * RtoC n + RtoC n * RtoC n); [ring|rewrite P4; ring]. }
      assert (Q : (nB * RtoC (cos th)) * (nB * RtoC (cos th)) = s * s).
      { transitivity (nB * nB * RtoC (cos th) * RtoC (cos th) - s * s + s * s); [ring|rewrite P4; ring]. }
      assert (QE : nB * RtoC (cos th) = RtoC (n * sin th)).
      { apply sq_eq_pm in Q as [Q|Q].
        - rewrite Q. unfold s. rewrite RtoC_mult. reflexivity.
        - exfalso. pose proof (f_equal Re Q) as QR. unfold s in QR. simpl in QR.
          destruct HP as [HP1 _]. change (fst nB) with (Re nB) in QR. nra. }
      pose proof (f_equal Re QE) as QR. pose proof (f_equal Im QE) as QI. simpl in QR, QI.
      change (fst nB) with (Re nB) in *. change (snd nB) with (Im nB) in *.
      split; [nra|]. unfold tan. 
      assert (QQ : (Re nB * cos th = n * sin th)%R) by lra.
      apply (Rmult_eq_reg_r (cos th * n)); [|nra]. 
      transitivity (n * sin th)%R; [field; lra|]. rewrite <- QQ. field. unfold n in *; lra.
    - intros [I0 T0].
      assert (QQ : (Re nB * cos th = n * sin th)%R).
      { unfold tan in T0. apply (Rmult_eq_reg_r (/ (cos th * n))).
        - transitivity (Re nB / n)%R; [field; unfold n in *; split; lra|]. rewrite <- T0. field. unfold n in *; split; lra.
        - apply Rinv_neq_0_compat. unfold n in *. nra. }
      assert (EN : nB = RtoC (Re nB)) by (apply C_eq; auto).
      destruct HP as [HP1 _].
      assert (CC : c = RtoC (n * cos th * (1 + 0) / (Re nB) * (Re nB * Re nB / (n * n)))).
      { symmetry. apply code_cos_unique.
        - simpl. unfold n in *. repeat apply Rmult_le_pos; try lra; try (left; apply Rinv_0_lt_compat; nra).
        - intros [_ X]. unfold s in X. rewrite EN in X. rewrite <- RtoC_mult, <- RtoC_div in X by lra. simpl in X.
          replace (n * sin th / Re nB)%R with (cos th) in X by (rewrite <- QQ; field; lra).
          rewrite Rabs_pos_eq in X by lra. pose proof (COS_bound th). lra.
        - replace (s / nB) with (RtoC (cos th)).
          + rewrite <- !RtoC_mult, <- RtoC_minus. f_equal.
            pose proof (sin2_cos2 th) as H. unfold Rsqr in H.
            transitivity ((Re nB * cos th / n) * (Re nB * cos th / n))%R; [field; unfold n in *; split; lra|].
            rewrite QQ. transitivity (sin th * sin th)%R; [field; unfold n in *; lra|lra].
          + unfold s. rewrite <- RtoC_mult, <- QQ, RtoC_mult, <- EN. field. auto. }
      rewrite CC. rewrite EN at 1. rewrite <- !RtoC_mult. f_equal. field. unfold n in *. split; lra. }
  unfold psi_of. destruct (Ceq_dec rs 0) as [|_]; [contradiction|].
  eexists _, _. split; [reflexivity|].
  assert (P0 : (atan (Cmod (rp / rs)%C) * (180 / PI))%R = 0%R <-> rp = 0).
  { pose proof PI_RGT_0 as PP. split; intros X.
    - apply Rmult_integral in X as [X|X].
      + rewrite <- atan_0 in X. apply (f_equal tan) in X. rewrite !tan_atan in X. apply Cmod_eq_0 in X.
        transitivity (rp / rs * rs); [field; auto|rewrite X; ring].
      + exfalso. assert (0 < 180 / PI)%R by (apply Rdiv_lt_0_compat; lra). lra.
    - rewrite X. replace (0 / rs) with (RtoC 0) by (field; auto). rewrite Cmod_0, atan_0. ring. }
  split; [rewrite P0; exact RP0|]. rewrite P0. split; intros X.
  - rewrite X. unfold delta_of. rewrite cdiv_some by auto. cbn [obind].
    replace (- 0 / rs) with (RtoC 0) by (field; auto). rewrite cdiv_none. reflexivity.
  - destruct (Ceq_dec rp 0) as [|N]; auto. exfalso.
    destruct (psi_delta_spec off rs rp NS N) as (p' & d' & _ & D & _). 
    destruct refl; [|congruence]. destruct (delta_reflect _ _ _ _ D) as (d2 & D2 & _). congruence.
Qed.

Theorem total_reflection_psi tA (nA : C) rA inner tB (nB : C) rB (aoi w off : R) refl :
  (0 < Re nA)%R -> (0 < aoi < 90)%R -> (0 < w)%R ->
  let s := (Re nA * sin (rad aoi))%R in
  Forall (fun nd => transparent (fst nd) /\ (0 <= snd nd)%R) (nm inner) ->
  passive_film s w (nm inner) nB -> transparent nB -> (Re nB < s)%R ->
  exists delta,
    fst (Delta_Psi_TMM [aoi] (table tA nA rA inner tB nB rB) w off refl) = Ok [(Some 45%R, Some delta)].
Proof.
  intros H0 HA HW s TI PF TB HS. pose proof (rad_range _ HA) as HT. 
  rewrite DP_map. cbn [map]. unfold DP_one. unfold s in *. clear s. set (th := rad aoi) in *.
  assert (CP : (0 < cos th)%R) by (apply cos_gt_0; lra).
  assert (SP : (0 < sin th)%R) by (apply sin_gt_0; lra).
  assert (M1 : forall p r t, amp p (tmm_point (ns (RtoC (Re nA)) (nm inner) nB) (ds PInf (nm inner) PInf) true th w) = Some (r, t) -> Cmod r = 1%R).
  { intros p r t A.
    set (back := code_end (RtoC (Re nA) * RtoC (sin th)) nB).
    assert (HC : coh_tmm (ns (RtoC (Re nA)) (nm inner) nB) (ds PInf (nm inner) PInf) [(th, w)] =
      Ok [tmm_point (ns (RtoC (Re nA)) (nm inner) nB) (ds PInf (nm inner) PInf) true th w]).
    { rewrite coh_tmm_real_ok. reflexivity. }
    assert (PB : passive nB) by (destruct TB; split; lra).
    assert (SB : snell (RtoC (Re nA) * RtoC (sin th)) back).
    { split; [cbn [back code_end idx]; apply passive_nz; auto|]. cbn [back code_end idx cosine]. apply code_cos_sq. }
    pose proof (energy_lossless p (Re nA) (nm inner) nB PInf PInf th w
      (tmm_point (ns (RtoC (Re nA)) (nm inner) nB) (ds PInf (nm inner) PInf) true th w) r t
      (mkMedium (RtoC (Re nA)) (RtoC (Rabs (cos th))) 0) back H0 HW ltac:(lra) TI PB eq_refl eq_refl eq_refl SB) as EL.
    specialize (EL ltac:(cbn [back code_end cosine]; apply ccos_carcsin_Re) HC A).
    rewrite flux_forward in EL. rewrite flux_front in EL by reflexivity. cbn [idx cosine] in EL. rewrite Rabs_pos_eq in EL by lra.
    cbn [back code_end idx cosine RtoC Re fst] in EL. rewrite Cmod_1 in EL.
    assert (BK : code_cos (RtoC (Re nA) * RtoC (sin th)) nB = (0%R, (- sqrt ((Re nA * sin th / Re nB) * (Re nA * sin th / Re nB) - 1))%R)).
    { unfold code_cos. destruct TB as [B1 B2].
      assert (EN : nB = RtoC (Re nB)) by (apply C_eq; auto).
      rewrite EN at 1. rewrite <- RtoC_mult, <- RtoC_div by lra. apply ccos_carcsin_cut.
      apply (Rmult_lt_reg_r (Re nB)); auto. unfold Rdiv. rewrite Rmult_assoc, Rinv_l by lra. lra. }
    rewrite BK in EL.
    assert (K0 : Re (kappa p nB (0%R, (- sqrt ((Re nA * sin th / Re nB) * (Re nA * sin th / Re nB) - 1))%R)) = 0%R).
    { destruct TB as [B1 B2]. destruct nB as [u v]. simpl in B2. subst v. destruct p; simpl; ring. }
    rewrite K0, Rmult_0_l in EL.
    assert (X : (Cmod r * Cmod r = 1)%R).
    { assert (0 < Re nA * cos th)%R by (apply Rmult_lt_0_compat; auto). change (fst nA) with (Re nA) in *. nra. }
    pose proof (Cmod_ge_0 r). nra. }
  destruct (passive_amp pS (Re nA) (nm inner) nB PInf PInf th w H0 HW ltac:(lra) PF) as (rs & ts & AS).
  destruct (passive_amp pP (Re nA) (nm inner) nB PInf PInf th w H0 HW ltac:(lra) PF) as (rp & tp & AP).
  pose proof (M1 _ _ _ AS) as MS. pose proof (M1 _ _ _ AP) as MP.
  unfold psi_delta. cbn [amp] in AS, AP. rewrite AS, AP.
  assert (NS : rs <> 0) by (intros E; rewrite E, Cmod_0 in MS; lra).
  assert (NP : rp <> 0) by (intros E; rewrite E, Cmod_0 in MP; lra).
  assert (P45 : psi_of rs rp = Some 45%R).
  { unfold psi_of. destruct (Ceq_dec rs 0) as [|_]; [contradiction|]. f_equal.
    rewrite Cmod_div by auto. rewrite MS, MP. replace (1 / 1)%R with 1%R by field. rewrite atan_1.
    field. pose proof PI_RGT_0; lra. }
  rewrite P45.
  destruct (psi_delta_spec off rs rp NS NP) as (p' & d' & _ & D & _).
  destruct refl; [destruct (delta_reflect _ _ _ _ D) as (d2 & D2 & _); rewrite D2|rewrite D]; eauto.
Qed.
