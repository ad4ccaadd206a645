(** * Wrappers and concrete instances used by Properties_tmm. *)

Require Import Reals.
From Coquelicot Require Import Rcomplements Complex.
Require Import List Bool Lia Lra Psatz.
From Verif Require Import Base Cplx M_tmm Spec_optics P_tmm P_tmm2 P_tmm3 P_tmm4 P_flux P_flux2 P_flux3
  P_psidelta P_psidelta2 P_film.
Import ListNotations.
Open Scope R_scope.
Open Scope C_scope.

Lemma Forall_fine (s lam : R) inner : (0 < lam)%R -> Forall (film_layer s lam) inner ->
  Forall (layer_fine s lam) inner.
Proof. intros L F. eapply Forall_impl; [|exact F]. intros nd H. exact (proj1 (film_layer_code _ _ _ L H)). Qed.

Theorem passive_defined' p (n0 : R) inner nN dA dB th0 lam :
  (0 < n0)%R -> (0 < lam)%R -> cos th0 <> 0%R ->
  passive_film (n0 * sin th0) lam inner nN ->
  exists a r t, coh_tmm (ns (RtoC n0) inner nN) (ds dA inner dB) [(th0, lam)] = Ok [a] /\
    amp p a = Some (r, t).
Proof. intros H0 L HC (F & NC & HN). apply passive_defined; auto. apply Forall_fine; auto. Qed.

Theorem energy_passive' p (n0 : R) inner nN dA dB th0 lam a r t front back :
  (0 < n0)%R -> (0 < lam)%R ->
  Forall (film_layer (n0 * sin th0) lam) inner -> passive nN ->
  idx front = RtoC n0 -> cosine front = RtoC (Rabs (cos th0)) ->
  idx back = nN -> snell (RtoC n0 * RtoC (sin th0)) back -> (0 <= Re (cosine back))%R ->
  coh_tmm (ns (RtoC n0) inner nN) (ds dA inner dB) [(th0, lam)] = Ok [a] ->
  amp p a = Some (r, t) ->
  (flux p back t 0 <= flux p front 1 r)%R /\ (0 <= flux p back t 0)%R /\
  flux p front 1 r = (n0 * Rabs (cos th0) * (1 - Cmod r * Cmod r))%R /\ (Cmod r <= 1)%R.
Proof. intros H0 L F. apply energy_passive; auto. apply Forall_fine; auto. Qed.

Theorem energy_RT p (n0 nN : R) inner dA dB th0 lam a r t cN :
  (0 < n0)%R -> (0 < nN)%R -> (0 < lam)%R -> (0 <= sin th0)%R -> cos th0 <> 0%R ->
  Forall (fun nd => transparent (fst nd) /\ (0 <= snd nd)%R) inner ->
  (0 <= cN)%R -> (cN * cN = 1 - (n0 * sin th0 / nN) * (n0 * sin th0 / nN))%R ->
  coh_tmm (ns (RtoC n0) inner (RtoC nN)) (ds dA inner dB) [(th0, lam)] = Ok [a] ->
  amp p a = Some (r, t) ->
  (Cmod r * Cmod r + nN * cN / (n0 * Rabs (cos th0)) * (Cmod t * Cmod t) = 1)%R.
Proof.
  intros H0 HN L S0 C0 F HcN E HC A.
  set (front := mkMedium (RtoC n0) (RtoC (Rabs (cos th0))) 0).
  set (back := mkMedium (RtoC nN) (RtoC cN) 0).
  assert (X : flux p back t 0 = flux p front 1 r).
  { apply (energy_lossless p n0 inner (RtoC nN) dA dB th0 lam a r t front back); auto.
    - split; simpl; lra.
    - split; cbn [idx cosine back].
      + intros Z; apply RtoC_inj in Z; lra.
      + rewrite <- !RtoC_mult, <- RtoC_div, <- !RtoC_mult, <- RtoC_minus by lra. f_equal. exact E. }
  rewrite flux_forward, flux_front in X by reflexivity. rewrite Cmod_1 in X.
  cbn [idx cosine front back] in X.
  assert (K : (0 < n0 * Rabs (cos th0))%R) by (apply Rmult_lt_0_compat; auto; apply Rabs_pos_lt; auto).
  assert (Y : (nN * cN * (Cmod t * Cmod t) = n0 * Rabs (cos th0) * (1 - Cmod r * Cmod r))%R).
  { destruct p; unfold kappa in X; simpl in X; rewrite <- (Rmult_1_r 1) at 1; lra. }
  apply Rmult_eq_reg_l with (n0 * Rabs (cos th0))%R; [|lra].
  transitivity (n0 * Rabs (cos th0) * (Cmod r * Cmod r) + nN * cN * (Cmod t * Cmod t))%R.
  - field. apply Rgt_not_eq in K. split; intros Z; apply K; rewrite Z; ring.
  - rewrite Y. ring.
Qed.

Theorem split_layer' p (n0 : C) inner1 (nL : C) (d1 d2 : R) inner2 (nN : C) dA dB dA' dB'
    (th0 lam : R) a a' x y :
  (0 <= d1)%R -> (0 <= d2)%R ->
  (forall m, layer_ok (n0 * RtoC (sin th0)) lam (nL, (d1 + d2)%R) m -> (0 <= Re (cosine m))%R ->
     (Im (phase m) <= 35)%R) ->
  coh_tmm (ns n0 (inner1 ++ (nL, d1) :: (nL, d2) :: inner2) nN)
          (ds dA (inner1 ++ (nL, d1) :: (nL, d2) :: inner2) dB) [(th0, lam)] = Ok [a] ->
  coh_tmm (ns n0 (inner1 ++ (nL, (d1 + d2)%R) :: inner2) nN)
          (ds dA' (inner1 ++ (nL, (d1 + d2)%R) :: inner2) dB') [(th0, lam)] = Ok [a'] ->
  amp p a = Some x -> amp p a' = Some y -> x = y.
Proof.
  intros H1 H2 HM HC HC' A A'.
  pose proof A' as A2. rewrite (coh_tmm_one_true _ _ _ _ _ _ _ _ HC') in A2. destruct y as [r' t'].
  apply tmm_point_iff in A2 as (NZ & HL & _).
  assert (lam <> 0%R) by (apply HL; destruct inner1; discriminate).
  assert (nL <> 0).
  { destruct NZ as (_ & NZ & _). apply Forall_app in NZ as [_ NZ]. inversion NZ; auto. }
  eapply (split_layer p n0 inner1 nL d1 d2 inner2 nN); eauto.
  set (s := n0 * RtoC (sin th0)) in *.
  assert (RtoC lam <> 0) by (intros Z; apply RtoC_inj in Z; auto).
  replace (2 * PI * nL * code_cos s nL / lam * RtoC (d1 + d2))
    with (2 * PI * nL * code_cos s nL * RtoC (d1 + d2) / lam) by (field; auto).
  apply (HM (mkMedium nL (code_cos s nL) (2 * PI * nL * code_cos s nL * RtoC (d1 + d2) / lam))).
  - split; auto. split; [|reflexivity]. split; auto. apply code_cos_sq.
  - apply ccos_carcsin_Re.
Qed.

Theorem inner_branch p n0 inner nN dA dB th0 lam a r t front ms ms' back :
  let s := n0 * RtoC (sin th0) in
  coh_tmm (ns n0 inner nN) (ds dA inner dB) [(th0, lam)] = Ok [a] ->
  amp p a = Some (r, t) ->
  physical_stack n0 inner nN s lam front ms back ->
  physical_stack n0 inner nN s lam front ms' back ->
  cosine front = RtoC (Rabs (cos th0)) ->
  (0 <= Re (cosine back))%R -> ~ total_reflection s nN ->
  Forall (fun m => (Rabs (Im (phase m)) <= 35)%R) ms ->
  reflection_problem p front (ms ++ [back]) r t /\ reflection_problem p front (ms' ++ [back]) r t.
Proof.
  intros s HC A PS PS' Hf Hb NT HB.
  pose proof A as A2. rewrite (coh_tmm_one_true _ _ _ _ _ _ _ _ HC) in A2.
  apply tmm_point_iff in A2 as (NZ & HL & _).
  assert (HB' : Forall (fun m => (Rabs (Im (phase m)) <= 35)%R) ms').
  { destruct PS as (_ & _ & F & _), PS' as (_ & _ & F' & _). clear - F F' HB HL. fold s in F, F'.
    revert ms' F'. induction F as [|nd m i ms0 H1 H2 IH]; intros ms' F'; inversion F'; subst; constructor.
    - inversion HB; subst. assert (N : lam <> 0%R) by (apply HL; discriminate).
      assert (K : forall z, Rabs (Im (- z)) = Rabs (Im z)) by (intros [u v]; simpl; apply Rabs_Ropp).
      destruct (layer_ok_flip _ _ _ _ N H1) as [E1|E1], (layer_ok_flip _ _ _ _ N H3) as [E2|E2];
        rewrite E1 in H4; rewrite E2; unfold flip in *; cbn [phase] in *; rewrite ?K in *; auto.
    - inversion HB; subst. apply IH; auto. intros; apply HL; discriminate. }
  split; eapply coh_tmm_solves; eauto.
Qed.

Lemma flip_physical n0 inner nN s lam front ms back :
  physical_stack n0 inner nN s lam front ms back ->
  physical_stack n0 inner nN s lam front (map (fun m => mkMedium (idx m) (- cosine m) (- phase m)) ms) back.
Proof.
  intros (H1 & H2 & F & H3 & H4). split; auto. split; auto. split; auto.
  induction F as [|nd m i ms0 (O1 & [O2 O3] & O4) H IH]; constructor; auto.
  split; [exact O1|]. split; [split; [exact O2|]|]; cbn [idx cosine phase].
  - rewrite <- O3. ring.
  - rewrite O4. unfold Cdiv. ring.
Qed.

Theorem backing_decays p (n0 : R) inner nN dA dB th0 lam a r t front ms back :
  let s := RtoC n0 * RtoC (sin th0) in
  passive nN -> (0 < Im nN)%R ->
  coh_tmm (ns (RtoC n0) inner nN) (ds dA inner dB) [(th0, lam)] = Ok [a] ->
  amp p a = Some (r, t) ->
  physical_stack (RtoC n0) inner nN s lam front ms back ->
  cosine front = RtoC (Rabs (cos th0)) ->
  Forall (fun m => (Rabs (Im (phase m)) <= 35)%R) ms ->
  (0 < Im (idx back * cosine back)%C)%R ->
  (0 < Re (idx back * cosine back)%C)%R /\
  forall r' t', reflection_problem p front (ms ++ [back]) r' t' <-> r' = r /\ t' = t.
Proof.
  intros s HN HI HC A PS Hf HB Q.
  pose proof PS as (P1 & P2 & P3 & P4 & P5 & P6).
  destruct (backing_absorbing (n0 * sin th0) nN HN HI) as [B1 B2].
  rewrite RtoC_mult in B1, B2. fold s in B1, B2. rewrite P4 in *.
  assert (CB : cosine back = code_cos s nN).
  { destruct (sq_eq_pm (cosine back) (code_cos s nN)) as [E|E]; auto.
    - rewrite code_cos_sq; auto.
    - exfalso. rewrite E in Q. replace (nN * - code_cos s nN) with (- (nN * code_cos s nN)) in Q by ring.
      destruct (nN * code_cos s nN); simpl in *; lra. }
  split; [rewrite CB; auto|].
  eapply coh_tmm_solves_branch; eauto.
Qed.

Theorem backing_outgoing p (n0 : R) inner nN dA dB th0 lam a r t front ms back :
  let s := RtoC n0 * RtoC (sin th0) in
  transparent nN -> (Rabs (n0 * sin th0) < Re nN)%R ->
  coh_tmm (ns (RtoC n0) inner nN) (ds dA inner dB) [(th0, lam)] = Ok [a] ->
  amp p a = Some (r, t) ->
  physical_stack (RtoC n0) inner nN s lam front ms back ->
  cosine front = RtoC (Rabs (cos th0)) ->
  Forall (fun m => (Rabs (Im (phase m)) <= 35)%R) ms ->
  (0 < Re (idx back * cosine back)%C)%R ->
  Im (idx back * cosine back) = 0%R /\
  forall r' t', reflection_problem p front (ms ++ [back]) r' t' <-> r' = r /\ t' = t.
Proof.
  intros s HN HI HC A PS Hf HB Q.
  pose proof PS as (P1 & P2 & P3 & P4 & P5 & P6).
  destruct (backing_transparent (n0 * sin th0) nN HN HI) as [B1 B2].
  rewrite RtoC_mult in B1, B2. fold s in B1, B2. rewrite P4 in *.
  assert (CB : cosine back = code_cos s nN).
  { destruct (sq_eq_pm (cosine back) (code_cos s nN)) as [E|E]; auto.
    - rewrite code_cos_sq; auto.
    - exfalso. rewrite E in Q. replace (nN * - code_cos s nN) with (- (nN * code_cos s nN)) in Q by ring.
      destruct (nN * code_cos s nN); simpl in *; lra. }
  split; [rewrite CB; auto|].
  eapply coh_tmm_solves_branch; eauto.
Qed.

Lemma clip35_spec (z : C) : Re (clip35 z) = Re z /\ ((Im z <= 35)%R -> clip35 z = z) /\
  ((35 < Im z)%R -> Im (clip35 z) = 35%R).
Proof.
  split; [reflexivity|]. split; [apply clip35_id|].
  intros H. unfold clip35. cbn [Im snd]. apply Rmin_right; lra.
Qed.

(** ** Instances: air | 39/25 (1000 A) | 51/40 at sin = 3/5 *)
Definition th35 : R := asin (3 / 5).
Definition ex_aoi : R := (th35 * (180 / PI))%R.
Definition ex_inner : list (C * R * R) := [(RtoC (39/25), 1000%R, 3%R)].
Definition ex_table := table 0 (RtoC 1) 0 ex_inner 0 (RtoC (51/40)) 2.

Lemma rad_ex : rad ex_aoi = th35.
Proof. apply deg_rad. Qed.
Lemma sin35 : sin th35 = (3 / 5)%R.
Proof. apply sin_asin; lra. Qed.
Lemma cos35 : cos th35 = (4 / 5)%R.
Proof.
  unfold th35. rewrite cos_asin by lra. replace (1 - Rsqr (3 / 5))%R with ((4 / 5) * (4 / 5))%R by (unfold Rsqr; lra).
  apply sqrt_square. lra.
Qed.
Lemma cosn0 : cos (rad ex_aoi) <> 0%R.
Proof. rewrite rad_ex, cos35. lra. Qed.
Lemma nm_ex : nm ex_inner = [(RtoC (39/25), 100%R)].
Proof. unfold nm, ex_inner. cbn [map fst snd]. repeat f_equal. lra. Qed.

Lemma ex_two_angles : exists v1 v2,
  fst (Delta_Psi_TMM [ex_aoi; (- ex_aoi)%R] ex_table 633 0 false) = Ok [v1; v2].
Proof. unfold ex_table. rewrite DP_map. cbn [map]. eauto. Qed.

Lemma not_crit_gt (s : R) (n : C) : (s * s < Re n * Re n - Im n * Im n)%R -> not_critical s n.
Proof. intros H E. apply (f_equal Re) in E. destruct n as [x y]. simpl in *. lra. Qed.

Lemma ex_film1 (s : R) : (Rabs s <= 3/5)%R -> passive_film s 633 [(RtoC (39/25), 100%R)] (RtoC (51/40)).
Proof.
  intros Hs. assert (s * s <= 9/25)%R by (apply Rabs_le_between in Hs; nra).
  split; [|split].
  - constructor; [|constructor]. apply film_layer_transparent; try lra.
    + split; simpl; lra.
    + simpl. lra.
  - constructor; [|constructor]. cbn [fst]. apply not_crit_gt. simpl. lra.
  - split; simpl; lra.
Qed.

Lemma no_TIR (s n : R) : (0 < n)%R -> (Rabs s <= n)%R -> ~ total_reflection (RtoC s) (RtoC n).
Proof.
  intros Hn Hs [_ T]. rewrite <- RtoC_div in T by lra. cbn [Re fst RtoC] in T.
  unfold Rdiv in T. rewrite Rabs_mult, Rabs_inv, (Rabs_right n) in T by lra.
  assert (Rabs s * / n <= 1)%R; [|lra].
  apply Rmult_le_reg_r with n; auto. rewrite Rmult_assoc, Rinv_l by lra. lra.
Qed.

Lemma ex_s : (Re (RtoC 1) * sin (rad ex_aoi) = 3/5)%R.
Proof. rewrite rad_ex, sin35. simpl. lra. Qed.

Lemma ex_opposite : (0 < Re (RtoC 1))%R /\ (0 < 633)%R /\
  forall aoi, In aoi [ex_aoi] -> cos (rad aoi) <> 0%R /\
      passive_film (Re (RtoC 1) * sin (rad aoi)) 633 (nm ex_inner) (RtoC (51/40)) /\
      ~ total_reflection (RtoC (Re (RtoC 1)) * RtoC (sin (rad aoi))) (RtoC (51/40)).
Proof.
  split; [simpl; lra|]. split; [lra|]. intros aoi [<-|[]]. split; [apply cosn0|].
  rewrite nm_ex. split.
  - rewrite ex_s. apply ex_film1. rewrite Rabs_right; lra.
  - rewrite <- RtoC_mult, ex_s. apply no_TIR; [lra|]. rewrite Rabs_right; lra.
Qed.

Lemma ex_physical :
  let s := RtoC (Re (RtoC 1)) * RtoC (sin (rad ex_aoi)) in
  cos (rad ex_aoi) <> 0%R /\
  passive_film (Re (RtoC 1) * sin (rad ex_aoi)) 633 (nm ex_inner) (RtoC (51/40)) /\
  exists front ms back,
  physical_stack (RtoC (Re (RtoC 1))) (nm ex_inner) (RtoC (51/40)) s 633 front ms back /\
  cosine front = RtoC (Rabs (cos (rad ex_aoi))) /\
  (0 <= Re (cosine back))%R /\ ~ total_reflection s (RtoC (51/40)) /\
  Forall (fun m => (Rabs (Im (phase m)) <= 35)%R) ms.
Proof.
  intros s. destruct ex_opposite as (_ & _ & H). destruct (H ex_aoi (or_introl eq_refl)) as (H1 & H2 & H3).
  split; auto. split; auto.
  assert (Es : s = RtoC (3/5)) by (unfold s; rewrite <- RtoC_mult, ex_s; reflexivity).
  exists (mkMedium 1 (RtoC (4/5)) 0),
    [mkMedium (RtoC (39/25)) (RtoC (12/13)) (2 * PI * RtoC (39/25) * RtoC (12/13) * RtoC 100 / RtoC 633)],
    (mkMedium (RtoC (51/40)) (RtoC (15/17)) 0).
  rewrite nm_ex, Es in *. split; [|split; [|split; [|split]]]; [| | |rewrite <- Es; exact H3|].
  - split; [reflexivity|]. split; [|split; [|split; [reflexivity|]]].
    + split; cbn [idx cosine]; [intros X; apply RtoC_inj in X; lra|].
      apply C_eq; simpl; field.
    + constructor; [|constructor]. split; [reflexivity|]. split; [|reflexivity].
      split; cbn [idx cosine]; [intros X; apply RtoC_inj in X; lra|].
      apply C_eq; simpl; field.
    + split; cbn [idx cosine]; [intros X; apply RtoC_inj in X; lra|].
      apply C_eq; simpl; field.
  - cbn [cosine]. rewrite rad_ex, cos35, Rabs_right by lra. reflexivity.
  - simpl. lra.
  - constructor; [|constructor]. cbn [phase].
    assert (E : 2 * PI * RtoC (39/25) * RtoC (12/13) * RtoC 100 / RtoC 633 =
       RtoC (2 * PI * (39/25) * (12/13) * 100 / 633)).
    { rewrite (RtoC_div (2 * PI * (39/25) * (12/13) * 100) 633) by lra. rewrite !RtoC_mult. reflexivity. }
    rewrite E. simpl. rewrite Rabs_R0. lra.
Qed.

Lemma ex_glass : exists rs ts rp tp,
  coh_tmm (ns (RtoC (Re (RtoC 1))) (nm []) (RtoC (3/2))) (ds PInf (nm []) PInf) [(rad 0, 633%R)]
    = Ok [mkAmp (Some (rs, ts)) (Some (rp, tp))] /\ rs <> 0 /\ rp <> 0.
Proof.
  assert (R0 : rad 0 = 0%R) by (unfold rad; ring). rewrite R0. change (nm []) with (@nil (C * R)).
  change (Re (RtoC 1)) with 1%R.
  assert (PF : passive_film (1 * sin 0) 633 [] (RtoC (3/2))).
  { split; [constructor|split; [constructor|]]. split; simpl; lra. }
  assert (C0 : cos 0 <> 0%R) by (rewrite cos_0; lra).
  destruct (passive_defined' pS 1 [] (RtoC (3/2)) PInf PInf 0 633 ltac:(lra) ltac:(lra) C0 PF) as (a & rs & ts & HC & A1).
  destruct (passive_defined' pP 1 [] (RtoC (3/2)) PInf PInf 0 633 ltac:(lra) ltac:(lra) C0 PF) as (a' & rp & tp & HC' & A2).
  assert (a' = a) by congruence. subst a'. destruct a as [x y]. cbn [amp amp_s amp_p] in A1, A2. subst x y.
  exists rs, ts, rp, tp. split; auto.
  destruct (normal_incidence _ _ _ _ _ _ _ _ _ _ _ _ sin_0 HC eq_refl eq_refl) as [E _].
  assert (rs <> 0).
  { intros Z.
    assert (W : forall r' t', reflection_problem pS (mkMedium 1 1 0) [mkMedium (RtoC (3/2)) 1 0] r' t' <-> r' = rs /\ t' = ts).
    { apply (coh_tmm_solves pS 1 [] (RtoC (3/2)) PInf PInf 0 633 _ rs ts (mkMedium 1 1 0) [] (mkMedium (RtoC (3/2)) 1 0) HC); auto.
      - split; [reflexivity|]. rewrite sin_0.
        split; [split; cbn [idx cosine]; [apply C1_neq_0|apply C_eq; simpl; field]|].
        split; [constructor|]. split; [reflexivity|].
        split; cbn [idx cosine]; [intros X; apply RtoC_inj in X; lra|apply C_eq; simpl; field].
      - cbn [cosine]. rewrite cos_0, Rabs_R1. reflexivity.
      - simpl. lra.
      - rewrite <- RtoC_mult, sin_0. apply no_TIR; [lra|]. rewrite Rmult_0_r, Rabs_R0. lra. }
    destruct (proj2 (W rs ts) (conj eq_refl eq_refl)) as [X1 X2].
    rewrite Z in X1, X2.
    cbn [tangential_1 tangential_2 idx cosine] in X1, X2. destruct ts as [u v].
    apply (f_equal Re) in X1. apply (f_equal Re) in X2. simpl in X1, X2. lra. }
  split; auto. intros Z. subst rp. apply H. rewrite E. ring.
Qed.

Lemma ex_glass_normal : exists rs ts rp tp, sin (rad 0) = 0%R /\
  coh_tmm (ns (RtoC (Re (RtoC 1))) (nm []) (RtoC (3/2))) (ds PInf (nm []) PInf) [(rad 0, 633%R)]
    = Ok [mkAmp (Some (rs, ts)) (Some (rp, tp))] /\ rp <> 0.
Proof.
  destruct ex_glass as (rs & ts & rp & tp & H & H1 & H2). exists rs, ts, rp, tp. split; auto.
  unfold rad. rewrite Rmult_0_l. apply sin_0.
Qed.

Lemma ex_ignored :
  fst (Delta_Psi_TMM [70%R] [mkLayer 0 (Some (1, 0%R)%R) 0; mkLayer 250 (Some (3/2, 0)%R) 0; mkLayer 0 (Some (4, 1)%R) 0] 633 0 false) =
  fst (Delta_Psi_TMM [70%R] [mkLayer 7 (Some (1, 5)%R) 8; mkLayer 250 (Some (3/2, 0)%R) 9; mkLayer 2 (Some (4, 1)%R) 3] 633 0 false).
Proof.
  apply (DP_ignores [70%R] 633 0 false (mkLayer 0 (Some (1, 0%R)%R) 0) (mkLayer 7 (Some (1, 5)%R) 8)
    [mkLayer 250 (Some (3/2, 0)%R) 0] [mkLayer 250 (Some (3/2, 0)%R) 9]); repeat constructor.
Qed.

Lemma ex_TIR_opposite : exists (n0 nB : C) (w aoi : R),
  (0 < Re n0)%R /\ (0 < w)%R /\ cos (rad aoi) <> 0%R /\ passive nB /\
  fst (Delta_Psi_TMM [(- aoi)%R] (table 0 n0 0 [] 0 nB 0) w 0 false) <>
  fst (Delta_Psi_TMM [aoi] (table 0 n0 0 [] 0 nB 0) w 0 false).
Proof.
  exists (RtoC (25/16)), 1, 633%R, (th45 * (180 / PI))%R.
  split; [simpl; lra|]. split; [lra|]. split; [rewrite deg_rad, cos45; lra|].
  split; [split; simpl; lra|]. rewrite !DP_map. cbn [map]. intros E.
  apply TIR_opp_differs. congruence.
Qed.

Lemma ex_TIR_refuted : exists (n0 nN : R) (th0 lam : R) a r t front back r' t',
  (0 < nN)%R /\ (0 < n0)%R /\ (0 < th0 < PI / 2)%R /\
  coh_tmm (ns (RtoC n0) [] (RtoC nN)) (ds PInf [] PInf) [(th0, lam)] = Ok [a] /\
  amp pS a = Some (r, t) /\
  physical_stack (RtoC n0) [] (RtoC nN) (RtoC n0 * RtoC (sin th0)) lam front [] back /\
  cosine front = RtoC (cos th0) /\
  (0 < Im (idx back * cosine back)%C)%R /\
  reflection_problem pS front [back] r' t' /\ r' <> r.
Proof.
  destruct (TIR_amp pS 1) as [t A]; [lra|]. rewrite !Rmult_1_l in A.
  exists (25/16)%R, 1%R, th45, 633%R,
    (tmm_point (ns (RtoC (25/16)) [] 1) (ds PInf [] PInf) true th45 633), (9 / 41, 40 / 41)%R, t,
    (mkMedium (RtoC (25/16)) (RtoC (3/5)) 0), (mkMedium 1 (0, 3/4)%R 0), (9 / 41, - (40 / 41))%R, (50/41, - (40/41))%R.
  split; [lra|]. split; [lra|]. split.
  { unfold th45. pose proof (asin_bound (4/5)) as AB. split.
    - destruct (Rlt_le_dec 0 (asin (4/5))) as [|N]; auto. exfalso.
      pose proof (sin_ge_0 (- asin (4/5)) ltac:(lra) ltac:(pose proof PI_RGT_0; lra)) as Q.
      rewrite sin_neg, sin_asin in Q by lra. lra.
    - destruct (proj2 AB) as [|E]; auto. pose proof cos45 as CC. unfold th45 in CC. rewrite E, cos_PI2 in CC. lra. }
  split. { rewrite coh_tmm_real_ok. reflexivity. }
  split. { exact A. }
  split. { rewrite sin45. split; [reflexivity|]. split; [|split; [constructor|split; [reflexivity|]]].
    - split; cbn [idx cosine]; [intros X; apply RtoC_inj in X; lra|apply C_eq; simpl; field].
    - split; cbn [idx cosine]; [apply C1_neq_0|apply C_eq; simpl; field]. }
  split. { cbn [cosine]. rewrite cos45. reflexivity. }
  split. { simpl. lra. }
  split. { split; unfold tangential_1, tangential_2; cbn [idx cosine]; apply C_eq; simpl; field. }
  intros E. apply (f_equal Im) in E. simpl in E. lra.
Qed.

Lemma ex_zero : exists a a' x y,
  coh_tmm (ns (RtoC 1) ([] ++ (RtoC (39/25), 0%R) :: []) (RtoC (51/40)))
          (ds PInf ([] ++ (RtoC (39/25), 0%R) :: []) PInf) [(rad ex_aoi, 633%R)] = Ok [a] /\
  coh_tmm (ns (RtoC 1) ([] ++ []) (RtoC (51/40))) (ds PInf ([] ++ []) PInf) [(rad ex_aoi, 633%R)] = Ok [a'] /\
  amp pP a = Some x /\ amp pP a' = Some y.
Proof.
  cbn [app]. pose proof ex_s as E. cbn [Re fst RtoC] in E.
  destruct (passive_defined' pP 1 [(RtoC (39/25), 0%R)] (RtoC (51/40)) PInf PInf (rad ex_aoi) 633)
    as (a & r & t & HC & A); try lra.
  { apply cosn0. }
  { rewrite E. split; [|split].
    - constructor; [|constructor]. apply film_layer_transparent; try lra.
      + split; simpl; lra.
      + rewrite Rabs_right; simpl; lra.
    - constructor; [|constructor]. cbn [fst]. apply not_crit_gt. simpl. lra.
    - split; simpl; lra. }
  destruct (passive_defined' pP 1 [] (RtoC (51/40)) PInf PInf (rad ex_aoi) 633)
    as (a' & r' & t' & HC' & A'); try lra.
  { apply cosn0. }
  { rewrite E. split; [|split]; [constructor|constructor|]. split; simpl; lra. }
  exists a, a', (r, t), (r', t'). auto.
Qed.

Lemma ex_split : forall m,
  layer_ok (RtoC 1 * RtoC (sin (rad ex_aoi))) 633 (RtoC (39/25), (100 + 50)%R) m -> (0 <= Re (cosine m))%R ->
     (Im (phase m) <= 35)%R.
Proof.
  intros m OK HR. rewrite <- RtoC_mult in OK. pose proof ex_s as E. cbn [Re fst RtoC] in E. rewrite E in OK.
  destruct (sq_eq_pm (cosine m) (RtoC (12/13))) as [EC|EC].
  { destruct OK as (O1 & [_ O2] & _). rewrite O2, O1. cbn [fst]. apply C_eq; simpl; field. }
  - destruct OK as (_ & _ & O3). rewrite O3, EC. cbn [fst snd].
    assert (X : 2 * PI * RtoC (39/25) * RtoC (12/13) * RtoC (100 + 50) / RtoC 633 =
       RtoC (2 * PI * (39/25) * (12/13) * (100 + 50) / 633)).
    { rewrite (RtoC_div (2 * PI * (39/25) * (12/13) * (100 + 50)) 633) by lra. rewrite !RtoC_mult. reflexivity. }
    rewrite X. simpl. lra.
  - exfalso. rewrite EC in HR. simpl in HR. lra.
Qed.

Definition ex_layers : list (C * R) := [(RtoC (39/25), 100%R); ((2, 1/10)%R, 20%R)].
Lemma ex_layers_film : Forall (film_layer (1 * sin (rad ex_aoi)) 633) ex_layers.
Proof.
  pose proof ex_s as E. cbn [Re fst RtoC] in E. rewrite E.
  constructor; [|constructor; [|constructor]].
  - apply film_layer_transparent; try lra.
    + split; simpl; lra.
    + rewrite Rabs_right; simpl; lra.
  - apply film_layer_absorbing; try lra.
    + split; simpl; lra.
    + simpl. lra.
Qed.
Lemma ex_defined : cos (rad ex_aoi) <> 0%R /\
  passive_film (1 * sin (rad ex_aoi)) 633 [(RtoC (39/25), 100%R); ((2, 1/10)%R, 20%R)] (4, 1/50)%R.
Proof.
  split; [apply cosn0|]. split; [apply ex_layers_film|].
  pose proof ex_s as E. cbn [Re fst RtoC] in E. rewrite E. split.
  - constructor; [|constructor; [|constructor]]; cbn [fst]; apply not_crit_gt; simpl; lra.
  - split; simpl; lra.
Qed.
Lemma ex_energy : Forall (film_layer (1 * sin (rad ex_aoi)) 633)
   [(RtoC (39/25), 100%R); ((2, 1/10)%R, 20%R)] /\ passive (4, 1/50)%R /\
  exists a r t, coh_tmm (ns (RtoC 1) [(RtoC (39/25), 100%R); ((2, 1/10)%R, 20%R)] (4, 1/50)%R)
     (ds PInf [(RtoC (39/25), 100%R); ((2, 1/10)%R, 20%R)] PInf) [(rad ex_aoi, 633%R)] = Ok [a] /\
    amp pP a = Some (r, t).
Proof.
  split; [apply ex_layers_film|]. split; [split; simpl; lra|].
  apply passive_defined'; try lra; apply ex_defined.
Qed.

Lemma ex_reciprocity : exists th1 a a' r t r' t',
  RtoC (51/40) * RtoC (sin th1) = RtoC 1 * RtoC (sin (rad ex_aoi)) /\
  coh_tmm (ns (RtoC 1) [(RtoC (39/25), 100%R)] (RtoC (51/40))) (ds PInf [(RtoC (39/25), 100%R)] PInf)
     [(rad ex_aoi, 633%R)] = Ok [a] /\
  coh_tmm (ns (RtoC (51/40)) (rev [(RtoC (39/25), 100%R)]) (RtoC 1)) (ds PInf (rev [(RtoC (39/25), 100%R)]) PInf)
     [(th1, 633%R)] = Ok [a'] /\ amp pS a = Some (r, t) /\ amp pS a' = Some (r', t').
Proof.
  pose proof ex_s as E. cbn [Re fst RtoC] in E. cbn [rev app].
  assert (S1 : sin (asin (8/17)) = (8/17)%R) by (apply sin_asin; lra).
  destruct (passive_defined' pS 1 [(RtoC (39/25), 100%R)] (RtoC (51/40)) PInf PInf (rad ex_aoi) 633)
    as (a & r & t & HC & A); try lra.
  { apply cosn0. }
  { rewrite E. apply ex_film1. rewrite Rabs_right; lra. }
  destruct (passive_defined' pS (51/40) [(RtoC (39/25), 100%R)] (RtoC 1) PInf PInf (asin (8/17)) 633)
    as (a' & r' & t' & HC' & A'); try lra.
  { rewrite cos_asin by lra. apply Rgt_not_eq, sqrt_lt_R0. unfold Rsqr. lra. }
  { rewrite S1. replace (51 / 40 * (8 / 17))%R with (3/5)%R by field.
    destruct (ex_film1 (3/5)) as (F1 & F2 & _); [rewrite Rabs_right; lra|].
    split; [|split]; auto. split; simpl; lra. }
  exists (asin (8/17)), a, a', r, t, r', t'. split; auto.
  rewrite S1, <- !RtoC_mult, E. f_equal. field.
Qed.

Lemma ex_mutates : exists AOI layers w off refl, snd (Delta_Psi_TMM AOI layers w off refl) <> layers.
Proof.
  exists [], [mkLayer 0 (Some (1, 1)%R) 0; mkLayer 0 (Some (1, 1)%R) 0], 633%R, 0%R, false.
  rewrite DP_table_after. cbn [l_thick l_ri l_rough omap]. intros E.
  assert (X : RtoC (Re (1, 1)%R) = (1, 1)%R) by congruence.
  apply (f_equal Im) in X. simpl in X. lra.
Qed.

Lemma ex_opaque : exists nF d nN front film back a r t rx tx G tau,
  let s := RtoC 1 * RtoC (sin 0) in
  Forall (film_layer (1 * sin 0) 600) [(nF, d)] /\ passive nN /\
  coh_tmm (ns (RtoC 1) [(nF, d)] nN) (ds PInf [(nF, d)] PInf) [(0%R, 600%R)] = Ok [a] /\
  amp pS a = Some (r, t) /\
  physical_stack (RtoC 1) [(nF, d)] nN s 600 front [film] back /\
  cosine front = RtoC (Rabs (cos 0)) /\
  (0 <= Re (cosine film))%R /\ (35 < Im (phase film))%R /\
  (0 <= Re (cosine back))%R /\ ~ total_reflection s nN /\
  reflection_problem pS front [film; back] rx tx /\
  reflection_problem pS film [back] G tau.
Proof.
  set (nF := (1, 1)%R : C). set (ph := 2 * PI * nF * 1 * RtoC 6000 / RtoC 600).
  assert (Eph : ph = (20 * PI, 20 * PI)%R).
  { unfold ph. replace (2 * PI * nF * 1 * RtoC 6000 / RtoC 600) with (nF * RtoC (2 * PI * 6000 / 600)).
    - unfold nF. apply C_eq; simpl; field.
    - rewrite RtoC_div by lra. rewrite !RtoC_mult. unfold Cdiv. ring. }
  assert (PI1 : (3 < PI)%R) by (pose proof PI2_3_2; lra).
  assert (FL : Forall (film_layer (1 * sin 0) 600) [(nF, 6000%R)]).
  { constructor; [|constructor]. rewrite sin_0, Rmult_0_r. apply film_layer_absorbing; try lra.
    - split; simpl; lra.
    - simpl. lra. }
  assert (NT : ~ total_reflection (RtoC 1 * RtoC (sin 0)) (RtoC 2)).
  { rewrite <- RtoC_mult, sin_0. apply no_TIR; [lra|]. rewrite Rmult_0_r, Rabs_R0. lra. }
  destruct (passive_defined' pS 1 [(nF, 6000%R)] (RtoC 2) PInf PInf 0 600) as (a & r & t & HC & A); try lra.
  { rewrite cos_0. lra. }
  { split; [exact FL|]. split.
    - constructor; [|constructor]. cbn [fst]. intros E. apply (f_equal Im) in E. simpl in E. lra.
    - split; simpl; lra. }
  set (G := (-(1/5), 2/5)%R : C). set (tau := (4/5, 2/5)%R : C).
  set (e := cexp (Ci * ph)). set (e' := cexp (- (Ci * ph))).
  assert (EE : e * e' = 1) by apply cexp_opp_r.
  set (E := G * (e * e)). set (D := (1, 1/2)%R + (0, -(1/2))%R * E).
  assert (ND : D <> 0).
  { assert (Ee : exists x, (0 < x)%R /\ e = RtoC x).
    { exists (exp (- (20 * PI))). split; [apply exp_pos|]. unfold e, cexp. rewrite Eph. simpl.
      replace (0 * (20 * PI) - 1 * (20 * PI))%R with (- (20 * PI))%R by ring.
      replace (0 * (20 * PI) + 1 * (20 * PI))%R with (0 + 2 * INR 10 * PI)%R by (simpl; ring).
      rewrite cos_period, sin_period, cos_0, sin_0. apply C_eq; simpl; ring. }
    destruct Ee as (x & Hx & Ex). unfold D, E. rewrite Ex. unfold G. intros Z. apply (f_equal Re) in Z.
    simpl in Z. nra. }
  set (f := 1 / D).
  assert (Ef : f * D = 1) by (unfold f; field; auto).
  exists nF, 6000%R, (RtoC 2), (mkMedium 1 1 0), (mkMedium nF 1 ph), (mkMedium (RtoC 2) 1 0),
    a, r, t, (f * ((0, -(1/2))%R + (1, 1/2)%R * E)), (f * e * tau), G, tau.
  assert (N2 : RtoC 2 <> 0) by apply C2_neq_0.
  split; [exact FL|]. split; [split; simpl; lra|]. split; [exact HC|]. split; [exact A|].
  split.
  { rewrite sin_0. split; [reflexivity|]. split; [|split; [|split; [reflexivity|]]].
    - split; cbn [idx cosine]; [apply C1_neq_0|apply C_eq; simpl; field].
    - constructor; [|constructor]. split; [reflexivity|]. split; [|reflexivity].
      split; cbn [idx cosine]; [intros X; apply (f_equal Re) in X; simpl in X; lra|].
      apply C_eq; simpl; field.
    - split; cbn [idx cosine]; auto. apply C_eq; simpl; field. }
  split; [cbn [cosine]; rewrite cos_0, Rabs_R1; reflexivity|].
  split; [simpl; lra|]. split; [cbn [phase]; rewrite Eph; simpl; lra|]. split; [simpl; lra|]. split; [exact NT|].
  assert (KG : 1 + G = tau /\ nF * (1 - G) = RtoC 2 * tau).
  { unfold G, tau, nF. split; apply C_eq; simpl; field. }
  destruct KG as [KG1 KG2].
  split.
  - exists f, (E * f). split.
    + split; unfold tangential_1, tangential_2; cbn [idx cosine].
      * transitivity (f * D + f * ((0, -(1/2))%R + (1, 1/2)%R * E)); [rewrite Ef; ring|].
        unfold D. transitivity (f * (((1, 1/2)%R + (0, -(1/2))%R) * (1 + E))); [ring|].
        replace ((1, 1/2)%R + (0, -(1/2))%R) with (RtoC 1) by (apply C_eq; simpl; field). ring.
      * transitivity (f * D - f * ((0, -(1/2))%R + (1, 1/2)%R * E)); [rewrite Ef; ring|].
        unfold D. transitivity (f * (((1, 1/2)%R - (0, -(1/2))%R) * (1 - E))); [ring|].
        replace ((1, 1/2)%R - (0, -(1/2))%R) with nF by (apply C_eq; simpl; field). ring.
    + cbn [waves phase]. fold e e'.
      assert (EB : E * f * e' = G * (f * e)).
      { unfold E. transitivity (G * (f * e) * (e * e')); [ring|]. rewrite EE. ring. }
      rewrite EB. split; unfold tangential_1, tangential_2; cbn [idx cosine].
      * transitivity (f * e * (1 + G)); [ring|]. rewrite KG1. ring.
      * transitivity (f * e * (nF * (1 - G))); [ring|]. rewrite KG2. ring.
  - split; unfold tangential_1, tangential_2; cbn [idx cosine].
    + rewrite KG1. ring.
    + transitivity (nF * (1 - G)); [ring|]. rewrite KG2. ring.
Qed.
