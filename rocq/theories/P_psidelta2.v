(** * Delta_Psi_TMM: ignored inputs, symmetry, scaling, normal incidence;
    the backing wave; opaque films. *)

Require Import Reals.
From Coquelicot Require Import Rcomplements Complex.
Require Import List Bool Arith Lra Lia Psatz.
From Verif Require Import Base Cplx M_tmm Spec_optics P_tmm P_tmm2 P_tmm3 P_tmm4 P_flux P_flux2 P_flux3 P_psidelta.
Import ListNotations.
Open Scope R_scope.
Open Scope C_scope.

(** ** Batches *)
Lemma Delta_Psi_batch AOI layers w off refl res : 
  fst (Delta_Psi_TMM AOI layers w off refl) = Ok res ->
  Forall2 (fun a x => fst (Delta_Psi_TMM [a] layers w off refl) = Ok [x]) AOI res.
Proof.
  unfold Delta_Psi_TMM. destruct layers as [|l0 rest]; [discriminate|].
  cbn [fst]. destruct (mapM l_ri (drop_k l0 :: rest)) as [RIs|].
  - set (pts := map _ AOI). intros H.
    destruct (coh_tmm RIs (thicks (drop_k l0 :: rest)) pts) as [as_|e] eqn:E; [|discriminate].
    cbn [rmap] in H. assert (res = map (psi_delta refl off) as_) as -> by congruence. clear H.
    apply coh_tmm_pointwise in E. unfold pts in E. clear pts.
    revert as_ E; induction AOI as [|a AOI IH]; intros as_ E; inversion E; subst; cbn [map]; constructor; auto.
    cbn [map]. rewrite H1. reflexivity.
  - destruct (l_ri l0) eqn:El.
    + destruct (length (l0 :: rest) <? 2)%nat.
      * destruct AOI; discriminate.
      * intros H. assert (res = map (fun _ => (None, None)) AOI) as -> by (destruct AOI; congruence).
        clear H. induction AOI; simpl; constructor; auto.
    + destruct AOI; [|discriminate].
      destruct (length (l0 :: rest) <? 2)%nat; [discriminate|].
      intros H. assert (res = []) as -> by (simpl in H; congruence). constructor.
Qed.

(** ** Ignored inputs *)
Lemma mapM_Forall2 {A B} (f : A -> option B) l l' : Forall2 (fun a b => f a = f b) l l' ->
  mapM f l = mapM f l'.
Proof. induction 1 as [|a b l l' H _ IH]; simpl; auto. rewrite H, IH. reflexivity. Qed.

Lemma DP_ignores AOI w off refl l0 l0' mid mid' lN lN' :
  omap Re (l_ri l0) = omap Re (l_ri l0') ->
  Forall2 (fun l l' => l_ri l = l_ri l' /\ l_thick l = l_thick l') mid mid' ->
  l_ri lN = l_ri lN' ->
  fst (Delta_Psi_TMM AOI (l0 :: mid ++ [lN]) w off refl) =
  fst (Delta_Psi_TMM AOI (l0' :: mid' ++ [lN']) w off refl).
Proof.
  intros H0 F HN. unfold Delta_Psi_TMM. cbn [fst].
  assert (D0 : l_ri (drop_k l0) = l_ri (drop_k l0')).
  { unfold drop_k. simpl. destruct (l_ri l0), (l_ri l0'); simpl in *; try congruence. }
  assert (FM : Forall2 (fun a b => l_ri a = l_ri b) (drop_k l0 :: mid ++ [lN]) (drop_k l0' :: mid' ++ [lN'])).
  { constructor; auto. apply Forall2_app; [|constructor; auto].
    clear - F. induction F as [|? ? ? ? [? _]]; constructor; auto. }
  rewrite (mapM_Forall2 _ _ _ FM).
  assert (LL : length mid = length mid') by (clear - F; induction F; simpl; auto).
  assert (T : thicks (drop_k l0 :: mid ++ [lN]) = thicks (drop_k l0' :: mid' ++ [lN'])).
  { assert (E : forall a m b, thicks (a :: m ++ [b]) =
      PInf :: map (fun l => Fin (l_thick l / 10)) m ++ [PInf]).
    { intros. transitivity (PInf :: map (fun l => Fin (l_thick l / 10)) (removelast (m ++ [b])) ++ [PInf]).
      - destruct m; reflexivity.
      - rewrite removelast_app1. reflexivity. }
    rewrite !E. do 2 f_equal. clear - F. induction F as [|? ? ? ? [_ H]]; simpl; congruence. }
  rewrite T. destruct (mapM l_ri (drop_k l0' :: mid' ++ [lN'])); auto.
  assert (LE : length (l0 :: mid ++ [lN]) = length (l0' :: mid' ++ [lN'])).
  { simpl. rewrite !app_length, LL. reflexivity. }
  rewrite LE.
  destruct (l_ri l0), (l_ri l0'); simpl in H0; try discriminate; auto.
Qed.

(** the table is left with the first extinction coefficient zeroed, otherwise intact *)
Lemma DP_table_after AOI l0 rest w off refl :
  snd (Delta_Psi_TMM AOI (l0 :: rest) w off refl) =
  mkLayer (l_thick l0) (omap (fun z => RtoC (Re z)) (l_ri l0)) (l_rough l0) :: rest.
Proof. reflexivity. Qed.

(** ** Symmetry in the angle of incidence *)
Lemma total_reflection_opp (s n : C) : n <> 0 -> total_reflection (- s) n <-> total_reflection s n.
Proof.
  intros Hn. unfold total_reflection.
  replace (- s / n) with (- (s / n)) by (field; auto).
  replace (Im (- (s / n))) with (- Im (s / n)%C)%R by reflexivity.
  replace (Re (- (s / n))) with (- Re (s / n)%C)%R by reflexivity.
  rewrite Rabs_Ropp. split; intros [A B]; split; auto; lra.
Qed.

Lemma code_cos_opp (s n : C) : n <> 0 -> ~ total_reflection s n -> code_cos (- s) n = code_cos s n.
Proof.
  intros Hn NT. symmetry. apply code_cos_unique.
  - apply ccos_carcsin_Re.
  - rewrite total_reflection_opp; auto.
  - rewrite code_cos_sq. field. auto.
Qed.
Lemma code_cos_opp_pm (s n : C) : n <> 0 ->
  code_cos (- s) n = code_cos s n \/ code_cos (- s) n = - code_cos s n.
Proof.
  intros Hn. apply sq_eq_pm. rewrite !code_cos_sq. field; auto.
Qed.

Lemma total_reflection_dec s n : {total_reflection s n} + {~ total_reflection s n}.
Proof.
  unfold total_reflection. destruct (Req_EM_T (Im (s / n)) 0); [|right; tauto].
  destruct (Rlt_dec 1 (Rabs (Re (s / n)))); [left|right]; tauto.
Qed.

Lemma raw_phase_opp (s : C) (lam : R) (n : C) (d : R) : n <> 0 -> 
  raw_phase (- s) lam n d = raw_phase s lam n d \/ raw_phase (- s) lam n d = - raw_phase s lam n d.
Proof.
  intros Hn. unfold raw_phase. destruct (code_cos_opp_pm s n Hn) as [-> | ->]; [left; auto|right].
  unfold Cdiv. ring.
Qed.

Lemma layers_opp (s : C) (lam : R) inner :
  Forall (fun nd => fst nd <> RtoC 0) inner ->
  Forall (fun nd => total_reflection s (fst nd) ->
     (Rabs (Im (raw_phase s lam (fst nd) (snd nd))) <= 35)%R) inner ->
  Forall2 same_up_to_flip (map (code_layer s lam true) inner) (map (code_layer (- s) lam true) inner).
Proof.
  intros NZ F. induction F as [|[n d] inner H F IH]; simpl; constructor.
  - inversion NZ as [|? ? Hn _]; subst. cbn [fst snd] in *. unfold same_up_to_flip.
    destruct (total_reflection_dec s n) as [T|T].
    + specialize (H T). apply Rabs_le_between in H.
      rewrite (code_layer_clip s lam true (n, d)), (code_layer_clip (- s) lam true (n, d)); cbn [fst snd]; try lra.
      * unfold code_layer. cbn [fst snd].
        destruct (code_cos_opp_pm s n Hn) as [E|E]; unfold raw_phase; rewrite E; [left; auto|right].
        unfold flip. cbn [idx cosine phase]. f_equal. unfold Cdiv. ring.
      * destruct (raw_phase_opp s lam n d Hn) as [-> | ->]; [lra|].
        change (- Im (raw_phase s lam n d) <= 35)%R. lra.
    + left. unfold code_layer. cbn [fst snd]. unfold raw_phase. rewrite code_cos_opp by auto. reflexivity.
  - apply IH. inversion NZ; auto.
Qed.

Theorem angle_symmetry' p n0 inner nN dA dB dA' dB' th0 th1 lam a a' x y :
  sin th1 = (- sin th0)%R ->
  ~ total_reflection (n0 * RtoC (sin th0)) nN ->
  Forall (fun nd => total_reflection (n0 * RtoC (sin th0)) (fst nd) ->
     (Rabs (Im (raw_phase (n0 * RtoC (sin th0))%C lam (fst nd) (snd nd))) <= 35)%R) inner ->
  coh_tmm (ns n0 inner nN) (ds dA inner dB) [(th0, lam)] = Ok [a] ->
  coh_tmm (ns n0 inner nN) (ds dA' inner dB') [(th1, lam)] = Ok [a'] ->
  amp p a = Some x -> amp p a' = Some y -> x = y.
Proof.
  intros Hs NT B H H' A A'. destruct x as [r t], y as [r' t'].
  rewrite (coh_tmm_one_true _ _ _ _ _ _ _ _ H) in A.
  rewrite (coh_tmm_one_true _ _ _ _ _ _ _ _ H') in A'.
  assert (Es : n0 * RtoC (sin th1) = - (n0 * RtoC (sin th0))) by (rewrite Hs, RtoC_opp; ring).
  apply tmm_point_waves in A as ((NZ0 & NZ & NZN) & _ & U). apply tmm_point_waves in A' as (_ & _ & U').
  rewrite Es in U'. set (s := n0 * RtoC (sin th0)) in *.
  assert (W : reflection_problem p (code_end s n0) (code_rest s lam true inner nN) r t) by (apply U; auto).
  assert (W' : reflection_problem p (code_end (- s) n0) (code_rest (- s) lam true inner nN) r t).
  { unfold reflection_problem, code_rest in *.
    assert (EF : code_end (- s) n0 = code_end s n0).
    { unfold code_end. f_equal. apply code_cos_opp; auto.
      unfold s, total_reflection. replace (n0 * RtoC (sin th0) / n0) with (RtoC (sin th0)) by (field; auto).
      simpl. intros [_ T]. pose proof (SIN_bound th0). apply (Rlt_irrefl 1).
      eapply Rlt_le_trans; [exact T|]. apply Rabs_le_between. lra. }
    assert (EB : code_end (- s) nN = code_end s nN) by (unfold code_end; f_equal; apply code_cos_opp; auto).
    rewrite EF, EB. apply (waves_flip p _ _ (code_end s nN) (layers_opp s lam inner NZ B)). exact W. }
  apply U' in W'. destruct W'; congruence.
Qed.

(** ** Film layers as specified *)
Lemma film_layer_code (s lam : R) nd : (0 < lam)%R -> film_layer s lam nd ->
  layer_fine s lam nd /\ layer_fine (- s) lam nd /\
  (total_reflection (RtoC s) (fst nd) -> (Rabs (Im (raw_phase (RtoC s) lam (fst nd) (snd nd))) <= 35)%R).
Proof.
  intros L (Hp & Hd & Hm). destruct nd as [n d]. cbn [fst snd] in *.
  assert (Hn : n <> 0) by (apply passive_nz; auto).
  assert (RtoC lam <> 0) by (intros X; apply RtoC_inj in X; lra).
  assert (A : forall c, c * c = 1 - (RtoC s / n) * (RtoC s / n) -> (0 <= Re c)%R ->
    (Im (2 * PI * n * c / lam * d)%C <= 35)%R \/ (Im (n * c)%C <= 10 ^ 14 * Re (n * c)%C)%R).
  { intros c E HR. specialize (Hm (mkMedium n c (2 * PI * n * c / lam * d))).
    unfold layer_ok, snell in Hm. cbn [idx cosine phase fst snd] in Hm.
    apply Hm; auto. repeat split; auto. field; auto. }
  assert (B : layer_fine s lam (n, d)).
  { split; auto. split; auto. cbn [fst snd]. unfold raw_phase. apply A.
    - apply code_cos_sq.
    - apply ccos_carcsin_Re. }
  split; auto. split.
  - split; auto. split; auto. cbn [fst snd]. unfold raw_phase. apply A.
    + rewrite code_cos_sq, RtoC_opp. field; auto.
    + apply ccos_carcsin_Re.
  - intros [T1 T2].
    assert (NI : Im n = 0%R).
    { destruct Hp as [Ha Hb]. destruct n as [a b]. cbn [Re Im fst snd] in *.
      assert (N2 : (0 < a * a + b * b)%R) by nra.
      assert (E : Im (RtoC s / (a, b)) = (- (s * b) / (a * a + b * b))%R).
      { simpl. field. lra. }
      rewrite E in T1.
      assert (SB : (s * b = 0)%R).
      { apply Rmult_eq_reg_r with (- / (a * a + b * b))%R.
        - rewrite Rmult_0_l. rewrite <- T1. field. lra.
        - apply Ropp_neq_0_compat, Rinv_neq_0_compat. lra. }
      destruct (Req_EM_T b 0); auto. exfalso.
      assert (s = 0)%R by (apply Rmult_eq_reg_r with b; lra). subst s.
      replace (Re (RtoC 0 / (a, b))) with 0%R in T2 by (simpl; field; lra).
      rewrite Rabs_R0 in T2. lra. }
    assert (En : n = RtoC (Re n)) by (destruct n; simpl in *; subst; reflexivity).
    destruct Hp as [Ha _].
    assert (C0 : Re (code_cos s n) = 0%R).
    { pose proof (code_cos_sq s n) as E. pose proof (f_equal Im E) as E2. pose proof (f_equal Re E) as E1.
      pose proof (ccos_carcsin_Re (RtoC s / n)) as HR. fold (code_cos (RtoC s) n) in HR.
      set (z := RtoC s / n) in *. destruct z as [x y], (code_cos (RtoC s) n) as [c1 c2].
      cbn [Re Im fst snd] in T1, T2, HR |- *. subst y. simpl in E1, E2.
      destruct (Req_EM_T c1 0); auto. exfalso.
      assert (c2 = 0)%R by (apply Rmult_eq_reg_l with c1; lra). subst c2.
      assert (1 < x * x)%R.
      { replace 1%R with (1 * 1)%R by ring.
        replace (x * x)%R with (Rabs x * Rabs x)%R by (rewrite <- Rabs_mult; apply Rabs_right, Rle_ge, Rle_0_sqr).
        apply Rmult_gt_0_lt_compat; lra. }
      assert (0 <= c1 * c1)%R by apply Rle_0_sqr. lra. }
    assert (P1 := A (code_cos s n) (code_cos_sq s n) ltac:(rewrite C0; lra)).
    assert (P2 := A (- code_cos s n) ltac:(rewrite <- code_cos_sq; ring)
       ltac:(change (0 <= - Re (code_cos s n))%R; rewrite C0; lra)).
    unfold raw_phase.
    assert (K : forall c : C, (2 * PI * n * c / lam * d)%C = n * c * RtoC (2 * PI * d / lam)).
    { intros c. unfold Rdiv. rewrite !RtoC_mult, RtoC_inv by lra. field; auto. }
    assert (D0 : (0 <= 2 * PI * d / lam)%R).
    { apply Rmult_le_pos; [|left; apply Rinv_0_lt_compat; auto].
      pose proof PI_RGT_0. apply Rmult_le_pos; lra. }
    rewrite !K in *. clear K. set (D := (2 * PI * d / lam)%R) in *. clearbody D.
    assert (EC : code_cos s n = (0, Im (code_cos s n))%R).
    { destruct (code_cos s n) as [u v]. simpl in *. subst. reflexivity. }
    set (y := Im (code_cos s n)) in *. clearbody y. rewrite EC in P1, P2 |- *.
    clear EC C0 A B T1 T2 Hm En. destruct n as [a b]. cbn [Re Im fst snd] in NI, Ha. subst b.
    set (M := (10 ^ 14)%R) in *. clearbody M.
    cbn [Re Im fst snd Cmult Copp RtoC] in P1, P2 |- *.
    replace ((a * 0 - 0 * y) * 0 + (a * y + 0 * 0) * D)%R with (a * y * D)%R in P1 |- * by ring.
    apply Rabs_le_between. split.
    + destruct P2 as [P2|P2]; [lra|].
      assert (- (a * y) <= 0)%R by lra.
      assert (0 <= a * y * D)%R by (apply Rmult_le_pos; lra). lra.
    + destruct P1 as [P1|P1]; [lra|].
      assert (a * y <= 0)%R by lra.
      assert (a * y * D <= 0 * D)%R by (apply Rmult_le_compat_r; auto). lra.
Qed.

Lemma passive_amp p (n0 : R) inner nN dA dB th0 lam :
  (0 < n0)%R -> (0 < lam)%R -> cos th0 <> 0%R -> passive_film (n0 * sin th0) lam inner nN ->
  exists r t, amp p (tmm_point (ns (RtoC n0) inner nN) (ds dA inner dB) true th0 lam) = Some (r, t).
Proof.
  intros H0 HL HC (F' & NC & HN).
  assert (F : Forall (layer_fine (n0 * sin th0) lam) inner).
  { eapply Forall_impl; [|exact F']. intros nd H. exact (proj1 (film_layer_code _ _ _ HL H)). }
  destruct (passive_defined p n0 inner nN dA dB th0 lam H0 HL HC F NC HN) as (a & r & t & E & A).
  rewrite (coh_tmm_one_true _ _ _ _ _ _ _ _ E) in A. eauto.
Qed.

Lemma DP_one_opp (n0 : R) inner nB w off refl aoi :
  (0 < n0)%R -> (0 < w)%R -> cos (rad aoi) <> 0%R ->
  passive_film (n0 * sin (rad aoi)) w (nm inner) nB ->
  ~ total_reflection (RtoC n0 * RtoC (sin (rad aoi))) nB ->
  DP_one (RtoC n0) inner nB w off refl (- aoi) = DP_one (RtoC n0) inner nB w off refl aoi.
Proof.
  intros H0 HL HC PF NT. unfold DP_one. cbn [Re fst RtoC].
  assert (PF' : passive_film (- (n0 * sin (rad aoi))) w (nm inner) nB).
  { destruct PF as (F & NC & HN). split; [|split; auto].
    - eapply Forall_impl; [|exact F]. intros nd (H1 & H2 & H3). split; auto. split; auto.
      intros m (M1 & [M2 M3] & M4) HR. apply H3; auto. split; auto. split; auto. split; auto.
      rewrite M3, RtoC_opp. field. auto.
    - eapply Forall_impl; [|exact NC]. intros nd H E. apply H. rewrite E, RtoC_opp. ring. }
  assert (B : Forall (fun nd => total_reflection (RtoC n0 * RtoC (sin (rad aoi))) (fst nd) ->
     (Rabs (Im (raw_phase (RtoC n0 * RtoC (sin (rad aoi)))%C w (fst nd) (snd nd))) <= 35)%R) (nm inner)).
  { destruct PF as (F & _). rewrite <- RtoC_mult. eapply Forall_impl; [|exact F].
    intros nd H. exact (proj2 (proj2 (film_layer_code _ _ _ HL H))). }
  assert (ER : rad (- aoi) = (- rad aoi)%R) by (unfold rad; ring).
  assert (HC' : cos (rad (- aoi)) <> 0%R) by (rewrite ER, cos_neg; auto).
  rewrite <- Ropp_mult_distr_r_reverse, <- sin_neg, <- ER in PF'.
  assert (AE : forall a b, amp pS a = amp pS b -> amp pP a = amp pP b -> a = b).
  { intros [a1 a2] [b1 b2]; simpl; intros; subst; auto. }
  f_equal.
  assert (K : forall p, amp p (tmm_point (ns (RtoC n0) (nm inner) nB) (ds PInf (nm inner) PInf) true (rad (- aoi)) w)
     = amp p (tmm_point (ns (RtoC n0) (nm inner) nB) (ds PInf (nm inner) PInf) true (rad aoi) w)).
  { intros p.
    destruct (passive_amp p n0 (nm inner) nB PInf PInf (rad aoi) w H0 HL HC PF) as (r & t & E).
    destruct (passive_amp p n0 (nm inner) nB PInf PInf (rad (- aoi)) w H0 HL HC' PF') as (r' & t' & E').
    rewrite E, E'. f_equal. symmetry.
    eapply (angle_symmetry' p (RtoC n0) (nm inner) nB PInf PInf PInf PInf (rad aoi) (rad (- aoi)) w); eauto.
    - rewrite ER, sin_neg. reflexivity.
    - rewrite coh_tmm_one_ok by apply n0_ok_real. rewrite <- tmm_point_clip. reflexivity.
    - rewrite coh_tmm_one_ok by apply n0_ok_real. rewrite <- tmm_point_clip. reflexivity. }
  apply AE; apply K.
Qed.

Lemma DP_one_supp nA inner nB w off refl aoi :
  DP_one nA inner nB w off refl (180 - aoi) = DP_one nA inner nB w off refl aoi.
Proof.
  unfold DP_one. f_equal. apply tmm_point_sin.
  assert (rad (180 - aoi) = PI - rad aoi)%R as -> by (unfold rad; field).
  rewrite sin_minus, sin_PI, cos_PI. ring.
Qed.

(** ** Scaling *)
Definition scale_rows (k : R) (inner : list (C * R * R)) : list (C * R * R) :=
  map (fun x => (fst (fst x), (k * snd (fst x))%R, snd x)) inner.

Lemma DP_one_scale nA inner nB w off refl aoi (k : R) : k <> 0%R ->
  DP_one nA (scale_rows k inner) nB (k * w) off refl aoi = DP_one nA inner nB w off refl aoi.
Proof.
  intros Hk. unfold DP_one. f_equal.
  assert (nm (scale_rows k inner) = map (fun nd : C * R => (fst nd, (k * snd nd)%R)) (nm inner)) as ->.
  { unfold nm, scale_rows. rewrite !map_map. apply map_ext. intros x; simpl. f_equal. field. }
  apply tmm_point_scale. auto.
Qed.

(** ** Normal incidence *)
Lemma DP_one_normal nA inner nB w off refl aoi rs ts rp tp :
  sin (rad aoi) = 0%R ->
  coh_tmm (ns (RtoC (Re nA)) (nm inner) nB) (ds PInf (nm inner) PInf) [(rad aoi, w)] =
    Ok [mkAmp (Some (rs, ts)) (Some (rp, tp))] ->
  rp <> 0 ->
  DP_one nA inner nB w off refl aoi = (Some 45%R, Some (180 + off)%R).
Proof.
  intros Hs E Hp. pose proof (coh_tmm_one_true _ _ _ _ _ _ _ _ E) as E'.
  destruct (normal_incidence (RtoC (Re nA)) (nm inner) nB PInf PInf (rad aoi) w _ rs ts rp tp Hs E eq_refl eq_refl)
    as [E1 _].
  unfold DP_one. rewrite <- E'. unfold psi_delta. cbn [amp_s amp_p].
  rewrite E1. destruct (psi_delta_normal refl off rp Hp) as [-> ->]. reflexivity.
Qed.

(** ** The backing wave *)
Theorem coh_tmm_solves_branch p n0 inner nN dA dB th0 lam a r t front ms back :
  let s := n0 * RtoC (sin th0) in
  coh_tmm (ns n0 inner nN) (ds dA inner dB) [(th0, lam)] = Ok [a] ->
  amp p a = Some (r, t) ->
  physical_stack n0 inner nN s lam front ms back ->
  cosine front = RtoC (Rabs (cos th0)) ->
  cosine back = code_cos s nN ->
  Forall (fun m => (Rabs (Im (phase m)) <= 35)%R) ms ->
  forall r' t', reflection_problem p front (ms ++ [back]) r' t' <-> r' = r /\ t' = t.
Proof.
  intros s H A PS CF CC B r' t'.
  rewrite (coh_tmm_one _ _ _ _ _ _ _ _ H) in A. clear H a.
  set (clip := point_opaque _ _ _ _) in A.
  pose proof A as A'. apply tmm_point_iff in A' as (_ & L & _).
  apply tmm_point_waves in A as (NZ & G & U).
  rewrite <- U. unfold reflection_problem.
  fold s. unfold code_rest.
  rewrite (physical_front n0 inner nN th0 lam front ms back PS CF p 1 r' (ms ++ [back]) t')
    by apply app_single_ne.
  fold s. pose proof PS as (_ & _ & F2 & IB & [IB0 CB2]).
  rewrite (physical_back s nN back IB CC).
  symmetry. apply waves_flip. apply flips_of_stack; auto.
Qed.

(** kz of the backing medium: decaying if absorbing, outgoing if transparent and below
    the critical angle; growing if transparent and beyond it *)
Lemma backing_absorbing (s : R) (nN : C) : passive nN -> (0 < Im nN)%R ->
  (0 < Re (nN * code_cos s nN)%C)%R /\ (0 < Im (nN * code_cos s nN)%C)%R.
Proof. intros; apply strict_S; auto. Qed.
Lemma backing_transparent (s : R) (nN : C) : transparent nN -> (Rabs s < Re nN)%R ->
  (0 < Re (nN * code_cos s nN)%C)%R /\ Im (nN * code_cos s nN) = 0%R.
Proof.
  intros [Ha Hb] Hs. assert (Hp : passive nN) by (split; auto; lra).
  destruct (transp_below s nN Hp Hb Hs) as [-> P].
  set (c := sqrt _) in *. destruct nN as [a b]; simpl in *. subst b. split; [|ring].
  assert (0 < a * c)%R by (apply Rmult_lt_0_compat; auto). lra.
Qed.
Lemma backing_TIR (s : R) (nN : C) : transparent nN -> (Re nN < s)%R ->
  Re (nN * code_cos s nN) = 0%R /\ (Im (nN * code_cos s nN)%C < 0)%R.
Proof.
  intros [Ha Hb] Hs. assert (Hp : passive nN) by (split; auto; lra).
  destruct (transp_above s nN Hp Hb Hs) as (k & Hk & ->).
  destruct nN as [a b]; simpl in *. subst b. split; [ring|].
  assert (0 < a * k)%R by (apply Rmult_lt_0_compat; auto). lra.
Qed.

(** ** Opaque films *)
Lemma opaque_hides p front film rest r t r_inf t_inf G tau :
  regular front -> all_regular film rest -> rest <> [] -> 
  (35 <= Im (phase film))%R ->
  reflection_problem p front (film :: rest) r t ->
  reflection_problem p front [film] r_inf t_inf ->
  reflection_problem p film rest G tau ->
  (Cmod (r - r_inf)%C <= exp (-70) * Cmod G * Cmod (1 - r * r_inf)%C)%R.
Proof.
  intros RF RR NE HI W WI WG. unfold reflection_problem in *.
  destruct rest as [|y rest]; [congruence|].
  destruct W as (f' & b' & HC & W).
  cbn [waves] in WI.
  rewrite continuity_imat in HC, WI by auto.
  rewrite waves_tm in W, WG by (auto; congruence).
  destruct W as [W1 W2], WG as [G1 G2]. destruct HC as [C1 C2], WI as [I1 I2].
  set (T := tm p film (y :: rest)) in *.
  set (e := cexp (Ci * phase film)) in *. set (e' := cexp (- (Ci * phase film))) in *.
  assert (EE : e * e' = 1) by apply cexp_opp_r.
  assert (Mt : m00 T <> 0 /\ tau <> 0).
  { split; intros Z; rewrite Z in G1; apply C1_neq_0; rewrite G1; ring. }
  destruct Mt as [M0 T0].
  assert (Bf : b' = G * (e * e) * f').
  { (* b' e' = m10 t, f' e = m00 t, G = m10 tau, 1 = m00 tau *)
    apply (Cmult_reg_l (m00 T * tau)). { apply Cmult_neq_0; auto. }
    transitivity (tau * e * (m00 T) * (b' * e')).
    - transitivity (m00 T * tau * b' * (e * e')); [rewrite EE; ring|ring].
    - rewrite W2. transitivity (tau * e * (m10 T) * (m00 T * t)); [ring|].
      rewrite <- W1, G2. transitivity (m10 T * tau * (e * e) * f' * 1); [ring|].
      rewrite G1 at 1. ring. }
  set (E := G * (e * e)) in *.
  assert (KEY : r - r_inf = E * (1 - r * r_inf)).
  { (* 1 = f' (ia + ib E), r = f' (ib + ia E), 1 = ia ti, r_inf = ib ti *)
    set (A := ia p front film) in *. set (Bb := ib p front film) in *.
    rewrite Bf in C1, C2.
    assert (Ati : A * t_inf = 1) by (rewrite I1; ring).
    assert (ER : r_inf = Bb * t_inf) by (rewrite I2; ring).
    assert (C1' : f' * (A + Bb * E) = 1) by (rewrite C1; ring).
    assert (C2' : r = f' * (Bb + A * E)) by (rewrite C2; ring).
    assert (NA : A <> 0) by (intros Z; rewrite Z in Ati; apply C1_neq_0; rewrite <- Ati; ring).
    assert (ND : A + Bb * E <> 0) by (intros Z; rewrite Z in C1'; apply C1_neq_0; rewrite <- C1'; ring).
    assert (Et : t_inf = 1 / A) by (rewrite <- Ati; field; auto).
    assert (Ef : f' = 1 / (A + Bb * E)) by (rewrite <- C1'; field; auto).
    rewrite ER, C2', Et, Ef. field; auto. }
  rewrite KEY, !Cmod_mult. apply Rmult_le_compat_r; [apply Cmod_ge_0|].
  unfold E. rewrite !Cmod_mult. rewrite (Rmult_comm (Cmod G)).
  apply Rmult_le_compat_r; [apply Cmod_ge_0|].
  unfold e. rewrite Cmod_cexp, <- exp_plus.
  replace (Re (Ci * phase film)) with (- Im (phase film))%R by (destruct (phase film); simpl; ring).
  assert (L : (- Im (phase film) + - Im (phase film) <= -70)%R) by lra.
  destruct L as [L|L]; [left; apply exp_increasing; auto|rewrite L; lra].
Qed.
