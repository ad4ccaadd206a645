(** * Periodicity in the thickness of a transparent layer *)

Require Import Reals.
From Coquelicot Require Import Rcomplements Complex.
Require Import List Bool Arith ZArith Lra Lia Psatz.
From Verif Require Import Base Cplx M_tmm Spec_optics P_tmm P_tmm2 P_tmm3 P_tmm4 P_flux P_flux2 P_flux3
  P_psidelta P_psidelta2 Spec_ident.
Import ListNotations.
Open Scope R_scope.
Open Scope C_scope.

Lemma pmat_scale (e d d' : C) : cexp (- (Ci * d')) = e * cexp (- (Ci * d)) ->
  cexp (Ci * d') = e * cexp (Ci * d) -> pmat d' = mscale e (pmat d).
Proof.
  intros H1 H2. unfold pmat, mscale, m00, m01, m10, m11. rewrite H1, H2.
  apply mat_eq; cbn [m00 m01 m10 m11]; ring.
Qed.

Lemma tm_scale p (e : C) x x' post : post <> [] -> idx x' = idx x -> cosine x' = cosine x ->
  pmat (phase x') = mscale e (pmat (phase x)) ->
  forall pre m, tm p m (pre ++ x' :: post) = mscale e (tm p m (pre ++ x :: post)).
Proof.
  intros NE HI HC HP. 
  assert (T : tm p x' post = tm p x post).
  { destruct post as [|y [|z post]]; [easy| |]; simpl; unfold imat, ia, ib; rewrite HI, HC; reflexivity. }
  assert (IM : forall m, imat p m x' = imat p m x).
  { intros m. unfold imat, ia, ib. rewrite HI, HC. reflexivity. }
  induction pre as [|y pre IH]; intros m.
  - destruct post as [|z post]; [easy|]. cbn [app]. rewrite !tm_cons, T, HP, IM.
    rewrite mscale_mul_l, mscale_mul_r. reflexivity.
  - cbn [app]. destruct (pre ++ x' :: post) as [|u l] eqn:E1; [destruct pre; discriminate|].
    destruct (pre ++ x :: post) as [|v l'] eqn:E2; [destruct pre; discriminate|].
    rewrite !tm_cons, (IH y). rewrite !mscale_mul_r. reflexivity.
Qed.

Lemma good_same p x x' post : idx x' = idx x -> cosine x' = cosine x ->
  forall pre m, good p m (pre ++ x' :: post) <-> good p m (pre ++ x :: post).
Proof.
  intros HI HC.
  assert (RG : regular x' <-> regular x) by (unfold regular; rewrite HI, HC; tauto).
  assert (G : forall q, good p x' q <-> good p x q).
  { intros [|y q]; simpl; [tauto|]. unfold fden. rewrite HI, HC. tauto. }
  assert (F : forall m, fden p m x' = fden p m x) by (intros; unfold fden; rewrite HI, HC; reflexivity).
  induction pre as [|y pre IH]; intros m; cbn [app good].
  - rewrite F. pose proof (G post). tauto.
  - pose proof (IH y). tauto.
Qed.

Lemma cexp_pi (k : Z) (z : C) :
  let e := RtoC (cos (IZR k * PI)) in
  cexp (Ci * (z + RtoC (IZR k * PI))) = e * cexp (Ci * z) /\
  cexp (- (Ci * (z + RtoC (IZR k * PI)))) = e * cexp (- (Ci * z)) /\ e * e = 1 /\ e <> 0.
Proof.
  intros e. set (a := (IZR k * PI)%R).
  assert (S0 : sin a = 0%R) by (apply sin_eq_0_1; exists k; reflexivity).
  assert (EE : e * e = 1).
  { unfold e. fold a. rewrite <- RtoC_mult. f_equal. pose proof (sin2_cos2 a) as H. unfold Rsqr in H.
    rewrite S0 in H. lra. }
  assert (A1 : cexp (Ci * RtoC a) = e).
  { unfold cexp, e. fold a. simpl. apply C_eq; cbn [Re Im fst snd RtoC].
    - replace (0 * a - 1 * 0)%R with 0%R by ring. rewrite exp_0.
      replace (0 * 0 + 1 * a)%R with a by ring. ring.
    - replace (0 * 0 + 1 * a)%R with a by ring. rewrite S0. ring. }
  assert (A2 : cexp (- (Ci * RtoC a)) = e).
  { rewrite cexp_opp, A1. apply (Cmult_reg_l e).
    - intros E. apply C1_neq_0. rewrite <- EE, E. ring.
    - rewrite EE. apply Cinv_r. intros E. apply C1_neq_0. rewrite <- EE, E. ring. }
  repeat split.
  - replace (Ci * (z + RtoC a)) with (Ci * RtoC a + Ci * z) by ring. rewrite cexp_add, A1. reflexivity.
  - replace (- (Ci * (z + RtoC a))) with (- (Ci * RtoC a) + - (Ci * z)) by ring.
    rewrite cexp_add, A2. reflexivity.
  - exact EE.
  - intros E. apply C1_neq_0. rewrite <- EE, E. ring.
Qed.

Lemma m_scale (e : C) M : m00 (mscale e M) = e * m00 M /\ m10 (mscale e M) = e * m10 M.
Proof. destruct M as [[[a b] c] d]; split; reflexivity. Qed.

(** adding a multiple of pi to the phase of one layer changes only the sign of t *)
Lemma amp_order p n0 pre nL (d d' : R) post nN dA dB clip th0 lam (k : Z) r t :
  let s := n0 * RtoC (sin th0) in
  clip35 (raw_phase s lam nL d) = raw_phase s lam nL d ->
  raw_phase s lam nL d' = raw_phase s lam nL d + RtoC (IZR k * PI) ->
  amp p (tmm_point (ns n0 (pre ++ (nL, d) :: post) nN) (ds dA (pre ++ (nL, d) :: post) dB) clip th0 lam) = Some (r, t) ->
  amp p (tmm_point (ns n0 (pre ++ (nL, d') :: post) nN) (ds dA (pre ++ (nL, d') :: post) dB) clip th0 lam) =
    Some (r, RtoC (cos (IZR k * PI)) * t).
Proof.
  intros s C1 HP H. apply tmm_point_iff in H. apply tmm_point_iff.
  destruct H as (NZ & L & G & M & Er & Et). fold s in G, M, Er, Et |- *.
  assert (CL : clip35 (raw_phase s lam nL d') = raw_phase s lam nL d').
  { rewrite HP. set (z := raw_phase s lam nL d) in *. unfold clip35 in *.
    pose proof (f_equal Im C1) as I1. cbn [Im snd] in I1. 
    apply C_eq; cbn [Re Im fst snd]; auto.
    replace (Im (z + RtoC (IZR k * PI))%C) with (Im z) by (simpl; ring). 
    change (snd z) with (Im z) in *. rewrite I1. simpl. ring. }
  unfold code_rest in *. rewrite !map_app in *. cbn [map] in *. rewrite <- !app_assoc in *. cbn [app] in *.
  set (x := code_layer s lam clip (nL, d)) in *. set (x' := code_layer s lam clip (nL, d')) in *.
  set (PO := map (code_layer s lam clip) post ++ [code_end s nN]) in *.
  assert (NE : PO <> []) by (unfold PO; apply app_single_ne).
  pose proof (cexp_pi k (raw_phase s lam nL d)) as [X1 [X2 [EE NE0]]].
  set (e := RtoC (cos (IZR k * PI))) in *.
  assert (PH : pmat (phase x') = mscale e (pmat (phase x))).
  { apply pmat_scale; unfold x, x', code_layer; cbn [phase fst snd]; destruct clip; rewrite ?C1, ?CL, HP; auto. }
  rewrite (tm_scale p e x x' PO NE eq_refl eq_refl PH).
  pose proof (m_scale e (tm p (code_end s n0) (map (code_layer s lam clip) pre ++ x :: PO))) as [M0 M1].
  rewrite M0, M1.
  assert (NZ' : all_nonzero n0 (pre ++ (nL, d') :: post) nN).
  { destruct NZ as (Z0 & Z1 & Z2). repeat split; auto. apply Forall_app in Z1 as [Z1 Z3].
    apply Forall_app. split; auto. inversion Z3; subst; constructor; auto. }
  split; [exact NZ'|]. split; [intros _; apply L; destruct pre; discriminate|].
  split; [apply (good_same p x x' PO eq_refl eq_refl); exact G|].
  split; [apply Cmult_neq_0; auto|]. rewrite Er, Et. split.
  - field. auto.
  - apply (Cmult_reg_l e); auto. transitivity (e * e * (1 / m00 (tm p (code_end s n0) (map (code_layer s lam clip) pre ++ x :: PO)))); [ring|].
    rewrite EE. field. auto.
Qed.

Lemma psi_delta_r refl off a a' :
  (forall p r t, amp p a = Some (r, t) -> exists t', amp p a' = Some (r, t')) ->
  (forall p r t, amp p a' = Some (r, t) -> exists t', amp p a = Some (r, t')) ->
  psi_delta refl off a = psi_delta refl off a'.
Proof.
  intros H H'. unfold psi_delta.
  pose proof (H pS) as HS. pose proof (H pP) as HP. pose proof (H' pS) as HS'. pose proof (H' pP) as HP'.
  cbn [amp] in *.
  destruct (amp_s a) as [[rs ts]|], (amp_s a') as [[rs' ts']|];
    try (destruct (HS _ _ eq_refl) as [? E]; discriminate E);
    try (destruct (HS' _ _ eq_refl) as [? E]; discriminate E); auto.
  destruct (HS _ _ eq_refl) as [? E]. assert (rs' = rs) as -> by congruence.
  destruct (amp_p a) as [[rp tp]|], (amp_p a') as [[rp' tp']|];
    try (destruct (HP _ _ eq_refl) as [? E']; discriminate E');
    try (destruct (HP' _ _ eq_refl) as [? E']; discriminate E'); auto.
  destruct (HP _ _ eq_refl) as [? E']. assert (rp' = rp) as -> by congruence. reflexivity.
Qed.

Lemma raw_phase_real (s lam : R) (n : C) (d : R) : transparent n -> (Rabs s < Re n)%R -> (lam <> 0)%R ->
  raw_phase (RtoC s) lam n d = RtoC (2 * PI * sqrt (Re n * Re n - s * s) * d / lam).
Proof.
  intros [H1 H2] H3 HL. unfold raw_phase.
  assert (En : n = RtoC (Re n)) by (apply C_eq; auto).
  assert (D : (0 < Re n * Re n - s * s)%R).
  { assert (Rabs s * Rabs s = s * s)%R by (rewrite <- Rabs_mult; apply Rabs_pos_eq; nra).
    pose proof (Rabs_pos s). nra. }
  assert (SN : RtoC s / n = RtoC (s / Re n)) by (rewrite RtoC_div by lra; rewrite <- En; reflexivity).
  assert (EC : code_cos (RtoC s) n = RtoC (sqrt (Re n * Re n - s * s) / Re n)).
  { symmetry. apply code_cos_unique.
    - simpl. apply Rle_mult_inv_pos; [apply sqrt_pos|lra].
    - intros [_ T]. rewrite SN in T.
      simpl in T. rewrite Rabs_div in T by lra. rewrite (Rabs_pos_eq (Re n)) in T by lra.
      apply (Rmult_lt_compat_r (Re n)) in T; auto. unfold Rdiv in T. rewrite Rmult_assoc, Rinv_l in T by lra. lra.
    - rewrite SN. rewrite <- !RtoC_mult, <- RtoC_minus. f_equal.
      pose proof (sqrt_sqrt (Re n * Re n - s * s)%R ltac:(lra)) as Q.
      set (q := sqrt (Re n * Re n - s * s)) in *.
      transitivity (q * q / (Re n * Re n))%R; [field; lra|]. rewrite Q. field. lra. }
  rewrite EC. rewrite En at 1. rewrite <- !RtoC_mult. rewrite <- RtoC_div by auto. rewrite <- RtoC_mult.
  f_equal. field. split; lra.
Qed.

Theorem order_ambiguity tA (nA : C) rA pre (nL : C) (d rough : R) post tB nB rB (aoi w off : R) refl (k : Z) :
  let s := (Re nA * sin (rad aoi))%R in
  w <> 0%R -> transparent nL -> (Rabs s < Re nL)%R ->
  fst (Delta_Psi_TMM [aoi] (table tA nA rA
        (pre ++ (nL, (d + IZR k * (10 * order_thickness (Re nL) s w))%R, rough) :: post) tB nB rB) w off refl) =
  fst (Delta_Psi_TMM [aoi] (table tA nA rA (pre ++ (nL, d, rough) :: post) tB nB rB) w off refl).
Proof.
  intros s HW TR HS. unfold order_thickness. rewrite !DP_map. cbn [map]. f_equal. f_equal. unfold DP_one.
  unfold nm. rewrite !map_app. cbn [map fst snd]. fold (nm pre) (nm post).
  set (q := sqrt (Re nL * Re nL - s * s)).
  assert (D : (0 < Re nL * Re nL - s * s)%R).
  { assert (Rabs s * Rabs s = s * s)%R by (rewrite <- Rabs_mult; apply Rabs_pos_eq; nra).
    pose proof (Rabs_pos s). nra. }
  assert (Q : (0 < q)%R) by (apply sqrt_lt_R0; auto).
  set (d1 := ((d + IZR k * (10 * (w / (2 * q)))) / 10)%R). set (d0 := (d / 10)%R).
  assert (SS : RtoC (Re nA) * RtoC (sin (rad aoi)) = RtoC s) by (unfold s; rewrite RtoC_mult; reflexivity).
  assert (P1 : raw_phase (RtoC (Re nA) * RtoC (sin (rad aoi))) w nL d1 =
               raw_phase (RtoC (Re nA) * RtoC (sin (rad aoi))) w nL d0 + RtoC (IZR k * PI)).
  { rewrite SS, !raw_phase_real by auto. fold q. rewrite <- RtoC_plus. f_equal. unfold d1, d0.
    field. split; [auto|lra]. }
  assert (P2 : raw_phase (RtoC (Re nA) * RtoC (sin (rad aoi))) w nL d0 =
               raw_phase (RtoC (Re nA) * RtoC (sin (rad aoi))) w nL d1 + RtoC (IZR (- k) * PI)).
  { rewrite P1. rewrite opp_IZR. rewrite !RtoC_mult, RtoC_opp. ring. }
  assert (CL : forall x, clip35 (raw_phase (RtoC (Re nA) * RtoC (sin (rad aoi))) w nL x) =
     raw_phase (RtoC (Re nA) * RtoC (sin (rad aoi))) w nL x).
  { intros x. rewrite SS, raw_phase_real by auto. apply clip35_id. simpl. lra. }
  apply psi_delta_r; intros p r t H; eexists.
  - eapply (amp_order p _ (nm pre) nL d1 d0 (nm post) nB PInf PInf true (rad aoi) w (-k)); eauto.
  - eapply (amp_order p _ (nm pre) nL d0 d1 (nm post) nB PInf PInf true (rad aoi) w k); eauto.
Qed.
