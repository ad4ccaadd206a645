(** * Consequences for coh_tmm: zero layers, splitting, normal incidence, scaling,
    symmetry in the angle, reciprocity. *)

Require Import Reals List Bool Arith Lra Lia.
From Coquelicot Require Import Rcomplements Complex.
From Verif Require Import Base Cplx M_tmm Spec_optics P_tmm P_tmm2 P_tmm3.
Import ListNotations.
Open Scope R_scope.
Open Scope C_scope.

Lemma option_ext {A} (x y : option A) : (forall a, x = Some a <-> y = Some a) -> x = y.
Proof.
  intros H. destruct x as [a|], y as [b|]; auto.
  - symmetry. apply H; auto.
  - symmetry; apply H; auto.
  - apply H; auto.
Qed.

Lemma coh_tmm_one_true n0 inner nN dA dB th0 lam a :
  coh_tmm (ns n0 inner nN) (ds dA inner dB) [(th0, lam)] = Ok [a] ->
  a = tmm_point (ns n0 inner nN) (ds dA inner dB) true th0 lam.
Proof. intros H. rewrite (coh_tmm_one _ _ _ _ _ _ _ _ H). symmetry. apply tmm_point_clip. Qed.

Theorem zero_layer p n0 inner1 nL inner2 nN dA dB dA' dB' th0 lam a a' x y :
  coh_tmm (ns n0 (inner1 ++ (nL, 0%R) :: inner2) nN)
          (ds dA (inner1 ++ (nL, 0%R) :: inner2) dB) [(th0, lam)] = Ok [a] ->
  coh_tmm (ns n0 (inner1 ++ inner2) nN) (ds dA' (inner1 ++ inner2) dB') [(th0, lam)] = Ok [a'] ->
  amp p a = Some x -> amp p a' = Some y -> x = y.
Proof.
  intros H H' A A'.
  rewrite (coh_tmm_one_true _ _ _ _ _ _ _ _ H) in A.
  rewrite (coh_tmm_one_true _ _ _ _ _ _ _ _ H') in A'.
  destruct x as [r t], y as [r' t'].
  apply tmm_point_waves in A as (_ & _ & U). apply tmm_point_waves in A' as (_ & _ & U').
  assert (W : reflection_problem p (code_end (n0 * RtoC (sin th0)) n0)
     (code_rest (n0 * RtoC (sin th0)) lam true (inner1 ++ inner2) nN) r t).
  { assert (W : reflection_problem p (code_end (n0 * RtoC (sin th0)) n0)
     (code_rest (n0 * RtoC (sin th0)) lam true (inner1 ++ (nL, 0%R) :: inner2) nN) r t)
     by (apply U; auto).
    unfold reflection_problem, code_rest in *.
    rewrite map_app, map_cons, <- app_assoc in W. rewrite map_app, <- app_assoc.
    simpl app in W.
    eapply waves_drop_zero in W; [exact W| |apply app_single_ne].
    simpl. unfold raw_phase. rewrite Cmult_0_r. unfold clip35. simpl.
    rewrite Rmin_left by lra. reflexivity. }
  apply U' in W. destruct W; congruence.
Qed.

Lemma raw_phase_add s lam n d1 d2 :
  raw_phase s lam n (d1 + d2) = raw_phase s lam n d1 + raw_phase s lam n d2.
Proof. unfold raw_phase. rewrite RtoC_plus. ring. Qed.
Lemma Im_raw_phase s lam n d : Im (raw_phase s lam n d) = (Im (raw_phase s lam n 1) * d)%R.
Proof.
  assert (raw_phase s lam n d = raw_phase s lam n 1 * RtoC d) as -> by (unfold raw_phase; ring).
  destruct (raw_phase s lam n 1) as [u v]. simpl. ring.
Qed.
Lemma clip35_id z : (Im z <= 35)%R -> clip35 z = z.
Proof. intros H. unfold clip35. rewrite Rmin_left by auto. destruct z; reflexivity. Qed.

Theorem split_layer p (n0 : C) inner1 (nL : C) (d1 d2 : R) inner2 (nN : C) dA dB dA' dB' (th0 lam : R) a a' x y :
  (0 <= d1)%R -> (0 <= d2)%R ->
  (Im (2 * PI * nL * code_cos (n0 * RtoC (sin th0)) nL / lam * RtoC (d1 + d2))%C <= 35)%R ->
  coh_tmm (ns n0 (inner1 ++ (nL, d1) :: (nL, d2) :: inner2) nN)
          (ds dA (inner1 ++ (nL, d1) :: (nL, d2) :: inner2) dB) [(th0, lam)] = Ok [a] ->
  coh_tmm (ns n0 (inner1 ++ (nL, (d1 + d2)%R) :: inner2) nN)
          (ds dA' (inner1 ++ (nL, (d1 + d2)%R) :: inner2) dB') [(th0, lam)] = Ok [a'] ->
  amp p a = Some x -> amp p a' = Some y -> x = y.
Proof.
  intros P1 P2 B H H' A A'.
  rewrite (coh_tmm_one_true _ _ _ _ _ _ _ _ H) in A.
  rewrite (coh_tmm_one_true _ _ _ _ _ _ _ _ H') in A'.
  destruct x as [r t], y as [r' t']. clear H H'.
  set (s := n0 * RtoC (sin th0)) in *.
  change (Im (raw_phase s lam nL (d1 + d2)) <= 35)%R in B.
  apply tmm_point_waves in A as (_ & _ & U). apply tmm_point_waves in A' as (_ & G' & U').
  fold s in U, U', G'.
  assert (R : nL * code_cos s nL <> 0).
  { apply good_regular in G'. clear - G'. unfold code_rest in G'.
    rewrite map_app, map_cons, <- app_assoc in G'. simpl app in G'.
    revert G'. generalize (code_end s n0) as m. generalize (map (code_layer s lam true) inner1) as pre.
    induction pre as [|x pre IH]; intros m H.
    - simpl app in H. destruct H as [_ H].
      destruct (map (code_layer s lam true) inner2 ++ [code_end s nN]) eqn:E.
      + exfalso; revert E; apply app_single_ne.
      + destruct H as [H _]. exact H.
    - simpl app in H. destruct H as [_ H]. eauto. }
  assert (W : reflection_problem p (code_end s n0)
     (code_rest s lam true (inner1 ++ (nL, (d1 + d2)%R) :: inner2) nN) r t).
  { assert (W : reflection_problem p (code_end s n0)
     (code_rest s lam true (inner1 ++ (nL, d1) :: (nL, d2) :: inner2) nN) r t)
     by (apply U; auto).
    unfold reflection_problem, code_rest in *.
    rewrite map_app, !map_cons, <- app_assoc in W. rewrite map_app, map_cons, <- app_assoc.
    simpl app in *.
    assert (B1 : (Im (raw_phase s lam nL d1) <= 35)%R).
    { rewrite Im_raw_phase in B |- *. set (k := Im _) in *.
      destruct (Rle_dec 0 k); nra. }
    assert (B2 : (Im (raw_phase s lam nL d2) <= 35)%R).
    { rewrite Im_raw_phase in B |- *. set (k := Im _) in *.
      destruct (Rle_dec 0 k); nra. }
    unfold code_layer at 2 3 in W. cbn [fst snd] in W. rewrite !clip35_id in W by auto.
    unfold code_layer at 2. cbn [fst snd]. rewrite clip35_id by auto.
    rewrite raw_phase_add.
    eapply waves_merge; eauto. apply app_single_ne. }
  apply U' in W. destruct W; congruence.
Qed.

(** ** The code's media form a physical stack *)
Lemma code_physical n0 inner nN s lam : all_nonzero n0 inner nN ->
  (inner <> [] -> lam <> 0%R) ->
  physical_stack n0 inner nN s lam (code_end s n0) (map (code_layer s lam false) inner) (code_end s nN).
Proof.
  intros (H0 & H1 & HN) L. unfold physical_stack, snell. simpl.
  repeat split; auto; try apply code_cos_sq.
  clear H0 HN. induction H1 as [|[n d] inner Hn F IH]; [constructor|].
  simpl. constructor.
  - unfold layer_ok, snell. simpl. repeat split; auto; [apply code_cos_sq|].
    assert (RtoC lam <> 0).
    { intros E. apply L; [congruence|]. apply RtoC_inj; auto. }
    unfold raw_phase; field; auto.
  - destruct inner; [constructor|]. apply IH. intros _. apply L. congruence.
Qed.

(** only (n0 sin th0)^2 matters *)
Lemma physical_opp n0 inner nN s lam front ms back :
  physical_stack n0 inner nN s lam front ms back ->
  physical_stack n0 inner nN (- s) lam front ms back.
Proof.
  assert (K : forall m, snell s m -> snell (- s) m).
  { intros m [H1 H2]. split; auto. rewrite H2. field; auto. }
  intros (H1 & H2 & H3 & H4 & H5). repeat split; auto; try apply K; auto; try apply H2; try apply H5.
  - clear - H3 K. induction H3 as [|nd m inner ms (A & B & D) F IH]; constructor; auto.
    split; [exact A|split; [apply K; exact B|exact D]].
Qed.

Theorem angle_symmetry p n0 inner nN dA dB dA' dB' th0 th1 lam a a' x y :
  sin th1 = (- sin th0)%R ->
  ~ total_reflection (n0 * RtoC (sin th0)) nN ->
  Forall (fun nd => (Rabs (Im (raw_phase (n0 * RtoC (sin th0))%C lam (fst nd) (snd nd))) <= 35)%R) inner ->
  coh_tmm (ns n0 inner nN) (ds dA inner dB) [(th0, lam)] = Ok [a] ->
  coh_tmm (ns n0 inner nN) (ds dA' inner dB') [(th1, lam)] = Ok [a'] ->
  amp p a = Some x -> amp p a' = Some y -> x = y.
Proof.
  intros Hs NT B H H' A A'. destruct x as [r t], y as [r' t'].
  set (s := n0 * RtoC (sin th0)) in *.
  assert (Es : n0 * RtoC (sin th1) = - s) by (unfold s; rewrite Hs, RtoC_opp; ring).
  pose proof A as A2. rewrite (coh_tmm_one_true _ _ _ _ _ _ _ _ H) in A2.
  apply tmm_point_iff in A2 as (NZ & L & _).
  pose proof (code_physical n0 inner nN s lam NZ L) as PS.
  pose proof (physical_opp _ _ _ _ _ _ _ _ PS) as PS'. rewrite <- Es in PS'.
  assert (CF : cosine (code_end s n0) = RtoC (Rabs (cos th0))).
  { simpl. apply code_cos_front. apply NZ. }
  assert (CF' : cosine (code_end s n0) = RtoC (Rabs (cos th1))).
  { rewrite CF. f_equal. apply Rsqr_eq_abs_0. unfold Rsqr.
    pose proof (sin2_cos2 th0) as T0. pose proof (sin2_cos2 th1) as T1. unfold Rsqr in *.
    rewrite Hs in T1. nra. }
  assert (CB : (0 <= Re (cosine (code_end s nN)))%R) by apply ccos_carcsin_Re.
  assert (BB : Forall (fun m => (Rabs (Im (phase m)) <= 35)%R) (map (code_layer s lam false) inner)).
  { rewrite Forall_map. eapply Forall_impl; [|exact B]. intros nd; auto. }
  pose proof (coh_tmm_solves p _ _ _ _ _ _ _ _ _ _ _ _ _ H A PS CF CB NT BB r t) as [_ W].
  assert (NT' : ~ total_reflection (n0 * RtoC (sin th1)) nN).
  { intros [T1 T2]. apply NT. rewrite Es in T1, T2. unfold total_reflection.
    replace (- s / nN) with (- (s / nN)) in T1, T2 by (field; apply NZ).
    change (Im (- (s / nN))) with (- Im (s / nN)%C)%R in T1.
    change (Re (- (s / nN))) with (- Re (s / nN)%C)%R in T2.
    rewrite Rabs_Ropp in T2. split; [lra|auto]. }
  pose proof (coh_tmm_solves p _ _ _ _ _ _ _ _ _ _ _ _ _ H' A' PS' CF' CB NT' BB r t) as [W' _].
  destruct W' as [E1 E2]; [apply W; auto|]. congruence.
Qed.

(** the result depends on the angle through its sine only *)
Lemma tmm_point_sin n_list d_list clip th0 th1 lam : sin th1 = sin th0 ->
  tmm_point n_list d_list clip th1 lam = tmm_point n_list d_list clip th0 lam.
Proof. intros H. unfold tmm_point, th_list. rewrite H. reflexivity. Qed.

(** ** Scaling *)
Lemma tmm_point_scale n0 inner nN dA dB dA' dB' clip th0 lam (k : R) : k <> 0%R ->
  let sc := map (fun nd : C * R => (fst nd, (k * snd nd)%R)) inner in
  tmm_point (ns n0 sc nN) (ds dA' sc dB') clip th0 (k * lam) =
  tmm_point (ns n0 inner nN) (ds dA inner dB) clip th0 lam.
Proof.
  intros Hk sc.
  assert (AE : forall a b, amp pS a = amp pS b -> amp pP a = amp pP b -> a = b).
  { intros [a1 a2] [b1 b2]; simpl; intros; subst; auto. }
  assert (K : forall p, amp p (tmm_point (ns n0 sc nN) (ds dA' sc dB') clip th0 (k * lam)) =
    amp p (tmm_point (ns n0 inner nN) (ds dA inner dB) clip th0 lam)); [|apply AE; apply K].
  intros p. apply option_ext. intros [r t]. rewrite !tmm_point_iff.
  set (s := n0 * RtoC (sin th0)).
  assert (E0 : (sc <> [] -> (k * lam)%R <> 0%R) <-> (inner <> [] -> lam <> 0%R)).
  { unfold sc. split; intros H Hi.
    - intros E. apply H; [destruct inner; simpl; congruence|]. rewrite E; ring.
    - apply Rmult_integral_contrapositive_currified; auto. apply H. destruct inner; simpl in *; congruence. }
  assert (E1 : all_nonzero n0 sc nN <-> all_nonzero n0 inner nN).
  { unfold all_nonzero, sc. rewrite Forall_map. simpl. tauto. }
  rewrite E0, E1.
  assert (E2 : (inner <> [] -> lam <> 0%R) ->
    code_rest s (k * lam) clip sc nN = code_rest s lam clip inner nN).
  { intros L. unfold code_rest, sc. rewrite map_map. f_equal. apply map_ext_in.
    intros nd Hnd. unfold code_layer. simpl.
    assert (RP : raw_phase s (k * lam) (fst nd) (k * snd nd) = raw_phase s lam (fst nd) (snd nd)).
    { unfold raw_phase. rewrite !RtoC_mult.
      assert (RtoC k <> 0) by (intros E; apply Hk; apply RtoC_inj; auto).
      assert (RtoC lam <> 0).
      { intros E. apply L; [intros Ei; rewrite Ei in Hnd; exact Hnd|]. apply RtoC_inj; auto. }
      field; auto. }
    rewrite RP. reflexivity. }
  split; intros (H1 & H2 & H3); (split; [exact H1|split; [exact H2|]]).
  - rewrite (E2 H2) in H3. exact H3.
  - rewrite (E2 H2). exact H3.
Qed.

(** ** Normal incidence *)
Lemma code_cos_normal (n : C) : n <> 0 -> code_cos 0 n = 1.
Proof.
  intros H. unfold code_cos. replace (0 / n) with (RtoC 0) by (field; auto).
  apply ccos_carcsin_0.
Qed.

Theorem normal_incidence n0 inner nN dA dB th0 lam a rs ts rp tp :
  sin th0 = 0%R ->
  coh_tmm (ns n0 inner nN) (ds dA inner dB) [(th0, lam)] = Ok [a] ->
  amp_s a = Some (rs, ts) -> amp_p a = Some (rp, tp) -> rs = - rp /\ ts = tp.
Proof.
  intros Hs H As Ap. rewrite (coh_tmm_one_true _ _ _ _ _ _ _ _ H) in As, Ap.
  change (amp pS (tmm_point (ns n0 inner nN) (ds dA inner dB) true th0 lam) = Some (rs, ts)) in As.
  change (amp pP (tmm_point (ns n0 inner nN) (ds dA inner dB) true th0 lam) = Some (rp, tp)) in Ap.
  apply tmm_point_waves in As as ((NZ0 & NZi & NZN) & _ & U).
  apply tmm_point_waves in Ap as (_ & _ & U').
  rewrite Hs in U, U'. replace (n0 * 0) with (RtoC 0) in U, U' by ring.
  assert (W : reflection_problem pP (code_end 0 n0) (code_rest 0 lam true inner nN) rp tp)
    by (apply U'; auto).
  apply waves_normal in W.
  - apply U in W. destruct W; split; congruence.
  - unfold code_rest. apply Forall_app. split.
    + rewrite Forall_map. eapply Forall_impl; [|exact NZi]. intros nd Hn. simpl.
      apply code_cos_normal; auto.
    + constructor; [|constructor]. simpl. apply code_cos_normal; auto.
  - simpl. apply code_cos_normal; auto.
Qed.

(** ** Reciprocity *)
Definition q_of (m : medium) : C := idx m * cosine m.

Definition mdet (M : mat) : C := m00 M * m11 M - m01 M * m10 M.
Lemma mdet_mul M N : mdet (mmul M N) = mdet M * mdet N.
Proof. destruct M as [[[? ?] ?] ?], N as [[[? ?] ?] ?]. unfold mdet; simpl. ring. Qed.

Lemma mdet_imat p m m' : regular m -> mdet (imat p m m') = q_of m' / q_of m.
Proof.
  intros R. unfold regular in R. pose proof (Cmult_neq_0_l _ _ R). pose proof (Cmult_neq_0_r _ _ R).
  unfold mdet, imat, q_of. destruct p; simpl; field; auto.
Qed.
Lemma mdet_pmat d : mdet (pmat d) = 1.
Proof. unfold mdet, pmat; simpl. rewrite cexp_mp. ring. Qed.

Lemma tm_cons p m x y rest : tm p m (x :: y :: rest) =
  mmul (imat p m x) (mmul (pmat (phase x)) (tm p x (y :: rest))).
Proof. reflexivity. Qed.

Lemma tm_det p rest : forall m back, all_regular m (rest ++ [back]) ->
  mdet (tm p m (rest ++ [back])) = q_of back / q_of m.
Proof.
  induction rest as [|x rest IH]; intros m back R.
  - destruct R as [R _]. apply mdet_imat; auto.
  - destruct R as [R Rr]. simpl app.
    assert (exists y l, rest ++ [back] = y :: l) as (y & l & E)
      by (destruct rest; simpl; eauto).
    rewrite E, tm_cons, <- E. rewrite !mdet_mul, mdet_imat, mdet_pmat, IH by auto.
    assert (regular x) by (rewrite E in Rr; destruct Rr; auto).
    unfold regular in *. fold (q_of m) in *. fold (q_of x) in *. field; auto.
Qed.

(** the matrix of the reversed stack: J adj(T) J / det T; entry 00 is T00 / det T *)
Definition mrev (M : mat) : mat := (m00 M, - m10 M, - m01 M, m11 M).
Lemma mrev_mul M N : mrev (mmul M N) = mmul (mrev N) (mrev M).
Proof.
  destruct M as [[[? ?] ?] ?], N as [[[? ?] ?] ?]. apply mat_eq; simpl; ring.
Qed.
Definition mscale (k : C) (M : mat) : mat := (k * m00 M, k * m01 M, k * m10 M, k * m11 M).
Lemma mscale_mul_l k M N : mmul (mscale k M) N = mscale k (mmul M N).
Proof. destruct M as [[[? ?] ?] ?], N as [[[? ?] ?] ?]. apply mat_eq; simpl; ring. Qed.
Lemma mscale_mul_r k M N : mmul M (mscale k N) = mscale k (mmul M N).
Proof. destruct M as [[[? ?] ?] ?], N as [[[? ?] ?] ?]. apply mat_eq; simpl; ring. Qed.
Lemma mscale_mscale k l M : mscale k (mscale l M) = mscale (k * l) M.
Proof. destruct M as [[[? ?] ?] ?]. apply mat_eq; simpl; ring. Qed.
Lemma mrev_mscale k M : mrev (mscale k M) = mscale k (mrev M).
Proof. destruct M as [[[? ?] ?] ?]. apply mat_eq; simpl; ring. Qed.

Lemma mrev_imat p m m' : regular m -> regular m' ->
  imat p m' m = mscale (q_of m / q_of m') (mrev (imat p m m')).
Proof.
  intros R R'. unfold regular in *.
  pose proof (Cmult_neq_0_l _ _ R). pose proof (Cmult_neq_0_r _ _ R).
  pose proof (Cmult_neq_0_l _ _ R'). pose proof (Cmult_neq_0_r _ _ R').
  unfold q_of, imat. destruct p; apply mat_eq; simpl; field; auto.
Qed.
Lemma mrev_pmat d : mrev (pmat d) = pmat d.
Proof. apply mat_eq; simpl; ring. Qed.

(** appending a medium at the back *)
Lemma tm_snoc p rest : forall m x back,
  tm p m (rest ++ [x; back]) =
  mmul (tm p m (rest ++ [x])) (mmul (pmat (phase x)) (imat p x back)).
Proof.
  induction rest as [|y rest IH]; intros m x back; [reflexivity|].
  simpl app.
  assert (exists z l, rest ++ [x; back] = z :: l) as (z & l & E) by (destruct rest; simpl; eauto).
  assert (exists z l, rest ++ [x] = z :: l) as (z' & l' & E') by (destruct rest; simpl; eauto).
  rewrite E, E', !tm_cons, <- E, <- E', IH. rewrite !mmul_assoc. reflexivity.
Qed.

Lemma all_regular_app m pre x post : all_regular m (pre ++ x :: post) ->
  all_regular m (pre ++ [x]) /\ all_regular x post.
Proof.
  revert m; induction pre as [|y pre IH]; intros m; simpl.
  - tauto.
  - intros [R H]. apply IH in H. tauto.
Qed.

Lemma tm_rev p rest : forall m back, all_regular m (rest ++ [back]) -> regular back ->
  tm p back (rev rest ++ [m]) = mscale (q_of m / q_of back) (mrev (tm p m (rest ++ [back]))).
Proof.
  induction rest as [|x rest IH]; intros m back R RB.
  - destruct R as [R _]. simpl. apply mrev_imat; auto.
  - simpl rev. rewrite <- app_assoc. simpl app.
    rewrite tm_snoc. destruct R as [R Rr]. rewrite IH by auto.
    assert (exists y l, rest ++ [back] = y :: l) as (y & l & E)
      by (destruct rest; simpl; eauto).
    rewrite E, tm_cons, <- E.
    assert (Rx : regular x) by (rewrite E in Rr; destruct Rr; auto).
    rewrite !mrev_mul, mrev_pmat, (mrev_imat p m x) by auto.
    rewrite mscale_mul_l, !mscale_mul_r, mscale_mscale, mmul_assoc.
    f_equal. unfold regular in *. fold (q_of m) in *. fold (q_of x) in *. fold (q_of back) in *.
    field; auto.
Qed.

Theorem reciprocity p n0 inner nN dA dB dA' dB' th0 th1 lam a a' r t r' t' :
  nN * RtoC (sin th1) = n0 * RtoC (sin th0) ->
  coh_tmm (ns n0 inner nN) (ds dA inner dB) [(th0, lam)] = Ok [a] ->
  coh_tmm (ns nN (rev inner) n0) (ds dA' (rev inner) dB') [(th1, lam)] = Ok [a'] ->
  amp p a = Some (r, t) -> amp p a' = Some (r', t') ->
  t' * (n0 * RtoC (Rabs (cos th0))) = t * (nN * RtoC (Rabs (cos th1))).
Proof.
  intros Hs H H' A A'.
  rewrite (coh_tmm_one_true _ _ _ _ _ _ _ _ H) in A.
  rewrite (coh_tmm_one_true _ _ _ _ _ _ _ _ H') in A'.
  apply tmm_point_iff in A as (NZ & _ & G & T & _ & Ht).
  apply tmm_point_iff in A' as (NZ' & _ & G' & T' & _ & Ht').
  rewrite Hs in *.
  set (s := n0 * RtoC (sin th0)) in *.
  assert (C0 : code_cos s n0 = RtoC (Rabs (cos th0))) by (apply code_cos_front; apply NZ).
  assert (CN : code_cos s nN = RtoC (Rabs (cos th1))).
  { rewrite <- Hs. apply code_cos_front; apply NZ'. }
  rewrite <- C0, <- CN.
  change (n0 * code_cos s n0) with (q_of (code_end s n0)).
  change (nN * code_cos s nN) with (q_of (code_end s nN)).
  assert (ER : code_rest s lam true (rev inner) n0 =
     rev (map (code_layer s lam true) inner) ++ [code_end s n0]).
  { unfold code_rest. rewrite map_rev. reflexivity. }
  rewrite ER in *. unfold code_rest in *.
  apply good_regular in G. apply good_regular in G'.
  assert (RN : regular (code_end s nN)).
  { destruct (rev (map (code_layer s lam true) inner)); destruct G'; auto. }
  assert (R0 : regular (code_end s n0)).
  { destruct (map (code_layer s lam true) inner); destruct G; auto. }
  rewrite (tm_rev p _ _ _ G RN) in T', Ht'.
  set (T00 := m00 (tm p (code_end s n0) (map (code_layer s lam true) inner ++ [code_end s nN]))) in *.
  assert (E : m00 (mscale (q_of (code_end s n0) / q_of (code_end s nN))
        (mrev (tm p (code_end s n0) (map (code_layer s lam true) inner ++ [code_end s nN])))) =
        q_of (code_end s n0) / q_of (code_end s nN) * T00).
  { unfold T00. destruct (tm p _ _) as [[[? ?] ?] ?]; reflexivity. }
  rewrite E in T', Ht'. rewrite Ht, Ht'.
  unfold regular in *. fold (q_of (code_end s n0)) in *. fold (q_of (code_end s nN)) in *.
  field. repeat split; auto.
Qed.
