(** * Proofs about the transfer matrix model: statements about coh_tmm. *)

Require Import Reals List Bool Arith Lra Lia.
From Coquelicot Require Import Rcomplements Complex.
From Verif Require Import Base Cplx M_tmm Spec_optics P_tmm P_tmm2.
Import ListNotations.
Open Scope R_scope.
Open Scope C_scope.

(** ** Batches of points *)
Lemma thickness_same layers d_list : layers = length d_list -> thickness_list layers d_list = Ok d_list.
Proof. intros ->. unfold thickness_list. rewrite Nat.eqb_refl. reflexivity. Qed.
Lemma coh_tmm_batch n_list d_list pts res : coh_tmm n_list d_list pts = Ok res -> exists d,
  thickness_list (length n_list) d_list = Ok d /\
  res = map (fun p => tmm_point n_list d
               (existsb (fun p => point_opaque n_list d (fst p) (snd p)) pts) (fst p) (snd p)) pts /\
  (2 <= length n_list)%nat /\
  Forall (fun p => n0_ok (hd (RtoC 0) n_list) (fst p) = true) pts.
Proof.
  unfold coh_tmm. destruct n_list as [|n0 l]; [discriminate|].
  destruct (forallb _ pts) eqn:E; cbn [negb]; [|discriminate].
  destruct (Nat.ltb_spec (length (n0 :: l)) 2); [discriminate|].
  destruct (thickness_list _ d_list) as [d|e]; [|discriminate].
  intros H1; inversion H1; subst. exists d. repeat split; auto.
  rewrite Forall_forall. rewrite forallb_forall in E. auto.
Qed.

Lemma tmm_point_clip n_list d_list th0 lam :
  tmm_point n_list d_list true th0 lam =
  tmm_point n_list d_list (point_opaque n_list d_list th0 lam) th0 lam.
Proof.
  unfold tmm_point, point_opaque.
  destruct (th_list n_list th0) as [th|]; [|reflexivity]. cbn [obind].
  destruct (deltas n_list th d_list lam) as [delta|]; [|reflexivity]. cbn [obind].
  destruct (existsb opaque delta) eqn:E; auto.
  assert (map clip35 delta = delta) as ->; auto.
  clear - E. induction delta as [|d delta IH]; auto. simpl in *.
  apply orb_false_iff in E as [E1 E2]. f_equal; auto.
  unfold opaque in E1. destruct (Rlt_dec 35 (Im d)); [discriminate|].
  unfold clip35. rewrite Rmin_left by lra. destruct d; reflexivity.
Qed.

(** the clipping flag of the batch makes no difference to the individual points *)
Lemma tmm_point_flag n_list d_list pts p : In p pts ->
  tmm_point n_list d_list (existsb (fun p => point_opaque n_list d_list (fst p) (snd p)) pts) (fst p) (snd p)
  = tmm_point n_list d_list (point_opaque n_list d_list (fst p) (snd p)) (fst p) (snd p).
Proof.
  intros H. destruct (existsb _ pts) eqn:E.
  - apply tmm_point_clip.
  - destruct (point_opaque n_list d_list (fst p) (snd p)) eqn:O; auto.
    rewrite <- E. symmetry.
    assert (existsb (fun p => point_opaque n_list d_list (fst p) (snd p)) pts = true)
      by (apply existsb_exists; exists p; auto). congruence.
Qed.

Lemma coh_tmm_pointwise n_list d_list pts res : coh_tmm n_list d_list pts = Ok res ->
  Forall2 (fun p a => coh_tmm n_list d_list [p] = Ok [a]) pts res.
Proof.
  intros H. pose proof (coh_tmm_batch _ _ _ _ H) as (d & L & -> & L2 & F).
  clear H.
  assert (G : forall sub, incl sub pts -> Forall2 (fun p a => coh_tmm n_list d_list [p] = Ok [a]) sub
    (map (fun p => tmm_point n_list d
               (existsb (fun p => point_opaque n_list d (fst p) (snd p)) pts) (fst p) (snd p)) sub)).
  { induction sub as [|p sub IH]; intros I; [constructor|]. simpl. constructor.
    - assert (Ip : In p pts) by (apply I; simpl; auto).
      rewrite tmm_point_flag by auto. unfold coh_tmm.
      destruct n_list as [|n0 l]; [simpl in L2; lia|].
      rewrite Forall_forall in F. specialize (F p Ip). cbn [hd] in F.
      cbn [forallb]. rewrite F. cbn [negb].
      destruct (Nat.ltb_spec (length (n0 :: l)) 2); [lia|].
      rewrite L. cbn [existsb map]. rewrite orb_false_r. reflexivity.
    - apply IH. intros q Hq; apply I; simpl; auto. }
  apply G. apply incl_refl.
Qed.

(** conversely, if every point can be evaluated the batch can *)
Lemma coh_tmm_from_points n_list d_list pts res : pts <> [] ->
  Forall2 (fun p a => coh_tmm n_list d_list [p] = Ok [a]) pts res ->
  coh_tmm n_list d_list pts = Ok res.
Proof.
  intros Hne F.
  assert (exists r', coh_tmm n_list d_list pts = Ok r') as [r' Hr'].
  { destruct F as [|p a pts res H0 F]; [congruence|].
    pose proof (coh_tmm_batch _ _ _ _ H0) as (d & L & _ & L2 & Fo).
    assert (forallb (fun q => n0_ok (hd (RtoC 0) n_list) (fst q)) (p :: pts) = true) as FB.
    { apply forallb_forall. inversion Fo as [|? ? Hp]; subst.
      intros q [<-|Hq]; auto.
      clear - F Hq. induction F as [|p' a' ? ? H' F IH]; [easy|].
      destruct Hq as [<-|Hq]; auto.
      pose proof (coh_tmm_batch _ _ _ _ H') as (_ & _ & _ & _ & Fo). inversion Fo; auto. }
    unfold coh_tmm. destruct n_list as [|n0 l]; [simpl in L2; lia|]. cbn [hd] in FB. rewrite FB.
    cbn [negb].
    destruct (Nat.ltb_spec (length (n0 :: l)) 2); [lia|].
    rewrite L. eauto. }
  rewrite Hr'. f_equal.
  apply coh_tmm_pointwise in Hr'. clear Hne.
  revert res F; induction Hr' as [|p a pts r' H _ IH]; intros res F; inversion F; subst; auto.
  f_equal; [congruence|]. apply IH; auto.
Qed.

(** ** One point *)
Lemma coh_tmm_one n0 inner nN dA dB th0 lam a :
  coh_tmm (ns n0 inner nN) (ds dA inner dB) [(th0, lam)] = Ok [a] ->
  a = tmm_point (ns n0 inner nN) (ds dA inner dB)
        (point_opaque (ns n0 inner nN) (ds dA inner dB) th0 lam) th0 lam.
Proof.
  intros H. apply coh_tmm_batch in H as (d & L & H & _).
  rewrite thickness_same in L by (unfold ns, ds; simpl; rewrite !app_length, !map_length; reflexivity).
  injection L as <-. simpl in H. rewrite orb_false_r in H. congruence.
Qed.

Lemma coh_tmm_one_ok n0 inner nN dA dB th0 lam :
  n0_ok n0 th0 = true ->
  coh_tmm (ns n0 inner nN) (ds dA inner dB) [(th0, lam)] =
  Ok [tmm_point (ns n0 inner nN) (ds dA inner dB)
        (point_opaque (ns n0 inner nN) (ds dA inner dB) th0 lam) th0 lam].
Proof.
  intros H. unfold coh_tmm, ns, ds. cbn [forallb fst]. rewrite H. cbn [negb].
  rewrite !app_length, !map_length || idtac.
  assert (L1 : (length (n0 :: map fst inner ++ [nN]) <? 2)%nat = false).
  { apply Nat.ltb_ge. simpl. rewrite app_length; simpl; lia. }
  rewrite L1, thickness_same by (simpl; rewrite !app_length, !map_length; reflexivity). cbn [existsb map fst snd]. rewrite orb_false_r. reflexivity.
Qed.

Lemma n0_ok_real (x th0 : R) : n0_ok (RtoC x) th0 = true.
Proof.
  unfold n0_ok. destruct (Rlt_dec _ _) as [|N]; auto. exfalso. apply N.
  replace (Im (RtoC x * RtoC (sin th0))) with 0%R by (simpl; ring).
  rewrite Rabs_R0. unfold EPSILON. apply Rmult_lt_0_compat; [lra|].
  apply Rinv_0_lt_compat. apply pow_lt; lra.
Qed.

(** ** Cosines *)
Lemma code_cos_front (n0 : C) th0 : n0 <> 0 ->
  code_cos (n0 * RtoC (sin th0)) n0 = RtoC (Rabs (cos th0)).
Proof.
  intros H. unfold code_cos.
  replace (n0 * RtoC (sin th0) / n0) with (RtoC (sin th0)) by (field; auto).
  pose proof (SIN_bound th0).
  rewrite ccos_carcsin by (right; simpl; lra).
  apply csqrt_unique.
  - simpl. pose proof (Rabs_pos (cos th0)). lra.
  - rewrite <- !RtoC_mult, <- RtoC_minus. f_equal.
    rewrite <- Rabs_mult. pose proof (sin2_cos2 th0) as E. unfold Rsqr in E.
    rewrite Rabs_right by nra. lra.
Qed.


Lemma code_cos_unique s n c : (0 <= Re c)%R -> ~ total_reflection s n ->
  c * c = 1 - (s / n) * (s / n) -> c = code_cos s n.
Proof.
  intros Hc NT E. unfold code_cos. set (z := s / n) in *.
  assert (OFF : (Im z <> 0 \/ -1 <= Re z <= 1)%R).
  { destruct (Req_EM_T (Im z) 0) as [Ez|]; auto. right.
    destruct (Rle_dec (Rabs (Re z)) 1) as [h|h].
    - apply Rabs_le_between in h. lra.
    - exfalso; apply NT. split; [exact Ez|]. fold z. lra. }
  rewrite ccos_carcsin by auto.
  symmetry. apply csqrt_unique; auto.
  destruct Hc as [|Hc]; [left; auto|right]. split; auto.
  pose proof (f_equal Re E) as E1. pose proof (f_equal Im E) as E2.
  destruct c as [c1 c2], z as [x y]. simpl in *. subst c1.
  assert (X : (x * y = 0)%R) by lra.
  destruct (Req_EM_T y 0) as [->|Hy].
  - destruct OFF; [lra|]. assert (c2 * c2 <= 0)%R by nra. nra.
  - assert (x = 0)%R by nra. subst x. nra.
Qed.

(** ** coh_tmm solves the boundary value problem *)
Lemma sq_eq_pm (a b : C) : a * a = b * b -> a = b \/ a = - b.
Proof.
  intros E. assert ((a - b) * (a + b) = 0) as F.
  { replace ((a - b) * (a + b)) with (a * a - b * b) by ring. rewrite E; ring. }
  apply Cmult_integral in F as [F|F].
  - left. replace a with (a - b + b) by ring. rewrite F; ring.
  - right. replace a with (a + b - b) by ring. rewrite F; ring.
Qed.

Lemma layer_ok_flip s lam nd m : (lam <> 0)%R -> layer_ok s lam nd m ->
  same_up_to_flip (code_layer s lam false nd) m.
Proof.
  intros L (H1 & [H2 H3] & H4).
  rewrite H1 in *. rewrite <- code_cos_sq in H3.
  assert (RtoC lam <> 0) by (intros H; apply L; apply RtoC_inj; auto).
  unfold same_up_to_flip, flip, code_layer. simpl. destruct m as [i c ph]; simpl in *. subst i.
  destruct (sq_eq_pm _ _ H3) as [->| ->]; [left|right]; f_equal; subst ph;
    unfold raw_phase; field; auto.
Qed.

Lemma code_layer_clip s lam clip nd : (Im (raw_phase s lam (fst nd) (snd nd)) <= 35)%R ->
  code_layer s lam clip nd = code_layer s lam false nd.
Proof.
  intros H. unfold code_layer. destruct clip; auto. unfold clip35.
  rewrite Rmin_left by auto. destruct (raw_phase _ _ _ _); reflexivity.
Qed.

Lemma flips_of_stack s lam clip inner ms : (inner <> [] -> lam <> 0%R) ->
  Forall2 (layer_ok s lam) inner ms ->
  Forall (fun m => (Rabs (Im (phase m)) <= 35)%R) ms ->
  Forall2 same_up_to_flip (map (code_layer s lam clip) inner) ms.
Proof.
  intros L F. assert (F' : Forall2 (layer_ok s lam) inner ms) by auto.
  induction F as [|nd m inner ms H F IH]; intros B; [constructor|].
  inversion B as [|? ? Bm Bms]; subst. inversion F'; subst.
  assert (lam <> 0%R) by (apply L; congruence).
  simpl. constructor.
  - pose proof (layer_ok_flip s lam nd m H0 H) as FL.
    rewrite code_layer_clip; auto.
    destruct FL as [E|E]; subst m.
    + change (phase (code_layer s lam false nd)) with (raw_phase s lam (fst nd) (snd nd)) in Bm.
      apply Rabs_le_between in Bm. lra.
    + change (Im (phase (flip (code_layer s lam false nd)))) with
        (- Im (raw_phase s lam (fst nd) (snd nd)))%R in Bm.
      apply Rabs_le_between in Bm. lra.
  - apply IH; auto.
Qed.

Lemma physical_front n0 inner nN th0 lam front ms back :
  let s := n0 * RtoC (sin th0) in
  physical_stack n0 inner nN s lam front ms back ->
  cosine front = RtoC (Rabs (cos th0)) ->
  forall p f b rest t, rest <> [] ->
  waves p front f b rest t <-> waves p (code_end s n0) f b rest t.
Proof.
  intros s (H1 & [H2 H3] & _) HC p f b rest t Hne.
  assert (n0 <> 0) by congruence.
  assert (E : forall f' b' m', continuity p front f b m' f' b' <-> continuity p (code_end s n0) f b m' f' b').
  { intros. unfold continuity, tangential_1, tangential_2, code_end. simpl.
    unfold s. rewrite code_cos_front by auto. rewrite H1, HC. tauto. }
  destruct rest as [|m rest]; [congruence|]. destruct rest as [|m' rest].
  - simpl. apply E.
  - split; intros (f' & b' & HH & HW); exists f', b'; (split; [apply E; exact HH|exact HW]).
Qed.

Lemma physical_back s n back : idx back = n -> cosine back = code_cos s n ->
  forall p ms m f b t, waves p m f b (ms ++ [back]) t <-> waves p m f b (ms ++ [code_end s n]) t.
Proof.
  intros Hi Hc p. induction ms as [|x ms IH]; intros m f b t.
  - simpl. unfold continuity, tangential_1, tangential_2, code_end. simpl.
    rewrite Hi, Hc. tauto.
  - assert (forall y, waves p m f b ((x :: ms) ++ [y]) t <->
    exists f' b', continuity p m f b x f' b' /\
      waves p x (f' * cexp (Ci * phase x)) (b' * cexp (- (Ci * phase x))) (ms ++ [y]) t) as E.
    { intros y. destruct ms; reflexivity. }
    rewrite !E. split; intros (f' & b' & H1 & H2); exists f', b'; (split; [exact H1|]); apply IH; exact H2.
Qed.

Lemma app_single_ne {A} (l : list A) x : l ++ [x] <> [].
Proof. destruct l; simpl; congruence. Qed.

Theorem coh_tmm_solves p n0 inner nN dA dB th0 lam a r t front ms back :
  let s := n0 * RtoC (sin th0) in
  coh_tmm (ns n0 inner nN) (ds dA inner dB) [(th0, lam)] = Ok [a] ->
  amp p a = Some (r, t) ->
  physical_stack n0 inner nN s lam front ms back ->
  cosine front = RtoC (Rabs (cos th0)) ->
  (0 <= Re (cosine back))%R -> ~ total_reflection s nN ->
  Forall (fun m => (Rabs (Im (phase m)) <= 35)%R) ms ->
  forall r' t', reflection_problem p front (ms ++ [back]) r' t' <-> r' = r /\ t' = t.
Proof.
  intros s H A PS CF CB NT B r' t'.
  rewrite (coh_tmm_one _ _ _ _ _ _ _ _ H) in A. clear H a.
  set (clip := point_opaque _ _ _ _) in A.
  pose proof A as A'. apply tmm_point_iff in A' as (_ & L & _).
  apply tmm_point_waves in A as (NZ & G & U).
  rewrite <- U. unfold reflection_problem.
  fold s. unfold code_rest.
  rewrite (physical_front n0 inner nN th0 lam front ms back PS CF p 1 r' (ms ++ [back]) t')
    by apply app_single_ne.
  fold s. pose proof PS as (_ & _ & F2 & IB & [IB0 CB2]).
  assert (CC : cosine back = code_cos s nN).
  { apply code_cos_unique; auto. rewrite <- IB. auto. }
  rewrite (physical_back s nN back IB CC).
  symmetry. apply waves_flip. apply flips_of_stack; auto.
Qed.

(** ** Zero-thickness layers *)
Lemma continuity_trans p m f b m' f' b' m'' f'' b'' :
  continuity p m f b m' f' b' -> continuity p m' f' b' m'' f'' b'' ->
  continuity p m f b m'' f'' b''.
Proof. unfold continuity. intros [-> ->] [-> ->]. auto. Qed.

Lemma waves_drop_zero p m0 : phase m0 = 0 -> forall pre post m f b t, post <> [] ->
  waves p m f b (pre ++ m0 :: post) t -> waves p m f b (pre ++ post) t.
Proof.
  intros P0. induction pre as [|x pre IH]; intros post m f b t Hne H.
  - simpl in *. destruct post as [|y post]; [congruence|].
    destruct H as (f' & b' & HC & HW).
    rewrite P0 in HW.
    replace (Ci * 0) with (RtoC 0) in HW by ring.
    replace (- RtoC 0) with (RtoC 0) in HW by ring.
    rewrite cexp_0 in HW. rewrite !Cmult_1_r in HW.
    destruct post as [|z post].
    + simpl in *. eapply continuity_trans; eauto.
    + destruct HW as (f'' & b'' & HC' & HW). exists f'', b''. split; auto.
      eapply continuity_trans; eauto.
  - assert (forall l, l <> [] -> waves p m f b (x :: l) t <->
      exists f' b', continuity p m f b x f' b' /\
      waves p x (f' * cexp (Ci * phase x)) (b' * cexp (- (Ci * phase x))) l t) as E.
    { intros l Hl. destruct l; [congruence|reflexivity]. }
    simpl app in *.
    assert (pre ++ m0 :: post <> []) by (destruct pre; simpl; congruence).
    assert (pre ++ post <> []) by (destruct pre; simpl; congruence).
    rewrite E in H by auto. rewrite E by auto.
    destruct H as (f' & b' & HC1 & HW1). exists f', b'. split; auto.
Qed.

(** ** Splitting a layer *)
Lemma continuity_same p m f b f' b' i c : regular m -> i = idx m -> c = cosine m ->
  forall ph, continuity p m f b (mkMedium i c ph) f' b' -> f = f' /\ b = b'.
Proof.
  intros R -> -> ph H. rewrite continuity_imat in H by auto.
  pose proof (Cmult_neq_0_l _ _ R). pose proof (Cmult_neq_0_r _ _ R). pose proof C2_neq_0.
  assert (ia p m (mkMedium (idx m) (cosine m) ph) = 1).
  { destruct p; simpl; field; auto. }
  assert (ib p m (mkMedium (idx m) (cosine m) ph) = 0).
  { destruct p; simpl; field; auto. }
  rewrite H3, H4 in H. destruct H as [-> ->]. split; ring.
Qed.

Lemma waves_merge p i c ph1 ph2 : i * c <> 0 -> forall pre post m f b t, post <> [] ->
  waves p m f b (pre ++ mkMedium i c ph1 :: mkMedium i c ph2 :: post) t ->
  waves p m f b (pre ++ mkMedium i c (ph1 + ph2) :: post) t.
Proof.
  intros R. induction pre as [|x pre IH]; intros post m f b t Hne H.
  - simpl app in *. destruct post as [|y post]; [congruence|].
    destruct H as (f1 & b1 & HC1 & f2 & b2 & HC2 & HW).
    apply continuity_same in HC2 as [E1 E2]; auto.
    simpl phase in *.
    exists f1, b1. split.
    + exact HC1.
    + simpl phase.
      replace (Ci * (ph1 + ph2)) with (Ci * ph1 + Ci * ph2) by ring.
      replace (- (Ci * ph1 + Ci * ph2)) with (- (Ci * ph1) + - (Ci * ph2)) by ring.
      rewrite !cexp_add, !Cmult_assoc, E1, E2.
      clear - HW.
      assert (forall y l m m' f b, idx m = idx m' -> cosine m = cosine m' ->
        waves p m f b (y :: l) t -> waves p m' f b (y :: l) t) as K.
      { intros y0 l m m' f b Ei Ec. destruct l as [|z l].
        - simpl. unfold continuity, tangential_1, tangential_2. rewrite Ei, Ec. auto.
        - intros (f' & b' & HC & HW'). exists f', b'. split; auto.
          unfold continuity, tangential_1, tangential_2 in *. rewrite <- Ei, <- Ec. auto. }
      eapply K; [| |exact HW]; reflexivity.
  - assert (forall l, l <> [] -> waves p m f b (x :: l) t <->
      exists f' b', continuity p m f b x f' b' /\
      waves p x (f' * cexp (Ci * phase x)) (b' * cexp (- (Ci * phase x))) l t) as E.
    { intros l Hl. destruct l; [congruence|reflexivity]. }
    simpl app in *.
    rewrite E in H by (destruct pre; simpl; congruence).
    rewrite E by (destruct pre; simpl; congruence).
    destruct H as (f' & b' & HC1 & HW1). exists f', b'. split; auto.
Qed.

(** ** Normal incidence *)
Lemma waves_normal rest : Forall (fun m => cosine m = 1) rest -> forall m f b t, cosine m = 1 ->
  waves pP m f b rest t -> waves pS m f (- b) rest t.
Proof.
  induction 1 as [|x rest Hx F IH]; intros m f b t Hm H; [exact H|].
  assert (K : forall f' b', continuity pP m f b x f' b' -> continuity pS m f (- b) x f' (- b')).
  { unfold continuity, tangential_1, tangential_2. rewrite Hm, Hx. intros f' b' [E1 E2].
    rewrite !Cmult_1_l in E2. rewrite !Cmult_1_r. split.
    - exact E2.
    - transitivity (idx m * (f + b)); [ring|]. rewrite E1. ring. }
  destruct rest as [|y rest].
  - simpl in *. replace (RtoC 0) with (- RtoC 0) by ring. apply K. exact H.
  - destruct H as (f' & b' & HC & HW). exists f', (- b'). split; [apply K; exact HC|].
    apply IH in HW; auto.
    replace (- b' * cexp (- (Ci * phase x))) with (- (b' * cexp (- (Ci * phase x)))) by ring.
    exact HW.
Qed.
