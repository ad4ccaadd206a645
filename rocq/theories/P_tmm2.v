(** * Proofs about the transfer matrix model, continued: from one point of coh_tmm to
    the boundary value problem. *)

Require Import Reals List Bool Arith Lra Lia.
From Coquelicot Require Import Complex.
From Verif Require Import Base Cplx M_tmm Spec_optics P_tmm.
Import ListNotations.
Open Scope R_scope.
Open Scope C_scope.

Definition amp (p : pol) (a : amplitudes) : option (C * C) :=
  match p with pS => amp_s a | pP => amp_p a end.

(** cosine chosen by the code in a medium of index n *)
Definition code_cos (s n : C) : C := ccos (carcsin (s / n)).

Definition raw_phase (s : C) (lam : R) (n : C) (d : R) : C :=
  2 * PI * n * code_cos s n / lam * d.

Definition code_layer (s : C) (lam : R) (clip : bool) (nd : C * R) : medium :=
  mkMedium (fst nd) (code_cos s (fst nd))
    (if clip then clip35 (raw_phase s lam (fst nd) (snd nd)) else raw_phase s lam (fst nd) (snd nd)).

Definition code_end (s : C) (n : C) : medium := mkMedium n (code_cos s n) 0.

Definition code_rest (s : C) lam clip (inner : list (C * R)) (nN : C) : list medium :=
  map (code_layer s lam clip) inner ++ [code_end s nN].

Definition ns (n0 : C) (inner : list (C * R)) (nN : C) : list C := n0 :: map fst inner ++ [nN].
Definition ds (dA : xR) (inner : list (C * R)) (dB : xR) : list xR :=
  dA :: map (fun nd => Fin (snd nd)) inner ++ [dB].

Lemma removelast_app1 {A} (l : list A) x : removelast (l ++ [x]) = l.
Proof. rewrite removelast_app by congruence. simpl. apply app_nil_r. Qed.

Lemma inner_ns {A} (a : A) l b : Base.inner (a :: l ++ [b]) = l.
Proof. unfold Base.inner. simpl. apply removelast_app1. Qed.

Definition all_nonzero (n0 : C) (inner : list (C * R)) (nN : C) : Prop :=
  n0 <> 0 /\ Forall (fun nd : C * R => fst nd <> 0) inner /\ nN <> 0.

Lemma all_nonzero_In n0 inner nN : all_nonzero n0 inner nN <->
  forall n, In n (ns n0 inner nN) -> n <> 0.
Proof.
  unfold all_nonzero, ns. rewrite Forall_forall. split.
  - intros (H0 & H1 & HN) n [->|H]; auto.
    apply in_app_or in H as [H|[->|[]]]; auto.
    apply in_map_iff in H as (x & <- & Hx). auto.
  - intros H. repeat split.
    + apply H; simpl; auto.
    + intros x Hx. apply H. right. apply in_or_app. left. apply in_map; auto.
    + apply H. right. apply in_or_app. right. simpl; auto.
Qed.

Lemma th_list_some n0 inner nN th0 : all_nonzero n0 inner nN ->
  th_list (ns n0 inner nN) th0 =
  Some (map (fun n => carcsin (n0 * RtoC (sin th0) / n)) (ns n0 inner nN)).
Proof.
  intros H. rewrite all_nonzero_In in H. unfold th_list. apply mapM_some.
  intros n Hn. rewrite cdiv_some by auto. reflexivity.
Qed.
Lemma th_list_inv n0 inner nN th0 th : th_list (ns n0 inner nN) th0 = Some th ->
  all_nonzero n0 inner nN.
Proof.
  intros H. rewrite all_nonzero_In. intros n Hn E. subst.
  unfold th_list in H. destruct (mapM_In _ _ H _ Hn) as (b & Hb & _).
  rewrite cdiv_none in Hb. discriminate.
Qed.

Lemma deltas_eq n0 inner nN dA dB th0 lam :
  let s := n0 * RtoC (sin th0) in
  deltas (ns n0 inner nN) (map (fun n => carcsin (s / n)) (ns n0 inner nN)) (ds dA inner dB) lam =
  (if Req_EM_T lam 0 then match inner with [] => Some [] | _ => None end
   else Some (map (fun nd => raw_phase s lam (fst nd) (snd nd)) inner)).
Proof.
  intros s. unfold deltas. unfold ns, ds.
  rewrite map_cons, map_app.
  change (map (fun n => carcsin (s / n)) [nN]) with [carcsin (s / nN)]. rewrite !inner_ns.
  rewrite map_map.
  destruct (Req_EM_T lam 0) as [E|E].
  - destruct inner as [|[n d] inner]; auto. simpl. unfold kz. subst.
    rewrite cdiv_none. reflexivity.
  - assert (L : RtoC lam <> 0) by (intros H; apply E; apply RtoC_inj; auto).
    induction inner as [|[n d] inner IH]; auto.
    simpl. unfold kz at 1. rewrite cdiv_some by auto. simpl. rewrite IH. reflexivity.
Qed.

Lemma media_of_code (s : C) (lam : R) (clip : bool) (inner : list (C * R)) (nN : C) :
  media_of (map (fun n : C => (n, carcsin (s / n))) (map fst inner ++ [nN]))
    (if clip then map clip35 (map (fun nd : C * R => raw_phase s lam (fst nd) (snd nd)) inner)
     else map (fun nd : C * R => raw_phase s lam (fst nd) (snd nd)) inner)
  = code_rest s lam clip inner nN.
Proof.
  unfold code_rest. induction inner as [|[n d] inner IH].
  - destruct clip; reflexivity.
  - simpl. destruct clip; simpl; rewrite <- IH; reflexivity.
Qed.

Theorem tmm_point_iff p n0 inner nN dA dB clip th0 lam r t :
  let s := n0 * RtoC (sin th0) in
  let front := code_end s n0 in
  let rest := code_rest s lam clip inner nN in
  amp p (tmm_point (ns n0 inner nN) (ds dA inner dB) clip th0 lam) = Some (r, t) <->
  all_nonzero n0 inner nN /\ (inner <> [] -> lam <> 0%R) /\
  good p front rest /\ m00 (tm p front rest) <> 0 /\
  r = m10 (tm p front rest) / m00 (tm p front rest) /\ t = 1 / m00 (tm p front rest).
Proof.
  intros s front rest.
  assert (AMP : amp p (tmm_point (ns n0 inner nN) (ds dA inner dB) clip th0 lam) =
    obind (th_list (ns n0 inner nN) th0) (fun th =>
    obind (deltas (ns n0 inner nN) th (ds dA inner dB) lam) (fun delta =>
    tmm_pol (f_r p) (f_t p) (ns n0 inner nN) th (if clip then map clip35 delta else delta))))
    by (destruct p; reflexivity).
  rewrite AMP; clear AMP.
  assert (POL : forall delta, length delta = length inner ->
    (tmm_pol (f_r p) (f_t p) (ns n0 inner nN)
      (map (fun n => carcsin (n0 * RtoC (sin th0) / n)) (ns n0 inner nN)) delta = Some (r, t) <->
     let rest := media_of (map (fun n : C => (n, carcsin (s / n))) (map fst inner ++ [nN])) delta in
     good p front rest /\ m00 (tm p front rest) <> 0 /\
     r = m10 (tm p front rest) / m00 (tm p front rest) /\ t = 1 / m00 (tm p front rest))).
  { intros delta Hd.
    set (nt := map (fun n : C => (n, carcsin (s / n))) (ns n0 inner nN)).
    assert (E1 : ns n0 inner nN = map fst nt) by (unfold nt; rewrite map_map; simpl; rewrite map_id; auto).
    assert (E2 : map (fun n => carcsin (n0 * RtoC (sin th0) / n)) (ns n0 inner nN) = map snd nt)
      by (unfold nt; rewrite map_map; reflexivity).
    rewrite E2, E1.
    assert (exists y l, map (fun n : C => (n, carcsin (s / n))) (map fst inner ++ [nN]) = y :: l /\
              length l = length inner) as (y & l & Ey & Ly).
    { destruct inner as [|[n d] inner]; simpl.
      - eexists _, _; split; reflexivity.
      - eexists _, _; split; [reflexivity|]. rewrite map_length, app_length, map_length. simpl; lia. }
    assert (E3 : nt = (n0, carcsin (s / n0)) :: y :: l).
    { unfold nt, ns. rewrite map_cons, Ey. reflexivity. }
    rewrite E3. rewrite tmm_pol_iff by lia. rewrite Ey. reflexivity. }
  split.
  - intros H. apply obind_inv in H as (th & Hth & H).
    pose proof (th_list_inv _ _ _ _ _ Hth) as NZ. split; auto.
    rewrite th_list_some in Hth by auto.
    assert (th = map (fun n => carcsin (n0 * RtoC (sin th0) / n)) (ns n0 inner nN)) as ->
      by congruence.
    rewrite deltas_eq in H. fold s in H.
    destruct (Req_EM_T lam 0) as [E|E].
    + destruct inner as [|x inner]; [|discriminate]. split; [congruence|].
      cbn [obind] in H.
      replace (if clip then map clip35 [] else []) with (@nil C) in H by (destruct clip; auto).
      apply POL in H; [|reflexivity]. destruct clip; exact H.
    + split; auto. cbn [obind] in H.
      apply POL in H; [|destruct clip; rewrite ?map_length; auto].
      rewrite media_of_code in H. exact H.
  - intros (NZ & L & H). rewrite th_list_some by auto. cbn [obind].
    rewrite deltas_eq. fold s.
    destruct (Req_EM_T lam 0) as [E|E].
    + destruct inner as [|x inner]; [|exfalso; apply L; [congruence|auto]].
      cbn [obind].
      replace (if clip then map clip35 [] else []) with (@nil C) by (destruct clip; auto).
      apply POL; [reflexivity|]. destruct clip; exact H.
    + cbn [obind]. apply POL; [destruct clip; rewrite ?map_length; auto|].
      rewrite media_of_code. exact H.
Qed.

(** [amp] depends on the thickness list only through the inner thicknesses (used for
    the ends being infinite) *)

(** ** From finite results to the boundary value problem *)
Lemma rest_nonempty s lam clip inner nN : code_rest s lam clip inner nN <> [].
Proof. unfold code_rest. destruct (map _ _); simpl; congruence. Qed.

Lemma waves_unique p front rest r t r' t' :
  rest <> [] -> all_regular front rest -> m00 (tm p front rest) <> 0 ->
  r = m10 (tm p front rest) / m00 (tm p front rest) -> t = 1 / m00 (tm p front rest) ->
  (reflection_problem p front rest r' t' <-> r' = r /\ t' = t).
Proof.
  intros Hne R T -> ->. unfold reflection_problem. rewrite (waves_tm p front rest Hne R).
  set (a := m00 _) in *. set (c := m10 _) in *. split.
  - intros [E1 ->]. assert (t' = 1 / a).
    { apply (Cmult_reg_l a); auto. rewrite <- E1. field; auto. }
    subst t'. split; field; auto.
  - intros [-> ->]. split; field; auto.
Qed.

Lemma tmm_point_waves p n0 inner nN dA dB clip th0 lam r t :
  let s := n0 * RtoC (sin th0) in
  let front := code_end s n0 in
  let rest := code_rest s lam clip inner nN in
  amp p (tmm_point (ns n0 inner nN) (ds dA inner dB) clip th0 lam) = Some (r, t) ->
  all_nonzero n0 inner nN /\ good p front rest /\
  forall r' t', reflection_problem p front rest r' t' <-> r' = r /\ t' = t.
Proof.
  intros s front rest H. apply tmm_point_iff in H as (NZ & L & G & T & Hr & Ht).
  split; auto. split; auto. intros r' t'.
  apply waves_unique; auto.
  - apply rest_nonempty.
  - apply good_regular in G; auto.
Qed.

(** ** Snell's law *)
Lemma code_cos_sq s n : code_cos s n * code_cos s n = 1 - (s / n) * (s / n).
Proof. apply ccos_carcsin_sq. Qed.

(** ** Flipping the sign of the cosine (and so of the phase) of a medium exchanges the
    roles of its two waves. *)
Definition flip (m : medium) : medium := mkMedium (idx m) (- cosine m) (- phase m).

Lemma continuity_flip_l p m f b m' f' b' :
  continuity p (flip m) b f m' f' b' <-> continuity p m f b m' f' b'.
Proof.
  unfold continuity, tangential_1, tangential_2, flip; simpl.
  destruct p.
  - replace (b + f) with (f + b) by ring.
    replace (idx m * - cosine m * (b - f)) with (idx m * cosine m * (f - b)) by ring. tauto.
  - replace (b + f) with (f + b) by ring.
    replace (- cosine m * (b - f)) with (cosine m * (f - b)) by ring. tauto.
Qed.
Lemma continuity_flip_r p m f b m' f' b' :
  continuity p m f b (flip m') b' f' <-> continuity p m f b m' f' b'.
Proof.
  unfold continuity, tangential_1, tangential_2, flip; simpl.
  destruct p.
  - replace (b' + f') with (f' + b') by ring.
    replace (idx m' * - cosine m' * (b' - f')) with (idx m' * cosine m' * (f' - b')) by ring. tauto.
  - replace (b' + f') with (f' + b') by ring.
    replace (- cosine m' * (b' - f')) with (cosine m' * (f' - b')) by ring. tauto.
Qed.

Lemma waves_flip_first p m f b rest t : waves p (flip m) b f rest t <-> waves p m f b rest t.
Proof.
  destruct rest as [|m' rest]; [tauto|]. destruct rest as [|m'' rest].
  - simpl. apply continuity_flip_l.
  - split; intros (f' & b' & HC & HW); exists f', b'; (split; [|exact HW]).
    + apply continuity_flip_l; exact HC.
    + apply continuity_flip_l; exact HC.
Qed.

(** two lists of media that agree up to flips *)
Definition same_up_to_flip (m m' : medium) : Prop := m' = m \/ m' = flip m.

Lemma flip_exp m : cexp (Ci * phase (flip m)) = cexp (- (Ci * phase m)) /\
  cexp (- (Ci * phase (flip m))) = cexp (Ci * phase m).
Proof. simpl. split; f_equal; ring. Qed.

Lemma waves_flip p ms ms' back : Forall2 same_up_to_flip ms ms' -> forall m f b t,
  waves p m f b (ms ++ [back]) t <-> waves p m f b (ms' ++ [back]) t.
Proof.
  induction 1 as [|x x' ms ms' Hx F IH]; intros m f b t; [tauto|].
  assert (forall l, waves p m f b ((x :: l) ++ [back]) t <->
    exists f' b', continuity p m f b x f' b' /\
      waves p x (f' * cexp (Ci * phase x)) (b' * cexp (- (Ci * phase x))) (l ++ [back]) t) as E.
  { intros l. destruct l; reflexivity. }
  rewrite E.
  assert (forall l, waves p m f b ((x' :: l) ++ [back]) t <->
    exists f' b', continuity p m f b x' f' b' /\
      waves p x' (f' * cexp (Ci * phase x')) (b' * cexp (- (Ci * phase x'))) (l ++ [back]) t) as E'.
  { intros l. destruct l; reflexivity. }
  rewrite E'. clear E E'. destruct Hx as [->| ->].
  - split; intros (f' & b' & HC & HW); exists f', b'; (split; [exact HC|]).
    + apply IH; exact HW.
    + apply IH; exact HW.
  - destruct (flip_exp x) as [F1 F2]. split; intros (f' & b' & HC & HW); exists b', f'.
    + split; [rewrite continuity_flip_r; exact HC|]. rewrite F1, F2.
      rewrite waves_flip_first. apply IH. exact HW.
    + split.
      * rewrite <- continuity_flip_r. exact HC.
      * rewrite F1, F2 in HW. rewrite waves_flip_first in HW. apply IH; exact HW.
Qed.
