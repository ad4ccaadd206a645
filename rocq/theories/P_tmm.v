(** * Proofs about the transfer matrix model. *)

Require Import Reals List Bool Arith Lra Lia.
From Coquelicot Require Import Complex.
From Verif Require Import Base Cplx M_tmm Spec_optics.
Import ListNotations.
Open Scope R_scope.
Open Scope C_scope.

Lemma C1_neq_0 : RtoC 1 <> 0.
Proof. intros H; apply (f_equal Re) in H; simpl in H; lra. Qed.
Lemma C2_neq_0 : RtoC 2 <> 0.
Proof. intros H; apply (f_equal Re) in H; simpl in H; lra. Qed.
Lemma Cmult_integral (a b : C) : a * b = 0 -> a = 0 \/ b = 0.
Proof.
  intros H. destruct (Ceq_dec a 0); auto. destruct (Ceq_dec b 0); auto.
  exfalso. exact (Cmult_neq_0 _ _ n n0 H).
Qed.
Lemma Cmult_neq_0_l (a b : C) : a * b <> 0 -> a <> 0.
Proof. intros H E; apply H; rewrite E; ring. Qed.
Lemma Cmult_neq_0_r (a b : C) : a * b <> 0 -> b <> 0.
Proof. intros H E; apply H; rewrite E; ring. Qed.
Lemma Cmult_reg_l (a b c : C) : a <> 0 -> a * b = a * c -> b = c.
Proof.
  intros H E. assert (a * (b - c) = 0) as F.
  { replace (a * (b - c)) with (a * b - a * c) by ring. rewrite E; ring. }
  apply Cmult_integral in F as [F|F]; [contradiction|].
  replace b with (b - c + c) by ring. rewrite F; ring.
Qed.

Lemma cdiv_some (a b : C) : b <> 0 -> cdiv a b = Some (a / b).
Proof. intros H; unfold cdiv; destruct (Ceq_dec b 0); congruence. Qed.
Lemma cdiv_inv (a b c : C) : cdiv a b = Some c -> b <> 0 /\ c = a / b.
Proof. unfold cdiv; destruct (Ceq_dec b 0); intros H; inversion H; auto. Qed.
Lemma cdiv_none a : cdiv a 0 = None.
Proof. unfold cdiv; destruct (Ceq_dec 0 0); congruence. Qed.

(** ** Matrices *)
Definition m00 (M : mat) := let '(a, _, _, _) := M in a.
Definition m01 (M : mat) := let '(_, b, _, _) := M in b.
Definition m10 (M : mat) := let '(_, _, c, _) := M in c.
Definition m11 (M : mat) := let '(_, _, _, d) := M in d.

Lemma mat_eq (M N : mat) : m00 M = m00 N -> m01 M = m01 N -> m10 M = m10 N ->
  m11 M = m11 N -> M = N.
Proof. destruct M as [[[? ?] ?] ?], N as [[[? ?] ?] ?]; simpl; intros; subst; auto. Qed.

Lemma mmul_assoc M N K : mmul (mmul M N) K = mmul M (mmul N K).
Proof.
  destruct M as [[[? ?] ?] ?], N as [[[? ?] ?] ?], K as [[[? ?] ?] ?].
  apply mat_eq; simpl; ring.
Qed.
Lemma fold_mmul l M N : fold_left mmul l (mmul M N) = mmul M (fold_left mmul l N).
Proof.
  revert M N; induction l as [|K l IH]; simpl; intros; auto.
  rewrite mmul_assoc, IH. auto.
Qed.

(** interface matrix: (f, b) on this side = imat (f', b') on the far side *)
Definition ia (p : pol) (m m' : medium) : C :=
  match p with
  | pS => (idx m * cosine m + idx m' * cosine m') / (2 * (idx m * cosine m))
  | pP => (idx m' * cosine m + idx m * cosine m') / (2 * (idx m * cosine m))
  end.
Definition ib (p : pol) (m m' : medium) : C :=
  match p with
  | pS => (idx m * cosine m - idx m' * cosine m') / (2 * (idx m * cosine m))
  | pP => (idx m' * cosine m - idx m * cosine m') / (2 * (idx m * cosine m))
  end.
Definition imat p m m' : mat := (ia p m m', ib p m m', ib p m m', ia p m m').
Definition pmat (d : C) : mat := (cexp (- (Ci * d)), RtoC 0, RtoC 0, cexp (Ci * d)).

Fixpoint tm (p : pol) (m : medium) (rest : list medium) : mat :=
  match rest with
  | [] => (RtoC 1, RtoC 0, RtoC 0, RtoC 1)
  | m' :: rest' =>
      match rest' with
      | [] => imat p m m'
      | _ => mmul (imat p m m') (mmul (pmat (phase m')) (tm p m' rest'))
      end
  end.

Definition regular (m : medium) := idx m * cosine m <> 0.

Lemma continuity_imat p m f b m' f' b' : regular m ->
  continuity p m f b m' f' b' <->
  f = ia p m m' * f' + ib p m m' * b' /\ b = ib p m m' * f' + ia p m m' * b'.
Proof.
  intros R. pose proof (Cmult_neq_0_l _ _ R) as Rn. pose proof (Cmult_neq_0_r _ _ R) as Rc.
  pose proof C2_neq_0 as R2.
  unfold continuity, tangential_1, tangential_2, ia, ib. destruct p; split.
  - intros [E1 E2]. split.
    + apply (Cmult_reg_l (2 * (idx m * cosine m))). { repeat apply Cmult_neq_0; auto. }
      transitivity ((idx m * cosine m) * (f + b) + idx m * cosine m * (f - b)); [ring|].
      rewrite E1, E2. field. auto.
    + apply (Cmult_reg_l (2 * (idx m * cosine m))). { repeat apply Cmult_neq_0; auto. }
      transitivity ((idx m * cosine m) * (f + b) - idx m * cosine m * (f - b)); [ring|].
      rewrite E1, E2. field. auto.
  - intros [E1 E2]; subst. split; field; auto.
  - intros [E1 E2]. split.
    + apply (Cmult_reg_l (2 * (idx m * cosine m))). { repeat apply Cmult_neq_0; auto. }
      transitivity (cosine m * (idx m * (f + b)) + idx m * (cosine m * (f - b))); [ring|].
      rewrite E1, E2. field. auto.
    + apply (Cmult_reg_l (2 * (idx m * cosine m))). { repeat apply Cmult_neq_0; auto. }
      transitivity (cosine m * (idx m * (f + b)) - idx m * (cosine m * (f - b))); [ring|].
      rewrite E1, E2. field. auto.
  - intros [E1 E2]; subst. split; field; auto.
Qed.

(** every medium but the last is regular *)
Fixpoint all_regular (m : medium) (rest : list medium) : Prop :=
  match rest with
  | [] => True
  | m' :: rest' => regular m /\ all_regular m' rest'
  end.

Lemma cexp_pm d : cexp (Ci * d) * cexp (- (Ci * d)) = 1.
Proof. apply cexp_opp_r. Qed.
Lemma cexp_mp d : cexp (- (Ci * d)) * cexp (Ci * d) = 1.
Proof. rewrite Cmult_comm; apply cexp_opp_r. Qed.

Lemma waves_tm p m rest : rest <> [] -> all_regular m rest -> forall f b t,
  waves p m f b rest t <-> f = m00 (tm p m rest) * t /\ b = m10 (tm p m rest) * t.
Proof.
  revert m; induction rest as [|m' rest IH]; intros m Hne R f b t; [easy|].
  destruct R as [R Rr]. destruct rest as [|m'' rest].
  - simpl. rewrite (continuity_imat p m f b m' t 0 R).
    split; intros [-> ->]; split; ring.
  - change (waves p m f b (m' :: m'' :: rest) t) with
      (exists f' b', continuity p m f b m' f' b' /\
        waves p m' (f' * cexp (Ci * phase m')) (b' * cexp (- (Ci * phase m'))) (m'' :: rest) t).
    change (tm p m (m' :: m'' :: rest)) with
      (mmul (imat p m m') (mmul (pmat (phase m')) (tm p m' (m'' :: rest)))).
    specialize (IH m' ltac:(congruence) Rr).
    set (N := tm p m' (m'' :: rest)) in *.
    assert (EQ : m00 (mmul (imat p m m') (mmul (pmat (phase m')) N)) =
       ia p m m' * (cexp (- (Ci * phase m')) * m00 N) + ib p m m' * (cexp (Ci * phase m') * m10 N)).
    { destruct N as [[[? ?] ?] ?]; simpl. ring. }
    assert (EQ2 : m10 (mmul (imat p m m') (mmul (pmat (phase m')) N)) =
       ib p m m' * (cexp (- (Ci * phase m')) * m00 N) + ia p m m' * (cexp (Ci * phase m') * m10 N)).
    { destruct N as [[[? ?] ?] ?]; simpl. ring. }
    rewrite EQ, EQ2. pose proof (cexp_pm (phase m')) as PM. split.
    + intros (f' & b' & HC & HW). rewrite (continuity_imat p m f b m' f' b' R) in HC.
      rewrite IH in HW. destruct HW as [W1 W2]. destruct HC as [-> ->].
      set (e := cexp (Ci * phase m')) in *. set (e' := cexp (- (Ci * phase m'))) in *.
      assert (F : f' = e' * m00 N * t).
      { transitivity (f' * (e * e')); [rewrite PM; ring|]. rewrite Cmult_assoc, W1. ring. }
      assert (B : b' = e * m10 N * t).
      { transitivity (b' * (e * e')); [rewrite PM; ring|].
        transitivity (b' * e' * e); [ring|]. rewrite W2. ring. }
      rewrite F, B. split; ring.
    + intros [-> ->].
      exists (cexp (- (Ci * phase m')) * m00 N * t), (cexp (Ci * phase m') * m10 N * t).
      split.
      * apply continuity_imat; auto. split; ring.
      * rewrite IH. set (e := cexp (Ci * phase m')) in *. set (e' := cexp (- (Ci * phase m'))) in *.
        split.
        -- transitivity ((e * e') * (m00 N * t)); [ring|rewrite PM; ring].
        -- transitivity ((e * e') * (m10 N * t)); [ring|rewrite PM; ring].
Qed.

(** ** The model computes [tm] *)

(** denominator of the Fresnel coefficients *)
Definition fden (p : pol) (m m' : medium) : C :=
  match p with
  | pS => idx m * cosine m + idx m' * cosine m'
  | pP => idx m' * cosine m + idx m * cosine m'
  end.

Fixpoint good (p : pol) (m : medium) (rest : list medium) : Prop :=
  match rest with
  | [] => True
  | m' :: rest' => regular m /\ fden p m m' <> 0 /\ good p m' rest'
  end.

Lemma good_regular p m rest : good p m rest -> all_regular m rest.
Proof. revert m; induction rest; simpl; intuition. Qed.

Definition f_r (p : pol) := match p with pS => interface_r_s | pP => interface_r_p end.
Definition f_t (p : pol) := match p with pS => interface_t_s | pP => interface_t_p end.

(** media seen by the model: indices, angles, phases *)
Fixpoint mk_media (n th ph : list C) : list medium :=
  match n, th, ph with
  | a :: n', t :: th', d :: ph' => mkMedium a (ccos t) d :: mk_media n' th' ph'
  | _, _, _ => []
  end.

Lemma mk_media_length n th ph : length th = length n -> length ph = length n ->
  length (mk_media n th ph) = length n.
Proof.
  revert th ph; induction n as [|a n IH]; destruct th, ph; simpl; intros; try lia.
  f_equal. apply IH; lia.
Qed.

(** consecutive pairs *)
Fixpoint pairs {A} (x : A) (l : list A) : list (A * A) :=
  match l with [] => [] | y :: l' => (x, y) :: pairs y l' end.
Lemma pairs_combine {A} (x : A) l : combine (removelast (x :: l)) l = pairs x l.
Proof.
  revert x; induction l as [|y l IH]; intros x; auto.
  change (removelast (x :: y :: l)) with (x :: removelast (y :: l)).
  simpl combine. simpl pairs. f_equal. apply IH.
Qed.

Lemma pairs_inv {A B} (f : A * A -> option B) x y l bs :
  mapM f (pairs x (y :: l)) = Some bs ->
  exists b bs', f (x, y) = Some b /\ mapM f (pairs y l) = Some bs' /\ bs = b :: bs'.
Proof. apply mapM_cons_inv. Qed.

Lemma fr_some p n th d n' th' d' :
  fden p (mkMedium n (ccos th) d) (mkMedium n' (ccos th') d') <> 0 ->
  regular (mkMedium n (ccos th) d) ->
  exists r t, f_r p n n' th th' = Some r /\ f_t p n n' th th' = Some t /\ t <> 0 /\
    1 / t = ia p (mkMedium n (ccos th) d) (mkMedium n' (ccos th') d') /\
    r / t = ib p (mkMedium n (ccos th) d) (mkMedium n' (ccos th') d').
Proof.
  intros D R. unfold regular in R. simpl in R.
  pose proof (Cmult_neq_0_l _ _ R). pose proof (Cmult_neq_0_r _ _ R). pose proof C2_neq_0.
  destruct p; simpl in *.
  - unfold interface_r_s, interface_t_s. rewrite !cdiv_some by auto.
    eexists _, _; split; [reflexivity|split; [reflexivity|]].
    split; [|split; field; auto].
    unfold Cdiv. repeat apply Cmult_neq_0; auto.
    intros E. pose proof (Cinv_r _ D) as I. rewrite E in I.
    apply C1_neq_0. rewrite <- I. ring.
  - unfold interface_r_p, interface_t_p. rewrite !cdiv_some by auto.
    eexists _, _; split; [reflexivity|split; [reflexivity|]].
    split; [|split; field; auto].
    unfold Cdiv. repeat apply Cmult_neq_0; auto.
    intros E. pose proof (Cinv_r _ D) as I. rewrite E in I.
    apply C1_neq_0. rewrite <- I. ring.
Qed.

Lemma fr_none p n th d n' th' d' r t :
  f_r p n n' th th' = Some r -> f_t p n n' th th' = Some t ->
  fden p (mkMedium n (ccos th) d) (mkMedium n' (ccos th') d') <> 0 /\
  (t <> 0 -> regular (mkMedium n (ccos th) d)).
Proof.
  destruct p; simpl; unfold interface_r_s, interface_t_s, interface_r_p, interface_t_p;
    intros Hr Ht; apply cdiv_inv in Hr as [D Hr]; apply cdiv_inv in Ht as [_ Ht];
    (split; [exact D|]); intros T E; unfold regular in *; simpl in *; apply T; rewrite Ht;
    replace (2 * n * ccos th) with (2 * (n * ccos th)) by ring; rewrite E;
    unfold Cdiv; ring.
Qed.

Definition nt_of (m : C * C) (d : C) := mkMedium (fst m) (ccos (snd m)) d.

(** media from (index, angle) pairs and the list of phases of the inner ones *)
Fixpoint media_of (l : list (C * C)) (delta : list C) : list medium :=
  match l with
  | [] => []
  | x :: l' =>
      match delta with
      | d :: delta' => nt_of x d :: media_of l' delta'
      | [] => nt_of x 0 :: media_of l' []
      end
  end.

Definition ifr p := fun '((n_i, th_i), (n_f, th_f)) => f_r p n_i n_f th_i th_f : option C.
Definition ift p := fun '((n_i, th_i), (n_f, th_f)) => f_t p n_i n_f th_i th_f : option C.
Definition ch := fun '(d, (r, t)) => char_mat d r t : option mat.

Definition last_step (M : mat) : option (C * C) :=
  let '(m00, m01, m10, m11) := M in
  obind (cdiv m10 m00) (fun r => obind (cdiv 1 m00) (fun t => Some (r, t))).

Lemma char_mat_some p x d y d' r t :
  f_r p (fst x) (fst y) (snd x) (snd y) = Some r ->
  f_t p (fst x) (fst y) (snd x) (snd y) = Some t ->
  t <> 0 ->
  char_mat d r t = Some (mmul (pmat d) (imat p (nt_of x d) (nt_of y d'))).
Proof.
  intros Hr Ht T. unfold char_mat. rewrite !cdiv_some by auto. apply (f_equal (@Some mat)).
  destruct (fr_none p _ _ d _ _ d' _ _ Hr Ht) as [D R]. specialize (R T).
  destruct (fr_some p _ _ d _ _ d' D R) as (r' & t' & Hr' & Ht' & _ & E1 & E2).
  rewrite Hr in Hr'; inversion Hr'; subst r'. rewrite Ht in Ht'; inversion Ht'; subst t'.
  fold (nt_of x d) in *. fold (nt_of y d') in *.
  unfold imat. unfold nt_of in *. rewrite <- E1, <- E2.
  pose proof (cexp_neq_0 (Ci * d)). pose proof (cexp_opp (Ci * d)) as EO.
  apply mat_eq; simpl; rewrite ?EO; field; auto.
Qed.

Lemma char_mat_t d r t M : char_mat d r t = Some M -> t <> 0.
Proof.
  unfold char_mat. destruct (cdiv _ t) eqn:E; simpl; intros H; [|discriminate].
  apply cdiv_inv in E. tauto.
Qed.
Lemma init_mat_t r t M : init_mat r t = Some M -> t <> 0.
Proof.
  unfold init_mat. destruct (cdiv _ t) eqn:E; simpl; intros H; [|discriminate].
  apply cdiv_inv in E. tauto.
Qed.
Lemma init_mat_some p x d y d' r t :
  f_r p (fst x) (fst y) (snd x) (snd y) = Some r ->
  f_t p (fst x) (fst y) (snd x) (snd y) = Some t ->
  t <> 0 ->
  init_mat r t = Some (imat p (nt_of x d) (nt_of y d')).
Proof.
  intros Hr Ht T. unfold init_mat. rewrite !cdiv_some by auto. apply (f_equal (@Some mat)).
  destruct (fr_none p _ _ d _ _ d' _ _ Hr Ht) as [D R]. specialize (R T).
  destruct (fr_some p _ _ d _ _ d' D R) as (r' & t' & Hr' & Ht' & _ & E1 & E2).
  rewrite Hr in Hr'; inversion Hr'; subst r'. rewrite Ht in Ht'; inversion Ht'; subst t'.
  fold (nt_of x d) in *. fold (nt_of y d') in *.
  unfold imat. unfold nt_of in *. rewrite <- E1, <- E2. reflexivity.
Qed.

Local Arguments mmul : simpl never.

(** fold over the interfaces behind medium x *)
Lemma fold_char p x l delta r_list t_list Ms d0 M :
  length delta = length l ->
  mapM (ifr p) (pairs x l) = Some r_list ->
  mapM (ift p) (pairs x l) = Some t_list ->
  mapM ch (combine (d0 :: delta) (combine r_list t_list)) = Some Ms ->
  l <> [] ->
  good p (nt_of x d0) (media_of l delta) /\
  fold_left mmul Ms M = mmul M (mmul (pmat d0) (tm p (nt_of x d0) (media_of l delta))).
Proof.
  revert x delta r_list t_list Ms d0 M.
  induction l as [|y l IH]; intros x delta r_list t_list Ms d0 M Hl Hr Ht Hm Hne; [easy|].
  destruct delta as [|d1 delta]; [discriminate|]. simpl in Hl.
  apply pairs_inv in Hr as (r & rs & Er & Ers & ->).
  apply pairs_inv in Ht as (t & ts & Et & Ets & ->).
  change (combine (d0 :: d1 :: delta) (combine (r :: rs) (t :: ts))) with
    ((d0, (r, t)) :: combine (d1 :: delta) (combine rs ts)) in Hm.
  apply mapM_cons_inv in Hm as (M0 & Ms' & Em & Ems & ->).
  change (ch (d0, (r, t))) with (char_mat d0 r t) in Em.
  pose proof (char_mat_t _ _ _ _ Em) as T.
  assert (Er' : f_r p (fst x) (fst y) (snd x) (snd y) = Some r) by (destruct x, y; exact Er).
  assert (Et' : f_t p (fst x) (fst y) (snd x) (snd y) = Some t) by (destruct x, y; exact Et).
  rewrite (char_mat_some p x d0 y d1 r t Er' Et' T) in Em.
  assert (M0 = mmul (pmat d0) (imat p (nt_of x d0) (nt_of y d1))) as -> by congruence. clear Em.
  destruct (fr_none p _ _ d0 _ _ d1 _ _ Er' Et') as [D R].
  change (media_of (y :: l) (d1 :: delta)) with (nt_of y d1 :: media_of l delta).
  destruct l as [|z l].
  - destruct delta; [|discriminate]. 
    assert (rs = []) as -> by (simpl in Ers; congruence).
    assert (ts = []) as -> by (simpl in Ets; congruence).
    assert (Ms' = []) as -> by (simpl in Ems; congruence).
    split.
    + split; [apply R; auto|split; [exact D|exact I]].
    + reflexivity.
  - destruct (IH y delta rs ts Ms' d1 (mmul M (mmul (pmat d0) (imat p (nt_of x d0) (nt_of y d1)))))
      as [G F]; auto; try congruence; try lia.
    split.
    + split; [apply R; auto|split; [exact D|exact G]].
    + cbn [fold_left]. rewrite F.
      destruct delta as [|d2 delta]; [discriminate|].
      change (media_of (z :: l) (d2 :: delta)) with (nt_of z d2 :: media_of l delta).
      change (tm p (nt_of x d0) (nt_of y d1 :: nt_of z d2 :: media_of l delta)) with
        (mmul (imat p (nt_of x d0) (nt_of y d1))
          (mmul (pmat (phase (nt_of y d1))) (tm p (nt_of y d1) (nt_of z d2 :: media_of l delta)))).
      simpl phase. rewrite !mmul_assoc. reflexivity.
Qed.

Lemma good_mapM p x l delta d0 :
  good p (nt_of x d0) (media_of l delta) ->
  exists r_list t_list, mapM (ifr p) (pairs x l) = Some r_list /\
    mapM (ift p) (pairs x l) = Some t_list /\ Forall (fun t : C => t <> 0) t_list.
Proof.
  revert x delta d0; induction l as [|y l IH]; intros x delta d0 G.
  - exists [], []. repeat split; auto.
  - assert (exists d1 delta', media_of (y :: l) delta = nt_of y d1 :: media_of l delta')
      as (d1 & delta' & E).
    { destruct delta; [exists (RtoC 0), []|exists c, delta]; reflexivity. }
    rewrite E in G. destruct G as [R [D G]].
    destruct (IH _ _ _ G) as (rs & ts & H1 & H2 & H3).
    destruct (fr_some p _ _ _ _ _ _ D R) as (r & t & Hr & Ht & T & _).
    exists (r :: rs), (t :: ts).
    assert (Er : ifr p (x, y) = Some r) by (destruct x, y; exact Hr).
    assert (Et : ift p (x, y) = Some t) by (destruct x, y; exact Ht).
    cbn [pairs mapM]. rewrite Er, Et. cbn [obind]. rewrite H1, H2. repeat split; auto.
Qed.

Lemma ch_mapM delta rs ts : Forall (fun t : C => t <> 0) ts ->
  exists Ms, mapM ch (combine delta (combine rs ts)) = Some Ms.
Proof.
  intros F. revert delta rs; induction F as [|t ts T F IH]; intros delta rs.
  - exists []. destruct rs, delta; reflexivity.
  - destruct rs as [|r rs]; [exists []; destruct delta; reflexivity|].
    destruct delta as [|d delta]; [exists []; reflexivity|].
    destruct (IH delta rs) as [Ms HM].
    cbn [combine mapM].
    change (ch (d, (r, t))) with (char_mat d r t). unfold char_mat.
    rewrite !cdiv_some by auto. cbn [obind]. rewrite HM. cbn [obind]. eauto.
Qed.

Lemma media_of_app0 l delta : media_of l (delta ++ [RtoC 0]) = media_of l delta.
Proof.
  revert delta; induction l as [|x l IH]; intros; auto.
  destruct delta; simpl; f_equal; auto.
Qed.

Lemma combine_fst_snd {A B} (l : list (A * B)) : combine (map fst l) (map snd l) = l.
Proof. induction l as [|[a b] l IH]; simpl; f_equal; auto. Qed.

Lemma combine_app_r {A B} (l : list A) (m : list B) k : length l = length m ->
  combine (l ++ k) m = combine l m.
Proof.
  revert m; induction l as [|a l IH]; destruct m; simpl; intros; try discriminate; auto.
  - destruct k; auto.
  - f_equal; auto.
Qed.

Lemma mapM_pairs_length {A B} (f : A * A -> option B) x l r :
  mapM f (pairs x l) = Some r -> length r = length l.
Proof.
  intros H. rewrite (mapM_length _ _ H). clear H. revert x; induction l; simpl; auto.
Qed.

Lemma last_step_iff M r t : last_step M = Some (r, t) <->
  m00 M <> 0 /\ r = m10 M / m00 M /\ t = 1 / m00 M.
Proof.
  destruct M as [[[a b] c] d]. unfold last_step, m00, m10.
  destruct (Ceq_dec a 0).
  - subst. rewrite !cdiv_none. simpl. split; [discriminate|intros [H _]; congruence].
  - rewrite !cdiv_some by auto. simpl. split.
    + intros H; inversion H; auto.
    + intros (_ & -> & ->); auto.
Qed.

Theorem tmm_pol_iff p x y l delta r t :
  length delta = length l ->
  tmm_pol (f_r p) (f_t p) (map fst (x :: y :: l)) (map snd (x :: y :: l)) delta = Some (r, t) <->
  let front := nt_of x 0 in
  let rest := media_of (y :: l) delta in
  good p front rest /\ m00 (tm p front rest) <> 0 /\
  r = m10 (tm p front rest) / m00 (tm p front rest) /\ t = 1 / m00 (tm p front rest).
Proof.
  intros Hl. unfold tmm_pol, interfaces. rewrite combine_fst_snd.
  change (tl (x :: y :: l)) with (y :: l). rewrite pairs_combine.
  fold (ifr p). fold (ift p). fold ch. fold last_step.
  cbv zeta.
  set (front := nt_of x 0). set (rest := media_of (y :: l) delta).
  (* what happens once the interface lists are known *)
  assert (KEY : forall r_list t_list Ms M0,
    mapM (ifr p) (pairs x (y :: l)) = Some r_list ->
    mapM (ift p) (pairs x (y :: l)) = Some t_list ->
    mapM ch (combine delta (combine (tl r_list) (tl t_list))) = Some Ms ->
    init_mat (hd (RtoC 0) r_list) (hd (RtoC 0) t_list) = Some M0 ->
    good p front rest /\ fold_left mmul Ms M0 = tm p front rest).
  { intros r_list t_list Ms M0 Hr Ht Hm H0.
    apply pairs_inv in Hr as (r0 & rs & Er & Ers & ->).
    apply pairs_inv in Ht as (t0 & ts & Et & Ets & ->).
    simpl hd in H0. simpl tl in Hm.
    pose proof (init_mat_t _ _ _ H0) as T.
    assert (Er' : f_r p (fst x) (fst y) (snd x) (snd y) = Some r0) by (destruct x, y; exact Er).
    assert (Et' : f_t p (fst x) (fst y) (snd x) (snd y) = Some t0) by (destruct x, y; exact Et).
    unfold rest, front. destruct l as [|z l].
    - destruct delta; [|discriminate].
      assert (rs = []) as -> by (simpl in Ers; congruence).
      assert (ts = []) as -> by (simpl in Ets; congruence).
      assert (Ms = []) as -> by (simpl in Hm; congruence).
      rewrite (init_mat_some p x 0 y 0 _ _ Er' Et' T) in H0.
      assert (M0 = imat p (nt_of x 0) (nt_of y 0)) as -> by congruence.
      destruct (fr_none p _ _ 0 _ _ 0 _ _ Er' Et') as [D R].
      split; [split; [apply R; auto|split; [exact D|exact I]]|reflexivity].
    - destruct delta as [|d0 delta]; [discriminate|]. simpl in Hl.
      rewrite (init_mat_some p x 0 y d0 _ _ Er' Et' T) in H0.
      assert (M0 = imat p (nt_of x 0) (nt_of y d0)) as -> by congruence.
      destruct (fr_none p _ _ 0 _ _ d0 _ _ Er' Et') as [D R].
      assert (Lr : length rs = S (length l)) by (apply mapM_pairs_length in Ers; auto).
      assert (Lt : length ts = S (length l)) by (apply mapM_pairs_length in Ets; auto).
      rewrite <- (combine_app_r (d0 :: delta) _ [RtoC 0]) in Hm
        by (rewrite combine_length; simpl; lia).
      destruct (fold_char p y (z :: l) (delta ++ [RtoC 0]) rs ts Ms d0
                 (imat p (nt_of x 0) (nt_of y d0))) as [G F]; auto; try congruence.
      { rewrite app_length; simpl; lia. }
      rewrite media_of_app0 in G, F.
      change (media_of (y :: z :: l) (d0 :: delta)) with (nt_of y d0 :: media_of (z :: l) delta).
      split; [split; [apply R; auto|split; [exact D|exact G]]|].
      rewrite F. assert (exists w k, media_of (z :: l) delta = w :: k) as (w & k & ->).
      { destruct delta; simpl; eauto. }
      reflexivity. }
  split.
  - intros H.
    apply obind_inv in H as (r_list & Hr & H).
    apply obind_inv in H as (t_list & Ht & H).
    apply obind_inv in H as (Ms & Hm & H).
    apply obind_inv in H as (M0 & H0 & H).
    destruct (KEY _ _ _ _ Hr Ht Hm H0) as [G F].
    change (last_step (fold_left mmul Ms M0) = Some (r, t)) in H. rewrite F in H.
    rewrite last_step_iff in H. tauto.
  - intros (G & T0 & -> & ->).
    destruct (good_mapM p x (y :: l) delta 0 G) as (r_list & t_list & Hr & Ht & FT).
    rewrite Hr, Ht. cbn [obind].
    pose proof Hr as Hr2. pose proof Ht as Ht2.
    apply pairs_inv in Hr2 as (r0 & rs & _ & _ & E1).
    apply pairs_inv in Ht2 as (t0 & ts & _ & _ & E2). subst.
    inversion FT as [|? ? T FT']; subst.
    destruct (ch_mapM delta rs ts FT') as [Ms Hm]. simpl tl. rewrite Hm. cbn [obind].
    simpl hd. assert (exists M0, init_mat r0 t0 = Some M0) as [M0 H0].
    { unfold init_mat. rewrite !cdiv_some by auto. cbn [obind]. eauto. }
    rewrite H0. cbn [obind].
    destruct (KEY (r0 :: rs) (t0 :: ts) Ms M0) as [_ F]; auto.
    change (last_step (fold_left mmul Ms M0) =
      Some (m10 (tm p front rest) / m00 (tm p front rest), 1 / m00 (tm p front rest))).
    rewrite F, last_step_iff. auto.
Qed.
