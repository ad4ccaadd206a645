(** * Proofs: the objective as a sum over the points *)

Require Import Reals List Bool ZArith String Lra Lia Sorting.Permutation FunctionalExtensionality.
From Coquelicot Require Import Complex.
From Verif Require Import Base M_tmm P_tmm M_disp P_disp M_struct M_model P_struct P_model M_data Spec_data P_data
  M_objective Spec_objective P_objective P_objective2 Spec_sumup.
Import ListNotations.
Open Scope list_scope.
Open Scope R_scope.

Lemma F2_length' {A B} (P : A -> B -> Prop) a b : Forall2 P a b -> List.length a = List.length b.
Proof. intros F. induction F; cbn; congruence. Qed.

(** ** nan-aware sums *)
Lemma nsum_app a b : nsum (a ++ b) = plus (nsum a) (nsum b).
Proof.
  induction a as [|x a IH]; cbn [app].
  - cbn. destruct (nsum b); cbn; [f_equal; lra|reflexivity].
  - change (nsum (x :: a ++ b)) with (olift2 Rplus x (nsum (a ++ b))). change (nsum (x :: a)) with (olift2 Rplus x (nsum a)). rewrite IH.
    destruct x, (nsum a), (nsum b); cbn; try reflexivity. f_equal. lra.
Qed.
Lemma nsum_perm a b : Permutation a b -> nsum a = nsum b.
Proof.
  intros H. induction H as [|x a b H IH|x y a|a b c H1 IH1 H2 IH2]; [reflexivity| | |congruence].
  - change (olift2 Rplus x (nsum a) = olift2 Rplus x (nsum b)). rewrite IH. reflexivity.
  - change (olift2 Rplus y (olift2 Rplus x (nsum a)) = olift2 Rplus x (olift2 Rplus y (nsum a))).
    destruct x, y, (nsum a); cbn; try reflexivity. f_equal. lra.
Qed.
Lemma nsum_zip {A} (f g : A -> num) l : nsum (map f l ++ map g l) = nsum (map (fun x => plus (f x) (g x)) l).
Proof.
  induction l as [|x l IH]; [reflexivity|]. rewrite nsum_app in *. cbn [map].
  change (nsum (f x :: map f l)) with (olift2 Rplus (f x) (nsum (map f l))).
  change (nsum (g x :: map g l)) with (olift2 Rplus (g x) (nsum (map g l))).
  change (plus (olift2 Rplus (f x) (nsum (map f l))) (olift2 Rplus (g x) (nsum (map g l))) =
    olift2 Rplus (plus (f x) (g x)) (nsum (map (fun x0 => plus (f x0) (g x0)) l))). rewrite <- IH.
  destruct (f x), (g x), (nsum (map f l)), (nsum (map g l)); cbn; try reflexivity. f_equal. lra.
Qed.
Lemma all_some_nsum l : match all_some l with Some xs => Some (Rsum xs) | None => None end = nsum l.
Proof.
  induction l as [|x l IH]; [reflexivity|]. change (nsum (x :: l)) with (olift2 Rplus x (nsum l)). rewrite <- IH.
  unfold all_some. cbn [mapM]. destruct x as [x|]; [|reflexivity]. fold (all_some l). cbn [obind].
  change (mapM (fun x0 : num => x0) l) with (all_some l). destruct (all_some l); reflexivity.
Qed.

(** ** the points *)
Definition at_point (sy : system) (st : state) (m : nat) (x : R * R) (pd : num * num) : Prop :=
  fst (call_model sy m [x] st) = Ok ([fst pd], [snd pd]).
Lemma model_points sy m X st psi delta : fst (call_model sy m X st) = Ok (psi, delta) ->
  exists pds, Forall2 (at_point sy st m) X pds /\ psi = map fst pds /\ delta = map snd pds.
Proof.
  unfold call_model. destruct (model _ _ _ _ _ X) as [r s] eqn:E. cbn [fst]. intros ->.
  destruct (batch_pointwise _ _ _ _ _ _ _ _ E) as (F & L1 & L2). exists (combine psi delta).
  assert (K : forall (a b : list num), List.length a = List.length b -> a = map fst (combine a b) /\ b = map snd (combine a b)).
  { induction a as [|x a IH]; intros [|y b] L; try discriminate; [auto|]. cbn [combine map fst snd].
    destruct (IH b) as (I1 & I2); [cbn in L; lia|]. split; f_equal; assumption. }
  split; [|exact (K psi delta (eq_trans L1 (eq_sym L2)))].
  eapply F2_impl; [|exact F]. intros x pd H. unfold at_point, call_model. cbn beta in H.
  destruct (model _ _ _ _ _ [x]) as [r0 s0]. cbn [fst] in *. exact H.
Qed.
Lemma points_model sy m X st pds : Forall2 (at_point sy st m) X pds -> fst (call_model sy m X st) = Ok (map fst pds, map snd pds).
Proof.
  intros F. unfold call_model.
  assert (E : fst (model (sy_ext sy) DFloat (current sy st m) (value sy st (mo_offset (the_model sy m))) (nth m (st_flips st) false) X) = Ok (map fst pds, map snd pds)).
  { apply batch_from_points. eapply F2_impl; [|exact F]. intros x pd H. unfold at_point, call_model in H.
    destruct (model _ _ _ _ _ [x]) as [r0 s0]. cbn [fst] in *. exact H. }
  destruct (model _ _ _ _ _ X) as [r s]. cbn [fst] in *. exact E.
Qed.
Lemma at_point_unique sy st m x pd pd' : at_point sy st m x pd -> at_point sy st m x pd' -> pd = pd'.
Proof.
  unfold at_point. intros A B. rewrite A in B. destruct pd, pd'. cbn [fst snd] in *. congruence.
Qed.

Definition r_psi (x : point) (pd : num * num) : num := olift2 Rminus (fst pd) (p_psi x).
Definition r_delta (x : point) (pd : num * num) : num := olift2 (fun a b => circular_distance a b 360) (snd pd) (p_delta x).
Definition square (r : num) : num := omap (fun x => x * x) r.
Definition c_term (xp : point * (num * num)) : num := plus (square (r_psi (fst xp) (snd xp))) (square (r_delta (fst xp) (snd xp))).
Definition var_of (sy : system) (st : state) (o : objective) (m : num) : num :=
  match ob_lnsigma o with Some p => omap (fun m => 1 * 1 + exp (2 * value sy st p) * m * m) m | None => Some 1 end.
Definition l_term (sy : system) (st : state) (o : objective) (xp : point * (num * num)) : num :=
  plus (logl_term (weighted o) (var_of sy st o (fst (snd xp))) (r_psi (fst xp) (snd xp)))
       (logl_term (weighted o) (var_of sy st o (snd (snd xp))) (r_delta (fst xp) (snd xp))).

Lemma map2_points {B} (f : num -> num -> B) (g : num * num -> num) (h : point -> num) (pds : list (num * num)) : forall sel,
  map2 f (map g pds) (map h sel) = map (fun xp => f (g (snd xp)) (h (fst xp))) (combine sel pds).
Proof.
  induction pds as [|pd pds IH]; intros [|x sel]; try reflexivity. cbn [map map2 combine fst snd]. rewrite IH. reflexivity.
Qed.
Lemma residuals_points sy o v st st1 sel X pds : has_data sy o sel X -> setp sy o v st = (Ok tt, st1) ->
  Forall2 (at_point sy st1 (ob_model o)) X pds ->
  exists st', residuals sy o v st = (Ok (map (fun xp => r_psi (fst xp) (snd xp)) (combine sel pds) ++
                                         map (fun xp => r_delta (fst xp) (snd xp)) (combine sel pds)), st') /\
    evaluate sy o st1 = (Ok (map fst pds, map snd pds, map p_psi sel, map p_delta sel), st').
Proof.
  intros D S F. pose proof (points_model _ _ _ _ _ F) as M.
  destruct (call_model sy (ob_model o) X st1) as [r st'] eqn:E. cbn [fst] in M. subst r. exists st'.
  assert (EV : evaluate sy o st1 = (Ok (map fst pds, map snd pds, map p_psi sel, map p_delta sel), st')).
  { rewrite (evaluate_data _ _ _ _ _ D), E. reflexivity. }
  split; [|exact EV]. unfold residuals, bind. rewrite S, EV. unfold lift, zip_columns.
  assert (L : List.length sel = List.length pds).
  { destruct D as (pts & m & _ & _ & _ & F2). apply F2_length' in F2. apply F2_length' in F. congruence. }
  rewrite !map_length, L, Nat.eqb_refl. unfold ret. rewrite !map2_points. reflexivity.
Qed.
Lemma chisqr_points sy o v st st1 sel X pds : has_data sy o sel X -> setp sy o v st = (Ok tt, st1) ->
  Forall2 (at_point sy st1 (ob_model o)) X pds -> fst (chisqr sy o v st) = Ok (nsum (map c_term (combine sel pds))).
Proof.
  intros D S F. destruct (residuals_points _ _ _ _ _ _ _ _ D S F) as (st' & E & _).
  rewrite chisqr_after. unfold bind. rewrite E. unfold ret. cbn [fst]. f_equal.
  rewrite map_app, !map_map. apply nsum_zip with (f := fun xp => square (r_psi (fst xp) (snd xp))) (g := fun xp => square (r_delta (fst xp) (snd xp))).
Qed.
Lemma map2_self {A} (f : num -> num -> num) (g h : A -> num) l : map2 f (map g l) (map h l) = map (fun x => f (g x) (h x)) l.
Proof. induction l as [|x l IH]; [reflexivity|]. cbn [map map2]. rewrite IH. reflexivity. Qed.
Lemma map2_app (f : num -> num -> num) a : forall b c d, List.length a = List.length c -> map2 f (a ++ b) (c ++ d) = map2 f a c ++ map2 f b d.
Proof.
  induction a as [|x a IH]; intros b [|y c] d L; try discriminate; [reflexivity|].
  cbn [app map2]. rewrite IH by (cbn in L; lia). reflexivity.
Qed.
Lemma logl_points sy o v st st1 sel X pds : has_data sy o sel X -> setp sy o v st = (Ok tt, st1) ->
  Forall2 (at_point sy st1 (ob_model o)) X pds ->
  fst (logl sy o v st) = match nsum (map (l_term sy st1 o) (combine sel pds)) with
                         | Some s => Ok (- (1 / 2) * s) | None => Raise RuntimeError end.
Proof.
  intros D S F. destruct (residuals_points _ _ _ _ _ _ _ _ D S F) as (st' & E & EV).
  rewrite (logl_eval _ _ _ _ _ _ _ _ _ _ _ E S EV).
  assert (L : List.length sel = List.length pds).
  { destruct D as (pts & m & _ & _ & _ & F2). apply F2_length' in F2. apply F2_length' in F. congruence. }
  assert (C : forall (g : num * num -> num), map g pds = map (fun xp : point * (num * num) => g (snd xp)) (combine sel pds)).
  { intros g. clear - L. revert pds L. induction sel as [|x sel IH]; intros [|pd pds] L; try discriminate; [reflexivity|].
    cbn [map combine snd]. f_equal. apply IH. cbn in L. lia. }
  assert (V : variances sy st1 o (map fst pds) (map snd pds) =
    map (fun xp => var_of sy st1 o (fst (snd xp))) (combine sel pds) ++ map (fun xp => var_of sy st1 o (snd (snd xp))) (combine sel pds)).
  { rewrite (C fst), (C snd). unfold variances, var_of. destruct (ob_lnsigma o); rewrite map_app, !map_map; reflexivity. }
  rewrite V, map2_app by (rewrite !map_length; reflexivity).
  rewrite !map2_self.
  set (l := map _ (combine sel pds) ++ _).
  assert (N : nsum l = nsum (map (l_term sy st1 o) (combine sel pds))) by (unfold l; apply nsum_zip).
  rewrite <- N, <- all_some_nsum. destruct (all_some l); reflexivity.
Qed.

Lemma chisqr_inv sy o v st sel X c : has_data sy o sel X -> fst (chisqr sy o v st) = Ok c ->
  exists st1 pds, setp sy o v st = (Ok tt, st1) /\ Forall2 (at_point sy st1 (ob_model o)) X pds.
Proof.
  intros D H. rewrite chisqr_after in H. unfold bind in H. destruct (residuals sy o v st) as [[r|e] s] eqn:ER; [|discriminate].
  destruct (residuals_inv _ _ _ _ _ _ ER) as (st1 & a & b & c1 & d & Q1 & Q2 & _). rewrite (evaluate_data _ _ _ _ _ D) in Q2.
  destruct (call_model sy (ob_model o) X st1) as [[[psi delta]|e] s'] eqn:E; [|discriminate].
  destruct (model_points sy (ob_model o) X st1 psi delta) as (pds & F & _); [rewrite E; reflexivity|]. exists st1, pds. auto.
Qed.
Lemma logl_inv sy o v st sel X c : has_data sy o sel X -> fst (logl sy o v st) = Ok c ->
  exists st1 pds, setp sy o v st = (Ok tt, st1) /\ Forall2 (at_point sy st1 (ob_model o)) X pds.
Proof.
  intros D H. unfold logl, bind in H. destruct (setp sy o v st) as [[[]|e] st1] eqn:ES; [|discriminate].
  rewrite (evaluate_data _ _ _ _ _ D) in H.
  destruct (call_model sy (ob_model o) X st1) as [[[psi delta]|e] s'] eqn:E; [|discriminate].
  destruct (model_points sy (ob_model o) X st1 psi delta) as (pds & F & _); [rewrite E; reflexivity|]. exists st1, pds. auto.
Qed.

(** ** objectives that are alike *)
Lemma alike_parameters sy o o' : alike o o' -> parameters sy o = parameters sy o' /\ varying_parameters sy o = varying_parameters sy o'.
Proof.
  intros (M & L & _). assert (E : parameters sy o = parameters sy o') by (unfold parameters; rewrite M, L; reflexivity).
  split; [exact E|]. unfold varying_parameters. rewrite E. reflexivity.
Qed.
Lemma alike_setp sy o o' v st : alike o o' -> setp sy o v st = setp sy o' v st.
Proof. intros A. destruct (alike_parameters sy o o' A) as (E1 & E2). unfold setp. rewrite E1, E2. reflexivity. Qed.
Lemma alike_logp sy o o' v st : alike o o' -> logp sy o v st = logp sy o' v st.
Proof.
  intros A. destruct (alike_parameters sy o o' A) as (E1 & E2). unfold logp, bind. rewrite (alike_setp sy o o' v st A), E2. reflexivity.
Qed.
Lemma alike_term sy st o o' : alike o o' -> l_term sy st o = l_term sy st o'.
Proof.
  intros (M & L & U & W). apply functional_extensionality. intros xp. unfold l_term, var_of, weighted. rewrite L, U, W. reflexivity.
Qed.
Lemma alike_sym o o' : alike o o' -> alike o' o.
Proof. intros (A & B & D & E). repeat split; congruence. Qed.

(** the mask acts as deletion *)
Theorem same_points sy o o' v st sel X : alike o o' -> has_data sy o sel X -> has_data sy o' sel X ->
  residuals sy o v st = residuals sy o' v st /\ chisqr sy o v st = chisqr sy o' v st /\
  logl sy o v st = logl sy o' v st /\ logp sy o v st = logp sy o' v st /\ logpost sy o v st = logpost sy o' v st.
Proof.
  intros A D D'. pose proof A as (M & L & U & W).
  assert (EV : evaluate sy o = evaluate sy o').
  { apply functional_extensionality. intros s. rewrite (evaluate_data _ _ _ _ _ D), (evaluate_data _ _ _ _ _ D'), M. reflexivity. }
  assert (Rs : forall u, residuals sy o u = residuals sy o' u).
  { intros u. apply functional_extensionality. intros s. unfold residuals, bind. rewrite (alike_setp sy o o' u s A), EV. reflexivity. }
  assert (Vr : forall s p d, variances sy s o p d = variances sy s o' p d) by (intros; unfold variances; rewrite L; reflexivity).
  assert (We : weighted o = weighted o') by (unfold weighted; rewrite U, W; reflexivity).
  assert (Ll : forall u s, logl sy o u s = logl sy o' u s).
  { intros u s. unfold logl, bind. rewrite (alike_setp sy o o' u s A), EV. destruct (setp sy o' u s) as [[[]|e] s1]; [|reflexivity].
    destruct (evaluate sy o' s1) as [[[[[p d] a] b]|e] s2]; [|reflexivity]. rewrite Rs, Vr, We. reflexivity. }
  repeat match goal with |- _ /\ _ => split end.
  - rewrite Rs. reflexivity.
  - rewrite !chisqr_after. unfold bind. rewrite Rs. reflexivity.
  - apply Ll.
  - apply alike_logp, A.
  - unfold logpost, bind. rewrite (alike_setp sy o o' v st A). destruct (setp sy o' v st) as [[[]|e] s1]; [|reflexivity].
    rewrite (alike_logp sy o o' None s1 A). destruct (logp sy o' None s1) as [[[x|]|e] s2]; try reflexivity. rewrite Ll. reflexivity.
Qed.

(** ** order *)
Lemma perm_points (P : R * R -> num * num -> Prop) sel X pds sel' X' :
  Forall2 measured sel X -> Forall2 measured sel' X' -> Forall2 P X pds -> Permutation sel sel' ->
  exists pds', Forall2 P X' pds' /\ Permutation (combine sel pds) (combine sel' pds').
Proof.
  intros M M' F H. revert X pds X' M M' F. induction H as [|x sel sel' H IH|x y sel|s1 s2 s3 H1 IH1 H2 IH2]; intros X pds X' M M' F.
  - inversion M; subst. inversion F; subst. inversion M'; subst. exists []. split; constructor.
  - inversion M as [|? wa ? X1 [A1 A2] M1]; subst. inversion F as [|? pd ? pds1 P1 F1]; subst. inversion M' as [|? wa' ? X1' [B1 B2] M1']; subst.
    assert (wa' = wa) by (destruct wa, wa'; cbn in *; congruence). subst wa'.
    destruct (IH X1 pds1 X1' M1 M1' F1) as (pds' & F' & Pm). exists (pd :: pds'). split; [constructor; auto|].
    cbn [combine]. constructor. exact Pm.
  - inversion M as [|? wa ? X1 [A1 A2] M1]; subst. inversion M1 as [|? wb ? X2 [A3 A4] M2]; subst.
    inversion F as [|? pd ? pds1 P1 F1]; subst. inversion F1 as [|? pe ? pds2 P2 F2]; subst.
    inversion M' as [|? wa' ? X1' [B1 B2] M1']; subst. inversion M1' as [|? wb' ? X2' [B3 B4] M2']; subst.
    assert (wa' = wb) by (destruct wa', wb; cbn in *; congruence). assert (wb' = wa) by (destruct wb', wa; cbn in *; congruence). subst.
    assert (X2' = X2).
    { clear - M2 M2'. revert X2 M2. induction M2' as [|z w' s X' [C1 C2] M' IH]; intros X2 M2; inversion M2 as [|? w ? X0 [D1 D2] M0]; subst; [reflexivity|].
      f_equal; [destruct w, w'; cbn in *; congruence|apply IH; exact M0]. }
    subst X2'. exists (pe :: pd :: pds2). split; [repeat constructor; auto|]. cbn [combine]. constructor.
  - assert (exists X2, Forall2 measured s2 X2) as (X2 & M2).
    { clear - H1 M. revert X M. induction H1 as [|x a b H IH|x y a|a b c H1 IH1 H2 IH2]; intros X M.
      - eauto.
      - inversion M; subst. destruct (IH _ H4) as (X' & M'). exists (y :: X'). constructor; auto.
      - inversion M as [|? w1 ? X1 m1 M1]; subst. inversion M1 as [|? w2 ? X2 m2 M2]; subst. exists (w2 :: w1 :: X2). repeat constructor; auto; apply m1 || apply m2.
      - destruct (IH1 _ M) as (X' & M'). eauto. }
    destruct (IH1 X pds X2 M M2 F) as (p2 & F2 & Q1). destruct (IH2 X2 p2 X' M2 M' F2) as (p3 & F3 & Q2).
    exists p3. split; [exact F3|]. eapply Permutation_trans; eauto.
Qed.
Theorem order_irrelevant sy o o' v st sel X sel' X' : alike o o' -> has_data sy o sel X -> has_data sy o' sel' X' -> Permutation sel sel' ->
  same_value (fst (chisqr sy o v st)) (fst (chisqr sy o' v st)) /\
  same_value (fst (logl sy o v st)) (fst (logl sy o' v st)) /\
  same_value (fst (logpost sy o v st)) (fst (logpost sy o' v st)).
Proof.
  assert (C : forall o o' sel X sel' X' c, alike o o' -> has_data sy o sel X -> has_data sy o' sel' X' -> Permutation sel sel' ->
    fst (chisqr sy o v st) = Ok c -> fst (chisqr sy o' v st) = Ok c).
  { intros p p' s Y s' Y' c A D D' P H. destruct (chisqr_inv _ _ _ _ _ _ _ D H) as (st1 & pds & S & F).
    rewrite (chisqr_points _ _ _ _ _ _ _ _ D S F) in H. pose proof A as (Mo & _).
    pose proof D as (? & ? & _ & _ & _ & M1). pose proof D' as (? & ? & _ & _ & _ & M2). rewrite Mo in F.
    destruct (perm_points _ _ _ _ _ _ M1 M2 F P) as (pds' & F' & Q).
    rewrite (alike_setp sy p p' v st A) in S.
    rewrite (chisqr_points _ _ _ _ _ _ _ _ D' S F'), <- H. f_equal. apply nsum_perm, Permutation_map, Permutation_sym, Q. }
  assert (L : forall o o' sel X sel' X' c, alike o o' -> has_data sy o sel X -> has_data sy o' sel' X' -> Permutation sel sel' ->
    fst (logl sy o v st) = Ok c -> fst (logl sy o' v st) = Ok c).
  { intros p p' s Y s' Y' c A D D' P H. destruct (logl_inv _ _ _ _ _ _ _ D H) as (st1 & pds & S & F).
    rewrite (logl_points _ _ _ _ _ _ _ _ D S F) in H. pose proof A as (Mo & _).
    pose proof D as (? & ? & _ & _ & _ & M1). pose proof D' as (? & ? & _ & _ & _ & M2). rewrite Mo in F.
    destruct (perm_points _ _ _ _ _ _ M1 M2 F P) as (pds' & F' & Q).
    rewrite (alike_setp sy p p' v st A) in S.
    rewrite (logl_points _ _ _ _ _ _ _ _ D' S F'), <- H, <- (alike_term sy st1 p p' A).
    rewrite (nsum_perm _ _ (Permutation_map (l_term sy st1 p) Q)). reflexivity. }
  assert (Po : forall o o' sel X sel' X' c, alike o o' -> has_data sy o sel X -> has_data sy o' sel' X' -> Permutation sel sel' ->
    fst (logpost sy o v st) = Ok c -> fst (logpost sy o' v st) = Ok c).
  { intros p p' s Y s' Y' c A D D' P H.
    destruct (logpost_spec sy p v st) as (K1 & K2 & K3 & K4). destruct (logpost_spec sy p' v st) as (J1 & J2 & J3 & J4).
    rewrite <- (alike_logp sy p p' v st A) in J1, J2, J3, J4.
    destruct (fst (logp sy p v st)) as [[a|]|e].
    - destruct (fst (logl sy p v st)) as [b|e] eqn:El.
      + rewrite (K1 a b eq_refl eq_refl) in H. rewrite <- H. apply J1; [reflexivity|]. eapply L; eauto.
      + rewrite (K2 a e eq_refl eq_refl) in H. discriminate.
    - destruct (K3 eq_refl) as (K & _). destruct (J3 eq_refl) as (J & _). congruence.
    - rewrite (K4 e eq_refl) in H. discriminate. }
  intros A D D' P. pose proof (alike_sym _ _ A) as A'. pose proof (Permutation_sym P) as P'.
  split; [|split]; intros c; split; intros H; eauto.
Qed.

(** ** additivity *)
Lemma Forall2_split {A B} (P : A -> B -> Prop) a b l : Forall2 P (a ++ b) l -> exists l1 l2, l = l1 ++ l2 /\ Forall2 P a l1 /\ Forall2 P b l2.
Proof. intros F. apply Forall2_app_inv_l in F as (l1 & l2 & F1 & F2 & ->). eauto. Qed.
Lemma combine_app {A B} (a : list A) (c : list B) : forall b d, List.length a = List.length c -> combine (a ++ b) (c ++ d) = combine a c ++ combine b d.
Proof.
  revert c. induction a as [|x a IH]; intros [|y c] b d L; try discriminate; [reflexivity|]. cbn [app combine]. rewrite IH by (cbn in L; lia). reflexivity.
Qed.
Lemma measured_unique sel X X' : Forall2 measured sel X -> Forall2 measured sel X' -> X = X'.
Proof.
  intros M. revert X'. induction M as [|z w s X [C1 C2] M IH]; intros X' M'; inversion M' as [|? w' ? X0 [D1 D2] M0]; subst; [reflexivity|].
  f_equal; [destruct w, w'; cbn in *; congruence|apply IH; exact M0].
Qed.
Lemma parts_of sy o o1 o2 sel1 sel2 X X1 X2 : has_data sy o (sel1 ++ sel2) X -> has_data sy o1 sel1 X1 -> has_data sy o2 sel2 X2 ->
  X = X1 ++ X2 /\ List.length sel1 = List.length X1 /\ List.length sel2 = List.length X2.
Proof.
  intros (? & ? & _ & _ & _ & M) (? & ? & _ & _ & _ & M1) (? & ? & _ & _ & _ & M2).
  split; [|split; eapply F2_length'; eauto]. eapply measured_unique; [exact M|]. apply Forall2_app; assumption.
Qed.
Theorem additive_chisqr sy o o1 o2 v st sel1 sel2 X X1 X2 : alike o o1 -> alike o o2 ->
  has_data sy o (sel1 ++ sel2) X -> has_data sy o1 sel1 X1 -> has_data sy o2 sel2 X2 ->
  forall c, fst (chisqr sy o v st) = Ok c <->
    exists a b, fst (chisqr sy o1 v st) = Ok a /\ fst (chisqr sy o2 v st) = Ok b /\ c = plus a b.
Proof.
  intros A1 A2 D D1 D2 c. destruct (parts_of _ _ _ _ _ _ _ _ _ D D1 D2) as (-> & L1 & L2).
  pose proof A1 as (M1 & _). pose proof A2 as (M2 & _).
  assert (K : forall st1 p1 p2, setp sy o v st = (Ok tt, st1) -> Forall2 (at_point sy st1 (ob_model o)) X1 p1 -> Forall2 (at_point sy st1 (ob_model o)) X2 p2 ->
    fst (chisqr sy o v st) = Ok (plus (nsum (map c_term (combine sel1 p1))) (nsum (map c_term (combine sel2 p2)))) /\
    fst (chisqr sy o1 v st) = Ok (nsum (map c_term (combine sel1 p1))) /\ fst (chisqr sy o2 v st) = Ok (nsum (map c_term (combine sel2 p2)))).
  { intros st1 p1 p2 S F1 F2. split; [|split].
    - rewrite (chisqr_points _ _ _ _ _ _ _ _ D S (Forall2_app F1 F2)). f_equal.
      rewrite combine_app, map_app; [apply nsum_app|]. apply F2_length' in F1. congruence.
    - apply chisqr_points with st1 X1; auto; [rewrite <- (alike_setp sy o o1 v st A1); exact S|rewrite <- M1; exact F1].
    - apply chisqr_points with st1 X2; auto; [rewrite <- (alike_setp sy o o2 v st A2); exact S|rewrite <- M2; exact F2]. }
  split.
  - intros H. destruct (chisqr_inv _ _ _ _ _ _ _ D H) as (st1 & pds & S & F).
    destruct (Forall2_split _ _ _ _ F) as (p1 & p2 & -> & F1 & F2). destruct (K st1 p1 p2 S F1 F2) as (K0 & K1 & K2).
    do 2 eexists. split; [exact K1|]. split; [exact K2|]. congruence.
  - intros (a & b & H1 & H2 & ->). destruct (chisqr_inv _ _ _ _ _ _ _ D1 H1) as (st1 & p1 & S1 & F1).
    destruct (chisqr_inv _ _ _ _ _ _ _ D2 H2) as (st2 & p2 & S2 & F2).
    rewrite <- (alike_setp sy o o1 v st A1) in S1. rewrite <- (alike_setp sy o o2 v st A2) in S2.
    assert (st2 = st1) by congruence. subst st2. rewrite <- M1 in F1. rewrite <- M2 in F2.
    destruct (K st1 p1 p2 S1 F1 F2) as (K0 & K1 & K2). congruence.
Qed.
Theorem additive_logl sy o o1 o2 v st sel1 sel2 X X1 X2 : alike o o1 -> alike o o2 ->
  has_data sy o (sel1 ++ sel2) X -> has_data sy o1 sel1 X1 -> has_data sy o2 sel2 X2 ->
  forall c, fst (logl sy o v st) = Ok c <->
    exists a b, fst (logl sy o1 v st) = Ok a /\ fst (logl sy o2 v st) = Ok b /\ c = a + b.
Proof.
  intros A1 A2 D D1 D2 c. destruct (parts_of _ _ _ _ _ _ _ _ _ D D1 D2) as (-> & L1 & L2).
  pose proof A1 as (M1 & _). pose proof A2 as (M2 & _).
  assert (K : forall st1 p1 p2, setp sy o v st = (Ok tt, st1) -> Forall2 (at_point sy st1 (ob_model o)) X1 p1 -> Forall2 (at_point sy st1 (ob_model o)) X2 p2 ->
    let value n := match n with Some s => Ok (- (1 / 2) * s) | None => Raise RuntimeError end in
    let a := nsum (map (l_term sy st1 o) (combine sel1 p1)) in let b := nsum (map (l_term sy st1 o) (combine sel2 p2)) in
    fst (logl sy o v st) = value (plus a b) /\ fst (logl sy o1 v st) = value a /\ fst (logl sy o2 v st) = value b).
  { intros st1 p1 p2 S F1 F2. cbv zeta. split; [|split].
    - rewrite (logl_points _ _ _ _ _ _ _ _ D S (Forall2_app F1 F2)).
      rewrite combine_app, map_app, nsum_app; [reflexivity|]. apply F2_length' in F1. congruence.
    - rewrite (alike_term sy st1 o o1 A1). apply logl_points with X1; auto; [rewrite <- (alike_setp sy o o1 v st A1); exact S|rewrite <- M1; exact F1].
    - rewrite (alike_term sy st1 o o2 A2). apply logl_points with X2; auto; [rewrite <- (alike_setp sy o o2 v st A2); exact S|rewrite <- M2; exact F2]. }
  cbv zeta in K. split.
  - intros H. destruct (logl_inv _ _ _ _ _ _ _ D H) as (st1 & pds & S & F).
    destruct (Forall2_split _ _ _ _ F) as (p1 & p2 & -> & F1 & F2). destruct (K st1 p1 p2 S F1 F2) as (K0 & K1 & K2).
    destruct (nsum (map (l_term sy st1 o) (combine sel1 p1))) as [x|]; [|cbn in K0; congruence].
    destruct (nsum (map (l_term sy st1 o) (combine sel2 p2))) as [y|]; [|cbn in K0; congruence].
    do 2 eexists. split; [exact K1|]. split; [exact K2|]. cbn [plus] in K0. assert (E : Ok c = Ok (- (1 / 2) * (x + y))) by congruence.
    injection E as ->. lra.
  - intros (a & b & H1 & H2 & ->). destruct (logl_inv _ _ _ _ _ _ _ D1 H1) as (st1 & p1 & S1 & F1).
    destruct (logl_inv _ _ _ _ _ _ _ D2 H2) as (st2 & p2 & S2 & F2).
    rewrite <- (alike_setp sy o o1 v st A1) in S1. rewrite <- (alike_setp sy o o2 v st A2) in S2.
    assert (st2 = st1) by congruence. subst st2. rewrite <- M1 in F1. rewrite <- M2 in F2.
    destruct (K st1 p1 p2 S1 F1 F2) as (K0 & K1 & K2).
    destruct (nsum (map (l_term sy st1 o) (combine sel1 p1))) as [x|]; [|congruence].
    destruct (nsum (map (l_term sy st1 o) (combine sel2 p2))) as [y|]; [|congruence].
    rewrite K0. cbn [plus]. assert (E1 : Ok a = Ok (- (1 / 2) * x)) by congruence. assert (E2 : Ok b = Ok (- (1 / 2) * y)) by congruence.
    injection E1 as ->. injection E2 as ->. f_equal. lra.
Qed.

(** fewer points, smaller chi-squared *)
Theorem fewer_points sy o o1 v st sel sel1 X X1 c : alike o o1 -> has_data sy o sel X -> has_data sy o1 sel1 X1 ->
  (exists rest, Permutation sel (sel1 ++ rest)) -> fst (chisqr sy o v st) = Ok (Some c) ->
  exists c1, fst (chisqr sy o1 v st) = Ok (Some c1) /\ 0 <= c1 <= c.
Proof.
  intros A D D1 (rest & P) H. destruct (chisqr_inv _ _ _ _ _ _ _ D H) as (st1 & pds & S & F).
  rewrite (chisqr_points _ _ _ _ _ _ _ _ D S F) in H.
  assert (M : Forall2 measured sel X) by (destruct D as (? & ? & _ & _ & _ & M); exact M). assert (M1 : Forall2 measured sel1 X1) by (destruct D1 as (? & ? & _ & _ & _ & M1); exact M1).
  assert (exists X2, Forall2 measured rest X2) as (X2 & M2).
  { assert (G : forall x, In x (sel1 ++ rest) -> exists wa, measured x wa).
    { intros x Hx. apply (Permutation_in _ (Permutation_sym P)) in Hx. clear - M Hx. induction M as [|y w s X m M IH]; [contradiction|].
      destruct Hx as [->|Hx]; eauto. }
    assert (G2 : forall x, In x rest -> exists wa, measured x wa) by (intros; apply G, in_app_iff; auto). clear - G2.
    induction rest as [|x rest IH]; [exists []; constructor|]. destruct (G2 x (or_introl eq_refl)) as (wa & m).
    destruct IH as (X & M); [intros; apply G2; right; assumption|]. exists (wa :: X). constructor; auto. }
  destruct (perm_points _ _ _ _ _ _ M (Forall2_app M1 M2) F P) as (pds' & F' & Q).
  destruct (Forall2_split _ _ _ _ F') as (p1 & p2 & -> & F1 & F2).
  rewrite (nsum_perm _ _ (Permutation_map c_term Q)) in H.
  rewrite combine_app, map_app, nsum_app in H by (apply F2_length' in F1; apply F2_length' in M1; congruence).
  pose proof A as (Mo & _). rewrite (alike_setp sy o o1 v st A) in S. rewrite Mo in F1.
  rewrite (chisqr_points _ _ _ _ _ _ _ _ D1 S F1).
  assert (Pos : forall l x, nsum (map c_term l) = Some x -> 0 <= x).
  { clear. induction l as [|y l IH]; intros x H; [cbn in H; injection H as <-; lra|].
    cbn [map] in H. change (olift2 Rplus (c_term y) (nsum (map c_term l)) = Some x) in H.
    destruct (c_term y) as [a|] eqn:E; [|discriminate]. destruct (nsum (map c_term l)) as [b|]; [|discriminate].
    cbn in H. injection H as <-. specialize (IH b eq_refl).
    assert (0 <= a); [|lra]. unfold c_term, square in E. destruct (r_psi _ _) as [u|]; [|discriminate]. destruct (r_delta _ _) as [w|]; [|discriminate].
    cbn in E. injection E as <-. nra. }
  destruct (nsum (map c_term (combine sel1 p1))) as [a|] eqn:E1; [|discriminate].
  destruct (nsum (map c_term (combine rest p2))) as [b|] eqn:E2; [|discriminate].
  cbn in H. injection H as <-. exists a. split; [reflexivity|]. pose proof (Pos _ _ E1). pose proof (Pos _ _ E2). lra.
Qed.

(** log posterior of two sets of points: the prior counts once *)
Theorem additive_logpost sy o o1 o2 v st sel1 sel2 X X1 X2 p : alike o o1 -> alike o o2 ->
  has_data sy o (sel1 ++ sel2) X -> has_data sy o1 sel1 X1 -> has_data sy o2 sel2 X2 -> fst (logp sy o v st) = Ok (Some p) ->
  forall c, fst (logpost sy o v st) = Ok (Some c) <->
    exists a b, fst (logpost sy o1 v st) = Ok (Some a) /\ fst (logpost sy o2 v st) = Ok (Some b) /\ c = a + b - p.
Proof.
  intros A1 A2 D D1 D2 H c. pose proof (additive_logl sy o o1 o2 v st _ _ _ _ _ A1 A2 D D1 D2) as L.
  assert (K : forall q, alike o q -> forall d, fst (logpost sy q v st) = Ok (Some d) <-> fst (logl sy q v st) = Ok (d - p)).
  { intros q A d. destruct (logpost_spec sy q v st) as (K1 & K2 & K3 & K4).
    rewrite (alike_logp sy o q v st A) in H. destruct (fst (logl sy q v st)) as [b|e] eqn:E.
    - rewrite (K1 p b H eq_refl). split; intros G; inversion G; [f_equal; lra|do 2 f_equal; lra].
    - rewrite (K2 p e H eq_refl). split; discriminate. }
  rewrite (K o) by (repeat split). rewrite L. split.
  - intros (a & b & E1 & E2 & E). exists (p + a), (p + b). rewrite (K o1 A1), (K o2 A2), E1, E2.
    split; [f_equal; lra|]. split; [f_equal; lra|lra].
  - intros (a & b & E1 & E2 & E). apply (K o1 A1) in E1. apply (K o2 A2) in E2. do 2 eexists. split; [exact E1|]. split; [exact E2|]. lra.
Qed.
