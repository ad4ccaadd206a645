(** * Proofs about the plotting functions *)

Require Import Reals List Bool ZArith String Lra Lia Sorted FunctionalExtensionality.
From Coquelicot Require Import Complex.
From Verif Require Import Base M_tmm P_tmm M_disp P_disp M_struct M_model P_struct P_model M_data Spec_data P_data
  M_objective Spec_objective P_objective P_objective2 M_plot Spec_plot.
Import ListNotations.
Open Scope list_scope.
Open Scope R_scope.

Lemma F2_at {A B} (P : A -> B -> Prop) l m : Forall2 P l m ->
  forall i a b, nth_error l i = Some a -> nth_error m i = Some b -> P a b.
Proof.
  induction 1 as [|x y l m H F IH]; intros [|i] a b Ea Eb; try discriminate; cbn [nth_error] in *; [congruence|eauto].
Qed.

(** ** numpy *)
Lemma fold_min l : forall x, (fold_left Rmin l x = x \/ In (fold_left Rmin l x) l) /\
  fold_left Rmin l x <= x /\ forall y, In y l -> fold_left Rmin l x <= y.
Proof.
  induction l as [|a l IH]; intros x; cbn [fold_left In].
  - split; [auto|]. split; [lra|tauto].
  - destruct (IH (Rmin x a)) as (H1 & H2 & H3). pose proof (Rmin_l x a). pose proof (Rmin_r x a).
    split; [|split; [lra|intros y [<-|I]; [lra|auto]]].
    destruct H1 as [E|I]; [|auto]. rewrite E. unfold Rmin. destruct (Rle_dec x a); auto.
Qed.
Lemma fold_max l : forall x, (fold_left Rmax l x = x \/ In (fold_left Rmax l x) l) /\
  x <= fold_left Rmax l x /\ forall y, In y l -> y <= fold_left Rmax l x.
Proof.
  induction l as [|a l IH]; intros x; cbn [fold_left In].
  - split; [auto|]. split; [lra|tauto].
  - destruct (IH (Rmax x a)) as (H1 & H2 & H3). pose proof (Rmax_l x a). pose proof (Rmax_r x a).
    split; [|split; [lra|intros y [<-|I]; [lra|auto]]].
    destruct H1 as [E|I]; [|auto]. rewrite E. unfold Rmax. destruct (Rle_dec x a); auto.
Qed.
Lemma np_min_spec l a : np_min l = Ok a -> least l a.
Proof.
  destruct l as [|x l]; [discriminate|]. intros E. cbn [np_min] in E.
  assert (fold_left Rmin l x = a) by congruence. destruct (fold_min l x) as (H1 & H2 & H3). subst a.
  split; [simpl; destruct H1; auto|]. intros y [<-|I]; auto.
Qed.
Lemma np_max_spec l a : np_max l = Ok a -> greatest l a.
Proof.
  destruct l as [|x l]; [discriminate|]. intros E. cbn [np_max] in E.
  assert (fold_left Rmax l x = a) by congruence. destruct (fold_max l x) as (H1 & H2 & H3). subst a.
  split; [simpl; destruct H1; auto|]. intros y [<-|I]; auto.
Qed.

Lemma nth_linspace a b i x : nth_error (linspace50 a b) i = Some x -> (i < 50)%nat /\ x = a + INR i * ((b - a) / 49).
Proof.
  unfold linspace50. intros E. assert (L : (i < 50)%nat).
  { rewrite <- (seq_length 50 0), <- (map_length (fun i => a + INR i * ((b - a) / 49))). apply nth_error_Some. congruence. }
  split; auto. rewrite nth_error_map in E. rewrite (nth_error_nth' (seq 0 50) 0%nat) in E by (rewrite seq_length; auto).
  rewrite seq_nth in E by auto. cbn [option_map] in E. inversion E. reflexivity.
Qed.
Lemma linspace_nth a b i : (i < 50)%nat -> nth_error (linspace50 a b) i = Some (a + INR i * ((b - a) / 49)).
Proof.
  intros L. unfold linspace50. rewrite nth_error_map. rewrite (nth_error_nth' (seq 0 50) 0%nat) by (rewrite seq_length; auto).
  rewrite seq_nth by auto. reflexivity.
Qed.
Lemma linspace_evenly a b : evenly 50 a b (linspace50 a b).
Proof.
  split; [reflexivity|]. intros i x E. apply nth_linspace in E as [L ->].
  rewrite (minus_INR (50 - 1) i) by lia. replace (INR (50 - 1)) with 49 by (cbn; lra). field.
Qed.
Lemma linspace_in a b x : a <= b -> In x (linspace50 a b) -> a <= x <= b.
Proof.
  intros L I. apply In_nth_error in I as [i E]. apply nth_linspace in E as [Li ->].
  assert (0 <= INR i <= 49) by (split; [apply pos_INR|]; replace 49 with (INR 49) by (cbn; lra); apply le_INR; lia). nra.
Qed.

Lemma grid_ok l margin xs : grid l margin = Ok xs ->
  exists lo hi, least l lo /\ greatest l hi /\ xs = linspace50 (lo - margin) (hi + margin).
Proof.
  unfold grid, rbind, rmap. destruct (np_min l) as [a|] eqn:E1; [|discriminate].
  destruct (np_max l) as [b|] eqn:E2; [|discriminate]. intros E. exists a, b.
  split; [apply np_min_spec; auto|]. split; [apply np_max_spec; auto|congruence].
Qed.
Lemma grid_total l margin : l <> [] -> exists xs, grid l margin = Ok xs.
Proof. destruct l as [|x l]; [congruence|]. intros _. eexists. reflexivity. Qed.

(** ** reading the data *)
Lemma all_some_wav sel X : Forall2 measured sel X -> all_some (map p_wav sel) = Some (map fst X).
Proof.
  unfold all_some. induction 1 as [|x [w a] sel X [E1 E2] F IH]; auto.
  cbn [map mapM fst] in *. rewrite E1. cbn [obind]. rewrite IH. reflexivity.
Qed.
Lemma all_some_aoi sel X : Forall2 measured sel X -> all_some (map p_aoi sel) = Some (map snd X).
Proof.
  unfold all_some. induction 1 as [|x [w a] sel X [E1 E2] F IH]; auto.
  cbn [map mapM snd] in *. rewrite E2. cbn [obind]. rewrite IH. reflexivity.
Qed.
Lemma read_points sy d sel X : has_points sy d sel X ->
  wavelengths_of sy d = Ok (map fst X) /\ angles_of sy d = Ok (map snd X) /\
  forall x cs, List.length x = List.length X ->
    draw_data sy d x cs = Ok (Figure cs x (map p_psi sel) (map p_delta sel)).
Proof.
  intros (pts & m & H & Hm & K & F).
  destruct (getters _ _ _ _ _ H Hm K) as (G1 & G2 & G3 & G4 & _).
  unfold wavelengths_of, angles_of, draw_data. rewrite G1, G2, G3, G4. cbn [rbind real_column column].
  rewrite (all_some_wav sel X F), (all_some_aoi sel X F). split; auto. split; auto.
  intros x cs L. assert (List.length x = List.length sel) by (rewrite L; symmetry; eapply F2_length; eauto).
  unfold scatter. rewrite !map_length, H0, Nat.eqb_refl. reflexivity.
Qed.

(** ** the curves *)
Lemma call_model_same sy m X st st' : st_store st = st_store st' -> st_flips st = st_flips st' ->
  fst (call_model sy m X st) = fst (call_model sy m X st').
Proof.
  intros E F. pose (o := Objective m (DataSE 0 0 0 0 MNone false false None tab)%nat None false None).
  apply (respects_model sy o X st st'). apply same_store; auto.
Qed.
Lemma call_model_keeps sy m X st : st_store (snd (call_model sy m X st)) = st_store st /\
  st_flips (snd (call_model sy m X st)) = st_flips st.
Proof. unfold call_model. destruct (model _ _ _ _ _ _) as [r s]. split; reflexivity. Qed.

Lemma call_model_points sy m X st psi delta : fst (call_model sy m X st) = Ok (psi, delta) ->
  List.length psi = List.length X /\ List.length delta = List.length X /\
  forall i x p d, nth_error X i = Some x -> nth_error psi i = Some p -> nth_error delta i = Some d ->
    predicts sy st m [x] [p] [d].
Proof.
  unfold predicts, call_model. destruct (model _ _ _ _ _ X) as [r s] eqn:E. cbn [fst]. intros ->.
  destruct (batch_pointwise _ _ _ _ _ _ _ _ E) as (F & L1 & L2). split; auto. split; auto.
  intros i x p d Ex Ep Ed.
  assert (Epd : nth_error (combine psi delta) i = Some (p, d)).
  { clear -Ep Ed. revert delta i Ep Ed. induction psi as [|a psi IH]; intros [|b delta] [|i] Ep Ed; try discriminate; cbn in *;
      [congruence|auto]. }
  assert (G : fst (model (sy_ext sy) DFloat (current sy st m) (value sy st (mo_offset (the_model sy m))) (nth m (st_flips st) false) [x]) = Ok ([p], [d])).
  { exact (F2_at _ _ _ F i x (p, d) Ex Epd). }
  destruct (model _ _ _ _ _ [x]) as [r1 s1]. exact G.
Qed.
Lemma call_model_from_points sy m X st : (forall x, In x X -> exists p d, predicts sy st m [x] [p] [d]) ->
  exists psi delta, fst (call_model sy m X st) = Ok (psi, delta).
Proof.
  unfold predicts, call_model. intros H.
  assert (exists pds, Forall2 (fun x pd => fst (model (sy_ext sy) DFloat (current sy st m) (value sy st (mo_offset (the_model sy m)))
      (nth m (st_flips st) false) [x]) = Ok ([fst pd], [snd pd])) X pds) as [pds F].
  { induction X as [|x X IH]; [exists []; constructor|].
    destruct IH as [pds F]; [intros; apply H; simpl; auto|].
    destruct (H x (or_introl eq_refl)) as (p & d & E). exists ((p, d) :: pds). constructor; auto.
    destruct (model _ _ _ _ _ [x]) as [r1 s1]. exact E. }
  apply batch_from_points in F. destruct (model _ _ _ _ _ X) as [r s]. cbn [fst] in *. eauto.
Qed.

Definition pt (b : bool) (v x : R) : R * R := if b then at_wavelength v x else at_angle v x.
Lemma pt_place b v x : pt b v x = place b x v. Proof. destruct b; reflexivity. Qed.

Lemma draw_curves_ok sy m xs b vs : forall st cs st', draw_curves sy m xs (pt b) vs st = (Ok cs, st') ->
  Forall2 (fun v c => cv_x c = xs /\ shows sy st m b v c) vs cs /\
  st_store st' = st_store st /\ st_flips st' = st_flips st.
Proof.
  induction vs as [|v vs IH]; intros st cs st' E; cbn [draw_curves] in E.
  - inversion E. split; [constructor|auto].
  - unfold bind in E. destruct (call_model sy m (map (pt b v) xs) st) as [[[psi delta]|e] s1] eqn:E1; [|discriminate].
    destruct (draw_curves sy m xs (pt b) vs s1) as [[cs1|e] s2] eqn:E2; [|discriminate].
    inversion E. subst cs s2. clear E.
    destruct (call_model_keeps sy m (map (pt b v) xs) st) as [K1 K2]. rewrite E1 in K1, K2. cbn [snd] in K1, K2.
    destruct (IH s1 cs1 st' E2) as (F & S1 & S2). split; [|split; congruence]. constructor.
    + split; [reflexivity|]. assert (P : fst (call_model sy m (map (pt b v) xs) st) = Ok (psi, delta)) by (rewrite E1; reflexivity).
      destruct (call_model_points _ _ _ _ _ _ P) as (L1 & L2 & H). rewrite map_length in L1, L2.
      split; [exact L1|]. split; [exact L2|]. cbn [cv_x cv_psi cv_delta]. intros i x p d Ex Ep Ed.
      rewrite <- pt_place. apply (H i); auto. rewrite nth_error_map, Ex. reflexivity.
    + clear -F K1 K2. induction F as [|v' c vs cs [Hx (L1 & L2 & H)] F IH]; constructor; auto.
      split; auto. split; auto. split; auto. intros i x p d Ex Ep Ed. specialize (H i x p d Ex Ep Ed).
      unfold predicts in *. rewrite <- H. apply call_model_same; congruence.
Qed.
Lemma draw_curves_keeps sy m xs f vs : forall st, st_store (snd (draw_curves sy m xs f vs st)) = st_store st /\
  st_flips (snd (draw_curves sy m xs f vs st)) = st_flips st.
Proof.
  induction vs as [|v vs IH]; intros st; cbn [draw_curves]; [auto|]. unfold bind, ret.
  pose proof (call_model_keeps sy m (map (f v) xs) st) as [K1 K2].
  destruct (call_model sy m (map (f v) xs) st) as [[[psi delta]|e] s1]; cbn [snd] in *; auto.
  destruct (IH s1) as [I1 I2]. destruct (draw_curves sy m xs f vs s1) as [[cs1|e] s2]; cbn [snd] in *; split; congruence.
Qed.
Lemma draw_curves_total sy m xs b vs : forall st,
  (forall v x, In v vs -> In x xs -> exists p d, predicts sy st m [place b x v] [p] [d]) ->
  exists cs st', draw_curves sy m xs (pt b) vs st = (Ok cs, st').
Proof.
  induction vs as [|v vs IH]; intros st H; cbn [draw_curves]; [do 2 eexists; reflexivity|].
  destruct (call_model_from_points sy m (map (pt b v) xs) st) as (psi & delta & E).
  { intros y I. apply in_map_iff in I as (x & <- & I). rewrite pt_place. apply H; simpl; auto. }
  unfold bind. pose proof (call_model_keeps sy m (map (pt b v) xs) st) as [K1 K2].
  destruct (call_model sy m (map (pt b v) xs) st) as [r s1]. cbn [fst snd] in *. subst r.
  destruct (IH s1) as (cs & s2 & E2).
  { intros v' x Iv Ix. destruct (H v' x (or_intror Iv) Ix) as (p & d & P). exists p, d. unfold predicts in *.
    rewrite <- P. apply call_model_same; congruence. }
  rewrite E2. do 2 eexists. reflexivity.
Qed.

(** ** ObjectiveSE.plot *)
Definition the_axis (xaxis : option string) (X : list (R * R)) : string :=
  match xaxis with
  | Some a => a
  | None => if (1 <? List.length (np_unique (map snd X)))%nat then "aoi"%string else "wavelength"%string
  end.
Definition plot_by (sy : system) (o : objective) (X : list (R * R)) (b : bool) : call figure :=
  bind (lift (grid (map (abscissa b) X) 0)) (fun xs =>
  bind (draw_curves sy (ob_model o) xs (pt b) (np_unique (map (other b) X))) (fun cs =>
  lift (draw_data sy (ob_data o) (map (abscissa b) X) cs))).
Lemma plot_reads sy o xaxis sel X st : has_points sy (ob_data o) sel X ->
  plot_objective sy o xaxis st =
  if String.eqb (the_axis xaxis X) "aoi" then plot_by sy o X true st
  else if String.eqb (the_axis xaxis X) "wavelength" then plot_by sy o X false st
  else (Raise OtherError, st).
Proof.
  intros H. destruct (read_points _ _ _ _ H) as (W & A & _). unfold plot_objective.
  unfold bind at 1, lift at 1. rewrite W. unfold bind at 1, lift at 1. rewrite A.
  fold (the_axis xaxis X). destruct (String.eqb (the_axis xaxis X) "aoi"); [reflexivity|].
  destruct (String.eqb (the_axis xaxis X) "wavelength"); reflexivity.
Qed.

Lemma unique_two l : (1 <? List.length (np_unique l))%nat = true <-> exists x y, In x l /\ In y l /\ x <> y.
Proof.
  rewrite Nat.ltb_lt. pose proof (np_unique_sorted l) as S. apply sorted_NoDup in S. split.
  - intros L. destruct (np_unique l) as [|x [|y u]] eqn:E; cbn in L; try lia.
    exists x, y. split; [apply (np_unique_In x l); rewrite E; simpl; auto|].
    split; [apply (np_unique_In y l); rewrite E; simpl; auto|].
    inversion S as [|a u' N _]. intros ->. apply N. simpl; auto.
  - intros (x & y & I & J & N). rewrite <- np_unique_In in I, J.
    destruct (np_unique l) as [|a [|c u]]; cbn in *; try tauto; [|lia].
    exfalso. apply N. destruct I as [<-|[]], J as [<-|[]]. reflexivity.
Qed.

Lemma the_axis_rule xaxis X b : the_axis xaxis X = axis_name b <-> axis_rule xaxis X b.
Proof.
  destruct xaxis as [a|]; cbn [the_axis axis_rule]; [tauto|].
  assert (U : (1 <? List.length (np_unique (map snd X)))%nat = true <-> exists x y, In x X /\ In y X /\ snd x <> snd y).
  { rewrite unique_two. split.
    - intros (u & v & I & J & N). apply in_map_iff in I as (x & <- & I). apply in_map_iff in J as (y & <- & J). eauto.
    - intros (x & y & I & J & N). exists (snd x), (snd y). split; [apply in_map; auto|]. split; [apply in_map; auto|auto]. }
  rewrite <- U. destruct (1 <? List.length (np_unique (map snd X)))%nat, b; cbn [axis_name];
    split; intros; try discriminate; try tauto; try reflexivity.
  - destruct H as [H1 H2]. specialize (H2 eq_refl). discriminate.
  - destruct H as [H1 H2]. specialize (H1 eq_refl). discriminate.
Qed.

Lemma plot_axis sy o xaxis sel X st b : has_points sy (ob_data o) sel X -> axis_rule xaxis X b ->
  plot_objective sy o xaxis st = plot_by sy o X b st.
Proof.
  intros H A. rewrite (plot_reads _ _ _ _ _ _ H). apply the_axis_rule in A. rewrite A. destruct b; reflexivity.
Qed.

Lemma plot_by_ok sy o sel X b st fig st' : has_points sy (ob_data o) sel X -> plot_by sy o X b st = (Ok fig, st') ->
  shows_data b sel X fig /\
  (exists vs lo hi, least (map (abscissa b) X) lo /\ greatest (map (abscissa b) X) hi /\
     StronglySorted Rlt vs /\ (forall v, In v vs <-> In v (map (other b) X)) /\
     Forall2 (fun v c => evenly 50 lo hi (cv_x c) /\ shows sy st (ob_model o) b v c) vs (fg_curves fig)) /\
  st_store st' = st_store st /\ st_flips st' = st_flips st.
Proof.
  intros H E. destruct (read_points _ _ _ _ H) as (_ & _ & D). unfold plot_by in E.
  unfold bind at 1, lift at 1 in E. destruct (grid (map (abscissa b) X) 0) as [xs|e] eqn:G; [|discriminate].
  unfold bind at 1 in E. destruct (draw_curves _ _ _ _ _ st) as [[cs|e] s1] eqn:C; [|discriminate].
  unfold lift in E. rewrite D in E by (rewrite map_length; reflexivity). inversion E. subst fig s1. clear E.
  destruct (draw_curves_ok _ _ _ _ _ _ _ _ C) as (F & S1 & S2).
  destruct (grid_ok _ _ _ G) as (lo & hi & L1 & L2 & Exs).
  split; [repeat split|]. split; [|auto].
  exists (np_unique (map (other b) X)), lo, hi. split; auto. split; auto. split; [apply np_unique_sorted|].
  split; [intros v; apply np_unique_In|]. cbn [fg_curves].
  clear -F Exs. induction F as [|v c vs cs [Hx Hs] F IH]; constructor; auto. split; auto.
  rewrite Hx, Exs, Rminus_0_r, Rplus_0_r. apply linspace_evenly.
Qed.

Theorem plot_shows sy o xaxis st fig st' sel X : has_points sy (ob_data o) sel X ->
  plot_objective sy o xaxis st = (Ok fig, st') ->
  exists b, axis_rule xaxis X b /\ shows_data b sel X fig /\
  (exists vs lo hi, least (map (abscissa b) X) lo /\ greatest (map (abscissa b) X) hi /\
     StronglySorted Rlt vs /\ (forall v, In v vs <-> In v (map (other b) X)) /\
     Forall2 (fun v c => evenly 50 lo hi (cv_x c) /\ shows sy st (ob_model o) b v c) vs (fg_curves fig)) /\
  st_store st' = st_store st /\ st_flips st' = st_flips st.
Proof.
  intros H E. pose proof E as E'. rewrite (plot_reads _ _ _ _ _ _ H) in E.
  destruct (String.eqb (the_axis xaxis X) "aoi") eqn:A.
  - exists true. apply String.eqb_eq in A. split; [apply the_axis_rule; exact A|]. eapply plot_by_ok; eauto.
  - destruct (String.eqb (the_axis xaxis X) "wavelength") eqn:A2; [|discriminate].
    exists false. apply String.eqb_eq in A2. split; [apply the_axis_rule; exact A2|]. eapply plot_by_ok; eauto.
Qed.

Theorem plot_succeeds sy o xaxis st sel X b : has_points sy (ob_data o) sel X -> X <> [] -> axis_rule xaxis X b ->
  (forall w a, (exists w1 w2, In w1 (map fst X) /\ In w2 (map fst X) /\ w1 <= w <= w2) ->
     (exists a1 a2, In a1 (map snd X) /\ In a2 (map snd X) /\ a1 <= a <= a2) ->
     exists p d, predicts sy st (ob_model o) [(w, a)] [p] [d]) ->
  exists fig st', plot_objective sy o xaxis st = (Ok fig, st').
Proof.
  intros H N A P. rewrite (plot_axis _ _ _ _ _ _ _ H A). destruct (read_points _ _ _ _ H) as (_ & _ & D).
  unfold plot_by. destruct (grid_total (map (abscissa b) X) 0) as [xs G]; [destruct X; [congruence|discriminate]|].
  unfold bind at 1, lift at 1. rewrite G. destruct (grid_ok _ _ _ G) as (lo & hi & L1 & L2 & Exs).
  assert (Hx : forall x, In x xs -> lo <= x <= hi).
  { intros x I. rewrite Exs, Rminus_0_r, Rplus_0_r in I. apply linspace_in; auto. destruct L1 as [I1 _], L2 as [_ I2]. auto. }
  destruct L1 as [I1 _], L2 as [I2 _].
  destruct (draw_curves_total sy (ob_model o) xs b (np_unique (map (other b) X)) st) as (cs & s1 & C).
  { intros v x Iv Ix. apply (proj1 (np_unique_In _ _)) in Iv. specialize (Hx x Ix).
    destruct b; cbn [place abscissa other] in *; apply P.
    - exists v, v. split; [exact Iv|]. split; [exact Iv|lra].
    - exists lo, hi. split; [exact I1|]. split; [exact I2|exact Hx].
    - exists lo, hi. split; [exact I1|]. split; [exact I2|exact Hx].
    - exists v, v. split; [exact Iv|]. split; [exact Iv|lra]. }
  unfold bind at 1. rewrite C. unfold lift. rewrite D by (rewrite map_length; reflexivity). eauto.
Qed.

Theorem plot_errors sy o xaxis st sel X : has_points sy (ob_data o) sel X ->
  (X = [] -> (xaxis = None \/ xaxis = Some (axis_name true) \/ xaxis = Some (axis_name false)) ->
     plot_objective sy o xaxis st = (Raise ValueError, st)) /\
  (forall a, xaxis = Some a -> a <> axis_name true -> a <> axis_name false -> plot_objective sy o xaxis st = (Raise OtherError, st)).
Proof.
  intros H. split.
  - intros ->. rewrite (plot_reads _ _ _ _ _ _ H). intros [E | [E | E]]; rewrite E; reflexivity.
  - intros a -> N1 N2. rewrite (plot_reads _ _ _ _ _ _ H). cbn [the_axis]. cbn [axis_name] in *.
    apply String.eqb_neq in N1, N2. rewrite N1, N2. reflexivity.
Qed.

Lemma plot_keeps sy o xaxis st : st_store (snd (plot_objective sy o xaxis st)) = st_store st /\
  st_flips (snd (plot_objective sy o xaxis st)) = st_flips st.
Proof.
  unfold plot_objective, bind, lift.
  destruct (wavelengths_of sy (ob_data o)) as [ws|e]; [|auto]. destruct (angles_of sy (ob_data o)) as [aois|e]; [|auto].
  set (ax := match xaxis with Some a => a | None => _ end). clearbody ax.
  destruct (String.eqb ax "aoi"); [|destruct (String.eqb ax "wavelength"); [|auto]].
  - destruct (grid aois 0) as [xs|e]; [|auto].
    pose proof (draw_curves_keeps sy (ob_model o) xs at_wavelength (np_unique ws) st) as K.
    destruct (draw_curves sy (ob_model o) xs at_wavelength (np_unique ws) st) as [[cs|e] s]; exact K.
  - destruct (grid ws 0) as [xs|e]; [|auto].
    pose proof (draw_curves_keeps sy (ob_model o) xs at_angle (np_unique aois) st) as K.
    destruct (draw_curves sy (ob_model o) xs at_angle (np_unique aois) st) as [[cs|e] s]; exact K.
Qed.
