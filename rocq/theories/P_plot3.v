(** * Proofs about StructureSE.plot and ReflectModelSE.model(p=...) *)

Require Import Reals List Bool ZArith String Lra Lia Sorted FunctionalExtensionality.
From Coquelicot Require Import Complex.
From Verif Require Import Base M_tmm P_tmm M_disp P_disp M_struct M_model P_struct P_model M_data Spec_data P_data
  M_objective Spec_objective P_objective P_objective2 P_objective3 M_plot Spec_plot P_plot P_plot2.
Import ListNotations.
Open Scope list_scope.
Open Scope R_scope.

(** an objective with given parameters, to reuse what is known about setp *)
Definition dummy : dataset := (DataSE 0 0 0 0 MNone false false None tab)%nat.

Lemma varying_of_list sy ps : varying_list sy ps (varying_of sy ps).
Proof.
  unfold varying_list, varying_of. split; [intros p; rewrite unique_In, filter_In; tauto|]. split; [apply unique_NoDup|].
  intros i j p q Hp Hq L.
  assert (Vp : p_vary (sy_params sy p) = true) by (apply nth_error_In in Hp; rewrite unique_In, filter_In in Hp; tauto).
  assert (Vq : p_vary (sy_params sy q) = true) by (apply nth_error_In in Hq; rewrite unique_In, filter_In in Hq; tauto).
  destruct (unique_order _ _ _ _ _ Hp Hq L) as (l1 & l2 & E & N1 & N2).
  clear - E N1 N2 Vp Vq. revert l1 l2 E N1 N2.
  induction ps as [|x l IH]; intros l1 l2 E N1 N2; [destruct l1; discriminate|].
  cbn [filter] in E. destruct (p_vary (sy_params sy x)) eqn:V.
  - destruct l1 as [|y l1]; cbn [app] in E; injection E as E1 E2.
    + subst x. exists [], l. split; auto.
    + subst y. destruct (IH l1 l2 E2) as (m1 & m2 & E & M1 & M2).
      * intros I; apply N1; right; auto.
      * intros I; apply N2; right; auto.
      * exists (x :: m1), m2. split; [cbn; congruence|].
        split; intros [->|I]; auto; [apply N1|apply N2]; left; auto.
  - destruct (IH l1 l2 E N1 N2) as (m1 & m2 & E' & M1 & M2). exists (x :: m1), m2. split; [cbn; congruence|].
    split; intros [->|I]; auto; congruence.
Qed.

Lemma write_all_forget ps v s s' : List.length v = List.length ps -> (forall q, ~ In q ps -> s q = s' q) ->
  write_all s ps v = write_all s' ps v.
Proof.
  intros L F. apply functional_extensionality. intros q. destruct (in_dec Nat.eq_dec q ps) as [I|I].
  - destruct (last_at_ex _ _ I) as (i & Hi). destruct (nth_error v i) as [x|] eqn:E.
    + rewrite !(write_all_last _ _ _ _ i x); auto.
    + apply nth_error_None in E. destruct Hi as [Hi _].
      assert (nth_error ps i <> None) by congruence. apply nth_error_Some in H. lia.
  - rewrite !write_all_other by auto. apply F; auto.
Qed.

Lemma set_pvals_varying sy ps v st : well_formed sy -> List.length v = List.length (varying_of sy ps) ->
  exists st', set_pvals sy ps v st = (Ok tt, st') /\ assigned sy (varying_of sy ps) v st st'.
Proof.
  intros WF L. unfold set_pvals. rewrite L, Nat.eqb_refl. eexists. split; [reflexivity|]. split; [exact L|].
  cbn [set_store st_store st_wavelengths st_flips].
  destruct (varying_of_list sy ps) as (I & N & _). split; [|split; auto].
  - intros i p x Hp Hx. unfold value, read. rewrite WF.
    + apply (write_all_last _ v _ p i x); auto. apply last_at_NoDup; auto.
    + apply nth_error_In in Hp. apply I in Hp. tauto.
  - intros q Hq. apply write_all_other; auto.
Qed.
Lemma set_pvals_wrong sy ps v st : List.length v <> List.length (varying_of sy ps) -> List.length v <> List.length ps ->
  set_pvals sy ps v st = (Raise ValueError, st).
Proof.
  intros N1 N2. unfold set_pvals. destruct (Nat.eqb_spec (List.length v) (List.length (varying_of sy ps))); [contradiction|].
  destruct (Nat.eqb_spec (List.length v) (List.length ps)); [contradiction|]. reflexivity.
Qed.
(** whatever the vector, only parameters in [ps] are written *)
Lemma set_pvals_frame sy ps v st : frame (fun q => In q ps) st (snd (set_pvals sy ps v st)) /\
  st_wavelengths (snd (set_pvals sy ps v st)) = st_wavelengths st.
Proof.
  destruct (varying_of_list sy ps) as (I & _). unfold set_pvals. destruct (Nat.eqb _ _); [|destruct (Nat.eqb _ _)]; cbn [snd].
  - split; [|reflexivity]. split; [|reflexivity]. intros q N. cbn. apply write_all_other. intros J. apply I in J. tauto.
  - split; [|reflexivity]. split; [|reflexivity]. intros q N. cbn. apply write_all_other. auto.
  - split; [apply frame_refl|reflexivity].
Qed.

(** ** ReflectModelSE.model(p=...) *)
Theorem model_p_sets sy m X v vs st : well_formed sy -> varying_of sy (model_params sy m) = vs -> List.length v = List.length vs ->
  exists st1, assigned sy vs v st st1 /\ call_model_p sy m X (Some v) st = call_model sy m X st1 /\
    (forall i p x, nth_error vs i = Some p -> nth_error v i = Some x ->
       value sy (snd (call_model_p sy m X (Some v) st)) p = x).
Proof.
  intros WF <- L. destruct (set_pvals_varying sy (model_params sy m) v st WF L) as (st1 & E & A). exists st1. split; auto.
  assert (Q : call_model_p sy m X (Some v) st = call_model sy m X st1) by (unfold call_model_p, bind; rewrite E; reflexivity).
  split; auto. intros i p x Hp Hx. rewrite Q. destruct (call_model_keeps sy m X st1) as [K _].
  unfold value. rewrite K. destruct A as (_ & A & _). exact (A i p x Hp Hx).
Qed.
Theorem model_p_wrong sy m X v st : List.length v <> List.length (varying_of sy (model_params sy m)) ->
  List.length v <> List.length (model_params sy m) -> call_model_p sy m X (Some v) st = (Raise ValueError, st).
Proof. intros N1 N2. unfold call_model_p, bind. rewrite set_pvals_wrong by auto. reflexivity. Qed.

(** ** StructureSE.plot *)
Lemma current_structure_ext sy a st st' : st_store st = st_store st' -> st_wavelengths st = st_wavelengths st' ->
  current_structure sy st a = current_structure sy st' a.
Proof. intros E F. unfold current_structure, value. rewrite E, F. reflexivity. Qed.

Lemma draw_samples_frame sy a align ps vs : forall st,
  frame (fun q => In q ps) st (snd (draw_samples sy a align ps vs st)) /\
  st_wavelengths (snd (draw_samples sy a align ps vs st)) = st_wavelengths st.
Proof.
  induction vs as [|v vs IH]; intros st; cbn [draw_samples]; [split; [apply frame_refl|reflexivity]|].
  unfold bind, profile_now, ret. destruct (set_pvals_frame sy ps v st) as [F W].
  destruct (set_pvals sy ps v st) as [[u|e] s]; cbn [snd] in *; auto.
  destruct (ri_profile _ _ _ _); cbn [snd]; auto.
  destruct (IH s) as [F2 W2]. destruct (draw_samples sy a align ps vs s) as [[cs|e] s2]; cbn [snd] in *;
    (split; [eapply frame_trans; eauto|congruence]).
Qed.

Lemma draw_samples_ok sy a align ps vs : well_formed sy -> Forall (fun v => List.length v = List.length (varying_of sy ps)) vs ->
  forall st0 st cs st', (forall q, ~ In q (varying_of sy ps) -> st_store st q = st_store st0 q) ->
  st_wavelengths st = st_wavelengths st0 -> st_flips st = st_flips st0 ->
  draw_samples sy a align ps vs st = (Ok cs, st') ->
  Forall2 (fun v c => exists st1, assigned sy (varying_of sy ps) v st0 st1 /\
    ri_profile (sy_ext sy) (current_structure sy st1 a) None align = Ok c) vs cs.
Proof.
  intros WF. induction 1 as [|v vs L F IH]; intros st0 st cs st' S W Fl E; cbn [draw_samples] in E.
  - inversion E. constructor.
  - unfold bind, profile_now, ret in E.
    destruct (set_pvals_varying sy ps v st WF L) as (s1 & E1 & A1).
    destruct (set_pvals_varying sy ps v st0 WF L) as (s0 & E0 & A0).
    rewrite E1 in E. destruct (ri_profile _ (current_structure sy s1 a) _ _) as [c|e] eqn:P; [|discriminate].
    destruct (draw_samples sy a align ps vs s1) as [[cs1|e] s2] eqn:D; [|discriminate].
    inversion E. subst cs s2. clear E.
    assert (EQ : st_store s1 = st_store s0).
    { unfold set_pvals in E0, E1. rewrite L, Nat.eqb_refl in E0, E1.
      injection E1 as <-. injection E0 as <-. cbn. apply write_all_forget; auto. }
    constructor.
    + exists s0. split; auto. rewrite <- P. f_equal. apply current_structure_ext; [symmetry; exact EQ|].
      destruct A1 as (_ & _ & _ & -> & _), A0 as (_ & _ & _ & -> & _). auto.
    + apply (IH st0 s1 cs1 st'); auto.
      * intros q Nq. destruct A1 as (_ & _ & A1 & _). rewrite A1 by auto. apply S; auto.
      * destruct A1 as (_ & _ & _ & -> & _). auto.
      * destruct A1 as (_ & _ & _ & _ & ->). auto.
Qed.

Lemma filter_le {A} (f : A -> bool) l : (List.length (filter f l) <= List.length l)%nat.
Proof. induction l as [|x l IH]; cbn; [lia|]. destruct (f x); cbn; lia. Qed.
Lemma filter_full {A} (f : A -> bool) l : List.length (filter f l) = List.length l -> filter f l = l.
Proof.
  induction l as [|x l IH]; cbn; auto. pose proof (filter_le f l). destruct (f x); cbn; intros E; [f_equal; apply IH; lia|lia].
Qed.
Lemma unique_le l : (List.length (unique l) <= List.length l)%nat.
Proof.
  induction l as [|x l IH]; cbn [unique List.length]; [lia|].
  apply le_n_S. eapply Nat.le_trans; [apply filter_le|exact IH].
Qed.
Lemma unique_full l : List.length (unique l) = List.length l -> unique l = l.
Proof.
  induction l as [|x l IH]; auto. change (unique (x :: l)) with (x :: filter (fun q : pid => negb (q =? x)%nat) (unique l)).
  cbn [List.length]. intros E. apply eq_add_S in E.
  assert (K : filter (fun q : pid => negb (q =? x)%nat) (unique l) = unique l).
  { apply filter_full. apply Nat.le_antisymm; [apply filter_le|]. etransitivity; [apply unique_le|]. apply Nat.eq_le_incl. symmetry. exact E. }
  transitivity (x :: unique l); [exact (f_equal (cons x) K)|]. f_equal. apply IH.
  etransitivity; [|exact E]. symmetry. exact (f_equal (@List.length pid) K).
Qed.
Lemma varying_full sy ps : List.length ps = List.length (varying_of sy ps) -> varying_of sy ps = ps.
Proof.
  unfold varying_of. intros E. pose proof (unique_le (filter (fun p => p_vary (sy_params sy p)) ps)) as U.
  pose proof (filter_le (fun p => p_vary (sy_params sy p)) ps) as V.
  assert (K : filter (fun p => p_vary (sy_params sy p)) ps = ps).
  { apply filter_full. apply Nat.le_antisymm; [exact V|]. rewrite E at 1. exact U. }
  rewrite K in E |- *. apply unique_full. symmetry. exact E.
Qed.

(** putting back all values *)
Lemma put_back sy ps st s : resolved sy -> frame (fun q => In q ps) st s -> st_wavelengths s = st_wavelengths st ->
  exists st', set_pvals sy ps (map (value sy st) ps) s = (Ok tt, st') /\
    (forall p, value sy st' p = value sy st p) /\ st_wavelengths st' = st_wavelengths st /\ st_flips st' = st_flips st.
Proof.
  intros RS [F1 F2] W.
  assert (E : set_pvals sy ps (map (value sy st) ps) s = (Ok tt, set_store s (write_all (st_store s) ps (map (value sy st) ps)))).
  { unfold set_pvals. rewrite map_length. destruct (Nat.eqb_spec (List.length ps) (List.length (varying_of sy ps))) as [L|L].
    - rewrite (varying_full sy ps L). reflexivity.
    - rewrite Nat.eqb_refl. reflexivity. }
  eexists. split; [exact E|]. split; [|split; auto].
  assert (U : forall q, p_constraint (sy_params sy q) = None ->
    write_all (st_store s) ps (map (value sy st) ps) q = st_store st q).
  { intros q C. destruct (in_dec Nat.eq_dec q ps) as [I|I].
    - destruct (last_at_ex _ _ I) as (i & Hi).
      rewrite (write_all_last _ _ _ _ i (value sy st q)); auto.
      + unfold value, read. rewrite C. reflexivity.
      + destruct Hi as [Hi _]. rewrite nth_error_map, Hi. reflexivity.
    - rewrite write_all_other by auto. apply F1; auto. }
  intros p. unfold value, read. cbn [set_store st_store]. destruct (p_constraint (sy_params sy p)) as [f|] eqn:C; [|apply U; auto].
  apply (RS p f C). intros q Hq. apply U; auto.
Qed.

Theorem profile_restores sy a samples chain align st cs st' : well_formed sy -> resolved sy ->
  plot_profile sy a None samples chain align st = (Ok cs, st') ->
  (forall p, value sy st' p = value sy st p) /\ st_wavelengths st' = st_wavelengths st /\ st_flips st' = st_flips st /\
  exists grey red, cs = grey ++ [red] /\
    ri_profile (sy_ext sy) (current_structure sy st a) None align = Ok red /\
    ((samples <= 0)%Z -> grey = []) /\
    forall vs, (0 < samples)%Z -> chain = Ok vs ->
      Forall (fun v => List.length v = List.length (varying_of sy (structure_params (the_structure sy a)))) vs ->
      Forall2 (fun v c => exists st1, assigned sy (varying_of sy (structure_params (the_structure sy a))) v st st1 /\
        ri_profile (sy_ext sy) (current_structure sy st1 a) None align = Ok c) vs grey.
Proof.
  intros WF RS. unfold plot_profile. set (ps := structure_params (the_structure sy a)).
  unfold bind at 1, ret at 1. unfold bind at 1.
  destruct (Z.ltb_spec 0 samples) as [P|P].
  - unfold bind at 1, lift. destruct chain as [vs|e]; [|discriminate].
    unfold bind at 1. destruct (draw_samples_frame sy a align ps vs st) as [F W].
    destruct (draw_samples sy a align ps vs st) as [[grey|e] s1] eqn:D; [|discriminate]. cbn [snd] in F, W.
    unfold bind at 1. destruct (put_back sy ps st s1 RS F W) as (s2 & E2 & V & W2 & F2). rewrite E2. unfold ret at 1.
    unfold bind, profile_now.
    assert (CS : current_structure sy s2 a = current_structure sy st a).
    { unfold current_structure. rewrite W2. apply inst_structure_ext. intros p _. apply V. }
    rewrite CS. destruct (ri_profile (sy_ext sy) (current_structure sy st a) None align) as [red|e] eqn:R; [|discriminate].
    unfold ret. intros E. inversion E. subst cs st'. split; auto. split; auto. split; auto.
    exists grey, red. split; auto. split; auto. split; [lia|].
    intros vs' _ Ev FL. injection Ev as <-.
    apply (draw_samples_ok sy a align ps vs WF FL st st grey s1); auto.
  - unfold ret at 1. unfold bind, profile_now.
    destruct (ri_profile (sy_ext sy) (current_structure sy st a) None align) as [red|e] eqn:R; [|discriminate].
    unfold ret. intros E. inversion E. subst cs st'. split; auto. split; auto. split; auto.
    exists [], red. split; auto. split; auto. split; auto. intros vs' Q. lia.
Qed.

Theorem profile_pvals sy a v samples chain align st : well_formed sy -> resolved sy ->
  List.length v = List.length (varying_of sy (structure_params (the_structure sy a))) ->
  exists st1, assigned sy (varying_of sy (structure_params (the_structure sy a))) v st st1 /\
    plot_profile sy a (Some v) samples chain align st = plot_profile sy a None samples chain align st1.
Proof.
  intros WF RS L. destruct (set_pvals_varying sy _ v st WF L) as (st1 & E & A). exists st1. split; auto.
  unfold plot_profile. unfold bind at 1. rewrite E. reflexivity.
Qed.
