(** * Datasets that own their columns; flags; the mask keyword; the data setter *)

Require Import Reals List Bool String Ascii Lia Arith Lra.
From Verif Require Import Base M_disp M_data Spec_data P_data M_life Spec_life P_life.
Import ListNotations.
Open Scope list_scope.
Open Scope R_scope.

(** ** what one statement leaves alone *)
Definition placed (s : life) : Prop :=
  Forall (valid (lf_heap s)) (lf_user s) /\
  Forall (fun e => valid (lf_heap s) (ds_wav (en_data e)) /\ valid (lf_heap s) (ds_aoi (en_data e)) /\
                   valid (lf_heap s) (ds_psi (en_data e)) /\ valid (lf_heap s) (ds_delta (en_data e))) (lf_sets s).

Lemma act_heap pf s o : placed s ->
  grows (lf_heap s) (lf_heap (snd (act pf s o))) /\
  (~ folding_copy o -> forall a, valid (lf_heap s) a -> ~ In a (lf_user s) ->
     arr (lf_heap (snd (act pf s o))) a = arr (lf_heap s) a) /\
  (forall a, In a (lf_user (snd (act pf s o))) -> In a (lf_user s) \/ a = List.length (lf_heap s)).
Proof.
  intros [A B]. assert (Same : grows (lf_heap s) (lf_heap s) /\
    (~ folding_copy o -> forall a, valid (lf_heap s) a -> ~ In a (lf_user s) -> arr (lf_heap s) a = arr (lf_heap s) a) /\
    (forall a, In a (lf_user s) -> In a (lf_user s) \/ a = List.length (lf_heap s))) by (split; [apply grows_refl|auto]).
  assert (M : forall d, act pf s o = on_set s d (fun y => method pf (lf_heap s) y o) ->
    grows (lf_heap s) (lf_heap (snd (act pf s o))) /\
    (~ folding_copy o -> forall a, valid (lf_heap s) a -> ~ In a (lf_user s) ->
       arr (lf_heap (snd (act pf s o))) a = arr (lf_heap s) a) /\
    (forall a, In a (lf_user (snd (act pf s o))) -> In a (lf_user s) \/ a = List.length (lf_heap s))).
  { intros d ->. unfold on_set. destruct (nth_error (lf_sets s) d) as [e|] eqn:E; [|exact Same].
    destruct (method_facts pf (lf_heap s) (en_data e) o) as (K & _ & _ & G).
    destruct (method pf (lf_heap s) (en_data e) o) as [r [d' h']]. cbn [fst snd lf_heap lf_user] in *. auto. }
  destruct o; try (eapply M; apply on_set_method; reflexivity).
  - cbn [act alloc snd lf_heap lf_user]. split; [apply (grows_alloc _ l)|]. split.
    + intros _ a V _. apply arr_app. exact V.
    + intros a I. apply in_app_iff in I. destruct I as [I|[<-|[]]]; auto.
  - cbn [act]. destruct (nth_error (lf_user s) a) as [adr|] eqn:Ea; [|exact Same].
    destruct Nat.ltb; cbn [snd lf_heap lf_user]; [|exact Same]. split; [|split; auto].
    + apply grows_update. intros. apply update_length.
    + intros _ b V N. rewrite arr_update. destruct (Nat.eqb b adr) eqn:Eb; auto. apply Nat.eqb_eq in Eb. subst b.
      destruct N. eapply nth_error_In; eauto.
  - cbn [act]. destruct (source_of s s0) as [src|] eqn:Es; [|exact Same].
    destruct (new_dataset pf (lf_heap s) delim src reflect_delta) as [[d' h']|e] eqn:N; [|exact Same].
    destruct (new_facts _ _ _ _ _ _ _ N) as (G & _ & _ & F). cbn [snd lf_heap lf_user]. split; [exact G|]. split; [|auto].
    intros NF b V NI.
    destruct s0 as [|w a p x|k|name lines|lines]; cbn [source_of] in Es.
    + injection Es as <-. apply F. exact V.
    + destruct (nth_error (lf_user s) w) as [w'|] eqn:E1; [|discriminate]. destruct (nth_error (lf_user s) a) as [a'|] eqn:E2; [|discriminate].
      destruct (nth_error (lf_user s) p) as [p'|] eqn:E3; [|discriminate]. destruct (nth_error (lf_user s) x) as [x'|] eqn:E4; [|discriminate].
      injection Es as <-. destruct F as (_ & _ & _ & _ & F & _). apply F. intros ->. apply NI. eapply nth_error_In; eauto.
    + destruct (nth_error (lf_sets s) k) as [e|] eqn:E1; [|discriminate]. injection Es as <-.
      destruct reflect_delta; [destruct NF; exact I|]. destruct F as (_ & _ & _ & _ & _ & F). rewrite F by reflexivity. reflexivity.
    + injection Es as <-. apply F. exact V.
    + injection Es as <-. apply F. exact V.
Qed.

Lemma nth_error_update2 {A} (l : list A) i j f :
  nth_error (update l i f) j = if Nat.eqb j i then option_map f (nth_error l j) else nth_error l j.
Proof.
  destruct (Nat.eqb j i) eqn:E.
  - apply Nat.eqb_eq in E. subst. apply nth_error_update.
  - apply Nat.eqb_neq in E. apply nth_error_update_ne. auto.
Qed.

(** the entry of a dataset after a statement *)
Lemma act_entry pf s o d e : nth_error (lf_sets s) d = Some e ->
  exists e', nth_error (lf_sets (snd (act pf s o))) d = Some e' /\ en_metadata e' = en_metadata e /\
    same_rest (en_data e) (en_data e') /\ fresh_or_same (lf_heap s) (en_data e) (en_data e') /\
    (~ about d o -> e' = e).
Proof.
  intros E.
  assert (Same : exists e', nth_error (lf_sets s) d = Some e' /\ en_metadata e' = en_metadata e /\
    same_rest (en_data e) (en_data e') /\ fresh_or_same (lf_heap s) (en_data e) (en_data e') /\ (~ about d o -> e' = e)).
  { exists e. split; [exact E|]. split; [reflexivity|]. split; [apply sr_refl|]. split; [apply fs_refl|auto]. }
  assert (M : forall k, act pf s o = on_set s k (fun y => method pf (lf_heap s) y o) ->
    (k = d -> about d o \/ snd (method pf (lf_heap s) (en_data e) o) = (en_data e, lf_heap s)) ->
    exists e', nth_error (lf_sets (snd (act pf s o))) d = Some e' /\ en_metadata e' = en_metadata e /\
    same_rest (en_data e) (en_data e') /\ fresh_or_same (lf_heap s) (en_data e) (en_data e') /\ (~ about d o -> e' = e)).
  { intros k -> Q. unfold on_set. destruct (nth_error (lf_sets s) k) as [e1|] eqn:E1; [|exact Same].
    pose proof (method_facts pf (lf_heap s) (en_data e1) o) as (_ & F & R & _).
    destruct (method pf (lf_heap s) (en_data e1) o) as [r [d' h']] eqn:Em. cbn [fst snd lf_sets] in *.
    rewrite nth_error_update2. destruct (Nat.eqb d k) eqn:Ek; [|exact Same].
    apply Nat.eqb_eq in Ek. subst k. rewrite E in E1. injection E1 as <-. rewrite E. cbn [option_map].
    exists (put_data e d'). split; [reflexivity|]. split; [reflexivity|]. split; [exact R|]. split; [exact F|].
    intros NA. destruct (Q eq_refl) as [C|C]; [contradiction|]. rewrite Em in C. cbn [snd] in C. injection C as -> _. destruct e; reflexivity. }
  destruct o; try exact Same.
  - cbn [act]. destruct (nth_error (lf_user s) a); [|exact Same]. destruct Nat.ltb; exact Same.
  - cbn [act]. destruct source_of; [|exact Same]. destruct new_dataset as [[d' h']|]; [|exact Same]. cbn [snd lf_sets].
    rewrite nth_error_app_l by (apply nth_error_Some; congruence). exact Same.
  - apply (M d0); [reflexivity|]. intros ->. left. reflexivity.
  - apply (M d0); [reflexivity|]. intros ->. left. reflexivity.
  - apply (M d0); [reflexivity|]. intros ->. left. reflexivity.
  - apply (M d0); [reflexivity|]. intros ->. left. reflexivity.
  - apply (M d0); [reflexivity|]. intros ->. right. reflexivity.
Qed.
Lemma act_sets_length pf s o : (List.length (lf_sets s) <= List.length (lf_sets (snd (act pf s o))))%nat.
Proof.
  assert (M : forall k f, (List.length (lf_sets s) <= List.length (lf_sets (snd (on_set s k f))))%nat).
  { intros k f. unfold on_set. destruct nth_error as [e|]; [|auto]. destruct (f (en_data e)) as [r [d' h']]. cbn. rewrite update_length. auto. }
  destruct o; cbn [act]; auto.
  - destruct (nth_error (lf_user s) a); auto. destruct Nat.ltb; auto.
  - destruct source_of; auto. destruct new_dataset as [[d' h']|]; auto. cbn. rewrite app_length. lia.
Qed.


Definition within (h : heap) (d : dataset) : Prop :=
  valid h (ds_wav d) /\ valid h (ds_aoi d) /\ valid h (ds_psi d) /\ valid h (ds_delta d).
Lemma within_grows h h' d : grows h h' -> within h d -> within h' d.
Proof. intros G (A & B & C & D). repeat split; eapply valid_grows; eauto. Qed.
Lemma table_within h d : table h d -> within h d.
Proof. intros (A & B & C & D & _). repeat split; auto. Qed.
Lemma method_within pf h y o : within h y -> within (snd (snd (method pf h y o))) (fst (snd (method pf h y o))).
Proof.
  intros W. destruct o; cbn [method fst snd]; auto.
  - unfold set_data_tuple, alloc. destruct W as (A & B & C & D). unfold within, valid in *.
    destruct (column cols 0) as [w|e]; cbn [fst snd]; auto.
    destruct (column cols 1) as [a|e]; cbn [fst snd]; [|cbn; rewrite ?app_length; cbn; lia].
    destruct (column cols 2) as [p|e]; cbn [fst snd]; [|cbn; rewrite ?app_length; cbn; lia].
    destruct (column cols 3) as [x|e]; cbn [fst snd]; [|cbn; rewrite ?app_length; cbn; lia].
    cbn. rewrite ?app_length; cbn; lia.
  - destruct (load pf h y f) as [[d' h']|e] eqn:E; cbn [or_keep fst snd]; auto.
    apply table_within. apply (load_facts _ _ _ _ _ _ E).
  - unfold refresh. destruct (ds_file y); cbn [fst]; [|exact W]. destruct mode; cbn [fst or_keep snd]; auto.
    destruct (load pf h y (ByHandle content)) as [[d' h']|e] eqn:E; cbn [or_keep fst snd]; auto.
    apply table_within. apply (load_facts _ _ _ _ _ _ E).
Qed.
Lemma placed_act pf s o : placed s -> placed (snd (act pf s o)).
Proof.
  intros P. destruct (act_heap pf s o P) as (G & _ & U). destruct P as [A B].
  assert (M : forall d, act pf s o = on_set s d (fun y => method pf (lf_heap s) y o) -> placed (snd (act pf s o))).
  { intros d E1. rewrite E1 in *. unfold on_set in *. destruct (nth_error (lf_sets s) d) as [e|] eqn:E; [|split; assumption].
    pose proof (method_within pf (lf_heap s) (en_data e) o) as T.
    destruct (method pf (lf_heap s) (en_data e) o) as [r [d' h']]. cbn [fst snd lf_heap lf_user lf_sets] in *. split; cbn [lf_heap lf_user lf_sets].
    - eapply Forall_impl; [|exact A]. intros a V. eapply valid_grows; eauto.
    - apply Forall_update.
      + eapply Forall_impl; [|exact B]. intros x. apply within_grows. exact G.
      + intros x Ex. cbn [put_data en_data]. apply T. rewrite Forall_forall in B. apply (B e). eapply nth_error_In; eauto. }
  destruct o; try (eapply M; apply on_set_method; reflexivity).
  - cbn [act alloc snd lf_heap lf_user lf_sets] in *. split; cbn [lf_heap lf_user lf_sets].
    + apply Forall_app. split; [eapply Forall_impl; [|exact A]; intros a V; eapply valid_grows; eauto|].
      constructor; [|constructor]. unfold valid. rewrite app_length. cbn. lia.
    + eapply Forall_impl; [|exact B]. intros x. apply within_grows, G.
  - cbn [act] in *. destruct (nth_error (lf_user s) a) as [adr|]; [|split; assumption].
    destruct Nat.ltb; cbn [snd lf_heap lf_user] in *; [|split; assumption]. split; cbn [lf_heap lf_user lf_sets].
    + eapply Forall_impl; [|exact A]. intros x V. eapply valid_grows; eauto.
    + eapply Forall_impl; [|exact B]. intros x. apply within_grows, G.
  - cbn [act] in *. destruct (source_of s s0) as [src|] eqn:Es; [|split; assumption].
    destruct (new_dataset pf (lf_heap s) delim src reflect_delta) as [[d' h']|e] eqn:N; [|split; assumption].
    destruct (new_facts _ _ _ _ _ _ _ N) as (_ & _ & _ & F). cbn [snd lf_heap lf_user] in *. split; cbn [lf_heap lf_user lf_sets].
    + eapply Forall_impl; [|exact A]. intros x V. eapply valid_grows; eauto.
    + apply Forall_app. split; [eapply Forall_impl; [|exact B]; intros x; apply within_grows, G|].
      constructor; [|constructor]. cbn [en_data].
      destruct s0 as [|w a p x|k|name lines|lines]; cbn [source_of] in Es.
      * injection Es as <-. apply table_within, F.
      * destruct (nth_error (lf_user s) w) as [w'|] eqn:E1; [|discriminate]. destruct (nth_error (lf_user s) a) as [a'|] eqn:E2; [|discriminate].
        destruct (nth_error (lf_user s) p) as [p'|] eqn:E3; [|discriminate]. destruct (nth_error (lf_user s) x) as [x'|] eqn:E4; [|discriminate].
        injection Es as <-. destruct F as (F1 & F2 & F3 & F4 & _). rewrite Forall_forall in A.
        apply (within_grows (lf_heap s)); [exact G|]. unfold within. rewrite F1, F2, F3, F4.
        repeat split; auto; apply A; eapply nth_error_In; eauto.
      * destruct (nth_error (lf_sets s) k) as [e|] eqn:E1; [|discriminate]. injection Es as <-.
        destruct F as (F1 & F2 & F3 & F4 & _). rewrite Forall_forall in B. pose proof (B e (nth_error_In _ _ E1)) as T.
        apply (within_grows (lf_heap s)); [exact G|]. unfold within. rewrite F1, F2, F3, F4. exact T.
      * injection Es as <-. apply table_within, F.
      * injection Es as <-. apply table_within, F.
Qed.
Lemma placed_acts pf l : forall s, placed s -> placed (acts pf s l).
Proof. induction l as [|o l IH]; intros s P; [exact P|]. apply IH. apply placed_act. exact P. Qed.
Lemma placed_empty : placed empty_life.
Proof. split; constructor. Qed.

(** ** the flag, the file and the keywords of a dataset never change *)
Theorem fixed_attributes pf l : forall s d e, nth_error (lf_sets s) d = Some e ->
  exists e', nth_error (lf_sets (acts pf s l)) d = Some e' /\ en_metadata e' = en_metadata e /\ same_rest (en_data e) (en_data e').
Proof.
  induction l as [|o l IH]; intros s d e E.
  - exists e. repeat split; auto.
  - destruct (act_entry pf s o d e E) as (e1 & E1 & M1 & R1 & _). destruct (IH _ _ _ E1) as (e2 & E2 & M2 & R2).
    exists e2. split; [exact E2|]. split; [congruence|]. destruct R1 as (?&?&?&?), R2 as (?&?&?&?). repeat split; congruence.
Qed.

(** ** a dataset with columns of its own *)
Definition private (s : life) (d : dataset) : Prop :=
  within (lf_heap s) d /\
  ~ In (ds_wav d) (lf_user s) /\ ~ In (ds_aoi d) (lf_user s) /\ ~ In (ds_psi d) (lf_user s) /\ ~ In (ds_delta d) (lf_user s).
Lemma private_act pf s o d e : placed s -> nth_error (lf_sets s) d = Some e -> private s (en_data e) ->
  ~ about d o -> ~ folding_copy o ->
  nth_error (lf_sets (snd (act pf s o))) d = Some e /\ private (snd (act pf s o)) (en_data e) /\
  get_data (lf_heap (snd (act pf s o))) (en_data e) = get_data (lf_heap s) (en_data e).
Proof.
  intros P E (W & N1 & N2 & N3 & N4) NA NF.
  destruct (act_entry pf s o d e E) as (e' & E' & _ & _ & _ & S). rewrite (S NA) in E'. clear e' S.
  destruct (act_heap pf s o P) as (G & K & U). specialize (K NF). destruct W as (W1 & W2 & W3 & W4).
  assert (New : forall a, valid (lf_heap s) a -> ~ In a (lf_user s) -> ~ In a (lf_user (snd (act pf s o)))).
  { intros a V N I. destruct (U a I) as [J|J]; [contradiction|]. unfold valid in V. lia. }
  split; [exact E'|]. split.
  - split; [apply (within_grows (lf_heap s)); [exact G|repeat split; auto]|]. repeat split; auto.
  - unfold get_data, get_wavelength, get_aoi, get_psi, get_delta. rewrite !K by assumption. reflexivity.
Qed.
Lemma private_acts pf l : forall s d e, placed s -> nth_error (lf_sets s) d = Some e -> private s (en_data e) ->
  Forall (fun o => ~ about d o /\ ~ folding_copy o) l ->
  nth_error (lf_sets (acts pf s l)) d = Some e /\ get_data (lf_heap (acts pf s l)) (en_data e) = get_data (lf_heap s) (en_data e).
Proof.
  induction l as [|o l IH]; intros s d e P E Q F; [auto|]. inversion F as [|? ? [F1 F2] F3]; subst.
  destruct (private_act pf s o d e P E Q F1 F2) as (E' & Q' & D).
  destruct (IH _ _ _ (placed_act pf s o P) E' Q' F3) as [A B]. split; [exact A|]. rewrite <- D. exact B.
Qed.
Lemma set_at_nth s d e : nth_error (lf_sets s) d = Some e -> set_at s d = en_data e.
Proof. intros E. unfold set_at. apply nth_error_nth. rewrite nth_error_map, E. reflexivity. Qed.

Lemma fresh_private s h d' : placed s -> all_fresh (lf_heap s) d' -> within h d' -> forall sets,
  private (Life h (lf_user s) sets) d'.
Proof.
  intros [A _] (F1 & F2 & F3 & F4) W sets. rewrite Forall_forall in A. unfold valid in A.
  split; [exact W|]. cbn [lf_user]. repeat split; intros I; apply A in I; lia.
Qed.
Lemma own_private pf s d o : placed s -> fst (act pf s o) = Ok tt -> own_columns s d o ->
  exists e, nth_error (lf_sets (snd (act pf s o))) d = Some e /\ private (snd (act pf s o)) (en_data e).
Proof.
  intros P R Q.
  assert (M : act pf s o = on_set s d (fun y => method pf (lf_heap s) y o) ->
    (forall e, nth_error (lf_sets s) d = Some e -> fst (method pf (lf_heap s) (en_data e) o) = Ok tt ->
       all_fresh (lf_heap s) (fst (snd (method pf (lf_heap s) (en_data e) o)))) ->
    exists e, nth_error (lf_sets (snd (act pf s o))) d = Some e /\ private (snd (act pf s o)) (en_data e)).
  { intros E F. rewrite E in R |- *. unfold on_set in *. destruct (nth_error (lf_sets s) d) as [e|] eqn:E1; [|discriminate].
    specialize (F e eq_refl). pose proof (method_within pf (lf_heap s) (en_data e) o) as W.
    assert (We : within (lf_heap s) (en_data e)). { destruct P as [_ B]. rewrite Forall_forall in B. apply B. eapply nth_error_In; eauto. }
    specialize (W We).
    destruct (method pf (lf_heap s) (en_data e) o) as [r [d' h']]. cbn [fst snd lf_heap lf_user lf_sets] in *.
    exists (put_data e d'). rewrite nth_error_update, E1. split; [reflexivity|]. cbn [put_data en_data].
    apply fresh_private; auto. }
  destruct o; cbn [own_columns] in Q; try contradiction.
  - cbn [act] in *. destruct (source_of s s0) as [src|] eqn:Es; [|discriminate].
    destruct (new_dataset pf (lf_heap s) delim src reflect_delta) as [[d' h']|e] eqn:N; [|discriminate].
    destruct (new_facts _ _ _ _ _ _ _ N) as (_ & _ & _ & F). cbn [snd lf_sets].
    exists (Entry d' (metadata_of s s0 kwds)).
    assert (L : d = List.length (lf_sets s)) by (destruct s0; try contradiction; exact Q). subst d.
    split; [rewrite nth_error_app2, Nat.sub_diag by lia; reflexivity|]. cbn [en_data].
    assert (Fr : all_fresh (lf_heap s) d' /\ table h' d').
    { destruct s0; cbn [source_of] in Es; try contradiction; injection Es as <-; destruct F as (_ & F1 & F2); auto. }
    apply fresh_private; [exact P|apply Fr|apply table_within, Fr].
  - subst d0. apply M; [reflexivity|]. intros e E1. cbn [method]. unfold set_data_tuple, alloc, all_fresh.
    destruct (column cols 0) as [w|?]; [|discriminate]. destruct (column cols 1) as [a|?]; [|discriminate].
    destruct (column cols 2) as [p|?]; [|discriminate]. destruct (column cols 3) as [x|?]; [|discriminate].
    intros _. cbn. rewrite ?app_length. cbn. lia.
  - subst d0. apply M; [reflexivity|]. intros e E1. cbn [method].
    destruct (load pf (lf_heap s) (en_data e) f) as [[d' h']|?] eqn:E; [|discriminate]. intros _. cbn [or_keep fst snd].
    apply (load_facts _ _ _ _ _ _ E).
  - destruct Q as [-> NF]. apply M; [reflexivity|]. intros e E1. rewrite (set_at_nth _ _ _ E1) in NF. cbn [method]. unfold refresh.
    destruct (ds_file (en_data e)); [|destruct NF; reflexivity]. destruct mode; cbn [fst]; [|discriminate].
    destruct (load pf (lf_heap s) (en_data e) (ByHandle content)) as [[d' h']|?] eqn:E; [|discriminate]. intros _. cbn [or_keep fst snd].
    apply (load_facts _ _ _ _ _ _ E).
Qed.
Theorem own_columns_stay pf l0 o l d : let s := acts pf empty_life l0 in let s1 := snd (act pf s o) in let s2 := acts pf s1 l in
  fst (act pf s o) = Ok tt -> own_columns s d o -> Forall (fun o => ~ about d o /\ ~ folding_copy o) l ->
  get_data (lf_heap s2) (set_at s2 d) = get_data (lf_heap s1) (set_at s1 d).
Proof.
  intros s s1 s2 R Q F. assert (P : placed s) by (apply placed_acts, placed_empty).
  destruct (own_private pf s d o P R Q) as (e & E & Pr).
  destruct (private_acts pf l s1 d e (placed_act pf s o P) E Pr F) as [A B].
  rewrite (set_at_nth s1 d e E), (set_at_nth s2 d e A). exact B.
Qed.

(** ** the keyword mask *)
Theorem keywords_do_not_mask pf s x delim r kwds :
  fst (act pf s (L_new x delim r kwds)) = Ok tt ->
  let s1 := snd (act pf s (L_new x delim r kwds)) in let d := set_at s1 (List.length (lf_sets s)) in
  ds_mask d = MBool (map (fun _ => true) (arr (lf_heap s1) (ds_wav d))) /\
  (let s2 := snd (act pf s (L_new x delim r [])) in
   lf_heap s2 = lf_heap s1 /\ set_at s2 (List.length (lf_sets s)) = d).
Proof.
  cbn [act]. destruct source_of as [src|]; [|discriminate].
  destruct (new_dataset pf (lf_heap s) delim src r) as [[d' h']|e] eqn:N; [|discriminate]. intros _. cbn [snd].
  destruct (new_facts _ _ _ _ _ _ _ N) as (_ & _ & M & _).
  assert (L : forall m, set_at (Life h' (lf_user s) (lf_sets s ++ [Entry d' m])) (List.length (lf_sets s)) = d').
  { intros m. rewrite (set_at_nth _ _ (Entry d' m)); [reflexivity|]. cbn [lf_sets]. rewrite nth_error_app2, Nat.sub_diag by lia. reflexivity. }
  rewrite !L. cbn [lf_heap]. split; [exact M|]. split; reflexivity.
Qed.
