(** * Proofs about sessions *)

Require Import Reals List Bool String Lra Lia Arith.
From Coquelicot Require Import Complex.
From Verif Require Import Base M_disp P_disp M_struct M_model P_model M_data M_objective P_objective P_objective2 M_session Spec_session.
Import ListNotations.
Open Scope list_scope.
Open Scope R_scope.

(** ** lists of parameters are up to date *)
Definition current_lists (w : session) : Prop :=
  (forall a, so_listed (scat_at w a) = scat_params (mt_scat (so_material (scat_at w a)))) /\
  (forall c, co_listed (comp_at w c) = list_attrs w (co_attrs (comp_at w c)) /\ attrs_exist w (co_attrs (comp_at w c)) = true).

Lemma nth_snoc {A} (l : list A) x i d : nth i (l ++ [x]) d = if Nat.eqb i (List.length l) then x else nth i l d.
Proof.
  destruct (Nat.eqb_spec i (List.length l)) as [->|N].
  - rewrite app_nth2 by lia. rewrite Nat.sub_diag. reflexivity.
  - destruct (Nat.lt_ge_cases i (List.length l)).
    + apply app_nth1. assumption.
    + rewrite !nth_overflow; auto. rewrite app_length. cbn. lia.
Qed.

Lemma lists_params w x : current_lists w -> current_lists (with_params w x).
Proof. exact (fun H => H). Qed.
Lemma lists_structs w x : current_lists w -> current_lists (with_structs w x).
Proof. exact (fun H => H). Qed.
Lemma lists_models w x : current_lists w -> current_lists (with_models w x).
Proof. exact (fun H => H). Qed.
Lemma lists_edit w a f : current_lists w -> current_lists (edit w a f).
Proof. exact (fun H => H). Qed.
Lemma list_attrs_scats w m a : attrs_exist w a = true ->
  let w' := with_scats w (se_scats w ++ [m]) in list_attrs w' a = list_attrs w a /\ attrs_exist w' a = true.
Proof.
  intros E w'.
  assert (S : forall s, exists_scat w s = true -> scat_at w' s = scat_at w s /\ exists_scat w' s = true).
  { intros s H. unfold exists_scat in *. apply Nat.ltb_lt in H. unfold scat_at, w'. cbn [se_scats with_scats].
    rewrite app_nth1 by auto. split; auto. apply Nat.ltb_lt. rewrite app_length. cbn. lia. }
  destruct a as [t s r v|t a b v r|ps f]; cbn [attrs_exist list_attrs] in *.
  - destruct (S s E) as [-> ->]. auto.
  - apply andb_true_iff in E. destruct E as [E1 E2]. destruct (S a E1) as [-> ->]. destruct (S b E2) as [-> ->]. auto.
  - auto.
Qed.
Lemma lists_scat w m : current_lists w -> current_lists (with_scats w (se_scats w ++ [ScatObj m (scat_params (mt_scat m))])).
Proof.
  intros [A B]. split.
  - intros a. unfold scat_at. cbn [se_scats with_scats]. rewrite nth_snoc. destruct Nat.eqb; [reflexivity|apply A].
  - intros c. destruct (B c) as [B1 B2].
    change (comp_at (with_scats w (se_scats w ++ [ScatObj m (scat_params (mt_scat m))])) c) with (comp_at w c).
    destruct (list_attrs_scats w (ScatObj m (scat_params (mt_scat m))) _ B2) as [E1 E2]. rewrite E1, E2. auto.
Qed.
Lemma lists_comp w a d : attrs_exist w a = true -> current_lists w -> current_lists (new_comp a d w).
Proof.
  intros E [A B]. split; [exact A|]. intros c. unfold comp_at, new_comp. cbn [se_comps with_comps]. rewrite nth_snoc.
  destruct Nat.eqb; [split; [reflexivity|exact E]|]. exact (B c).
Qed.
Lemma lists_append w a o : exists_object w o = true -> current_lists w -> current_lists (snd (append_to w a o)).
Proof.
  intros E L. destruct o; cbn [append_to snd]; auto.
  apply lists_edit. apply lists_comp; [exact E|]. apply lists_params. exact L.
Qed.

Lemma lists_execute ext w x : keeps_attributes x -> current_lists w -> current_lists (snd (execute ext w x)).
Proof.
  intros K L. destruct x; cbn [execute keeps_attributes] in *; try contradiction; auto.
  - apply lists_scat. exact L.
  - destruct (attrs_exist w a) eqn:E; [|exact L]. apply lists_comp; auto.
  - destruct (_ && _); [|exact L]. destruct solvent_arg; exact L.
  - destruct (exists_object w s); [|exact L]. destruct s; exact L.
  - destruct (exists_object w o) eqn:E; [|exact L]. apply lists_append; auto.
  - destruct (exists_object w o) eqn:E; [|exact L]. destruct o; try exact L; apply (lists_append w a (O_scat a0)); auto.
  - destruct forallb; exact L.
  - destruct (match o with Some o => exists_object w o | None => true end); [|exact L]. destruct solvent_arg; exact L.
  - destruct v; try exact L. destruct Rle_dec; [destruct Rle_dec|]; exact L.
  - destruct (exists_object w o); [|exact L]. destruct o; exact L.
  - destruct (evaluation ext w m X). exact L.
Qed.
Lemma lists_nothing : current_lists nothing.
Proof. split; intros [|a]; cbn; auto. Qed.
Lemma lists_run ext l : Forall keeps_attributes l -> forall w, current_lists w -> current_lists (run ext w l).
Proof.
  induction 1 as [|x l K F IH]; intros w L; [exact L|]. apply IH. apply lists_execute; auto.
Qed.

Lemma scat_params_attr s p : In p (scat_params s) <-> attribute_of (sct_kind s) p.
Proof.
  unfold scat_params. destruct s as [[]]; cbn [sct_kind attribute_of]; rewrite ?in_app_iff; cbn [In];
    intuition congruence.
Qed.
Lemma listed_owned w m : current_lists w -> forall p, In p (listed w m) <-> owned w m p.
Proof.
  intros [A B] p. unfold listed, owned, listed_struct. cbn [In]. rewrite in_app_iff, in_flat_map.
  set (s := struct_at w _).
  assert (S : forall a, In p (so_listed (scat_at w a)) <-> scat_has w a p).
  { intros a. rewrite A. apply scat_params_attr. }
  assert (C : forall c, In p (co_listed (comp_at w c)) <-> comp_has w c p).
  { intros c. rewrite (proj1 (B c)). unfold comp_has. destruct (co_attrs (comp_at w c)); cbn [list_attrs];
      rewrite ?in_app_iff, ?S; cbn [In]; intuition congruence. }
  assert (V : In p match so_solvent s with Some a => so_listed (scat_at w a) | None => [] end <->
              exists a, so_solvent s = Some a /\ scat_has w a p).
  { destruct (so_solvent s) as [a|]; [rewrite S|cbn [In]].
    - split; [eauto|]. intros (a' & E & H). congruence.
    - split; [tauto|]. intros (a' & E & _). discriminate. }
  rewrite V. split.
  - intros [<-|[(c & I & H)|H]]; auto. right. left. exists c. split; auto. apply C. exact H.
  - intros [->|[(c & I & H)|H]]; auto. right. left. exists c. split; auto. apply C. exact H.
Qed.

Theorem parameters_current ext l m : Forall keeps_attributes l ->
  forall p, In p (listed (run ext nothing l) m) <-> owned (run ext nothing l) m p.
Proof. intros K. apply listed_owned. apply lists_run; auto. apply lists_nothing. Qed.

(** ** evaluation depends on the listed parameters only *)
Lemma listed_struct_params w s : current_lists w -> listed_struct w s = structure_params (struct_now w s).
Proof.
  intros [A B]. unfold listed_struct, structure_params, struct_now. cbn [stt_data stt_solvent].
  f_equal.
  - rewrite flat_map_concat_map, (flat_map_concat_map component_params), map_map. f_equal. apply map_ext. intros c.
    rewrite (proj1 (B c)). unfold component_params, comp_now. cbn [ct_kind].
    destruct (co_attrs (comp_at w c)); cbn [list_attrs]; rewrite ?A; reflexivity.
  - destruct (so_solvent s); [apply A|reflexivity].
Qed.
Theorem parameters_sufficient ext l m X x : Forall keeps_attributes l ->
  let w := run ext nothing l in let w' := with_params w x in
  (forall p, In p (listed w m) -> value_of w p = value_of w' p) ->
  fst (evaluation ext w m X) = fst (evaluation ext w' m X).
Proof.
  intros K w w' H.
  assert (L : current_lists w) by (apply lists_run; auto; apply lists_nothing).
  unfold evaluation. change (model_at w' m) with (model_at w m).
  change (struct_at w' (mo_struct (model_at w m))) with (struct_at w (mo_struct (model_at w m))).
  set (s := struct_at w (mo_struct (model_at w m))) in *.
  change (struct_now w' s) with (struct_now w s).
  rewrite (H (mo_delta_offset (model_at w m))) by (left; reflexivity).
  rewrite (inst_structure_ext (value_of w) (value_of w')).
  - destruct (model ext DFloat _ _ _ X). reflexivity.
  - intros p I. apply H. right. fold s. rewrite listed_struct_params by exact L. exact I.
Qed.

(** ** evaluations and failures leave no trace *)
Lemma same_refl s : same_struct s s.
Proof. repeat split. Qed.
Lemma same_refl2 l : Forall2 same_struct l l.
Proof. induction l; constructor; auto using same_refl. Qed.
Lemma same_session_refl w : same_session w w.
Proof. repeat split. apply same_refl2. Qed.
Lemma same_nth l l' i : Forall2 same_struct l l' -> same_struct (nth i l no_struct) (nth i l' no_struct).
Proof. intros H. revert i. induction H; intros [|i]; cbn; auto using same_refl. Qed.
Lemma F2_update l l' i f f' : Forall2 same_struct l l' -> (forall s s', same_struct s s' -> same_struct (f s) (f' s')) ->
  Forall2 same_struct (update l i f) (update l' i f').
Proof. intros H F. revert i. induction H; intros [|i]; cbn; constructor; auto. Qed.
Lemma same_evaluation ext w w' m X : same_session w w' -> fst (evaluation ext w m X) = fst (evaluation ext w' m X).
Proof.
  destruct w as [ps sc co st mo], w' as [ps' sc' co' st' mo']. intros (E1 & E2 & E3 & E4 & E5). cbn in *. subst.
  unfold evaluation. unfold model_at. cbn [se_models]. set (o := nth m mo' no_model).
  unfold struct_at. cbn [se_structs]. pose proof (same_nth _ _ (mo_struct o) E5) as S.
  set (s := nth (mo_struct o) st no_struct) in *. set (s' := nth (mo_struct o) st' no_struct) in *.
  destruct S as (S1 & S2 & S3 & S4 & S5 & S6 & S7).
  change (value_of {| se_params := ps'; se_scats := sc'; se_comps := co'; se_structs := st; se_models := mo' |})
    with (value_of {| se_params := ps'; se_scats := sc'; se_comps := co'; se_structs := st'; se_models := mo' |}).
  set (v := value_of _).
  assert (N : struct_now {| se_params := ps'; se_scats := sc'; se_comps := co'; se_structs := st; se_models := mo' |} s
    = struct_now {| se_params := ps'; se_scats := sc'; se_comps := co'; se_structs := st'; se_models := mo' |} s').
  { unfold struct_now. rewrite S1, S2, S3, S4, S5, S6, S7. reflexivity. }
  rewrite N. set (n := struct_now _ s').
  assert (M : forall lam, fst (model ext DFloat (inst_structure v lam n) (v (mo_delta_offset o)) (mo_flip o) X)
            = fst (model ext DFloat (inst_structure v None n) (v (mo_delta_offset o)) (mo_flip o) X)).
  { intros lam. exact (proj1 (model_forgets ext DFloat (inst_structure v None n) lam (v (mo_delta_offset o)) (mo_flip o) X)). }
  pose proof (M (so_wavelength s)) as M1. pose proof (M (so_wavelength s')) as M2.
  destruct (model ext DFloat (inst_structure v (so_wavelength s) n) _ _ _) as [r1 q1].
  destruct (model ext DFloat (inst_structure v (so_wavelength s') n) _ _ _) as [r2 q2]. cbn [fst] in *. congruence.
Qed.

Lemma same_sym w w' : same_session w w' -> same_session w' w.
Proof.
  intros (E1 & E2 & E3 & E4 & E5). unfold same_session; repeat match goal with |- _ /\ _ => apply conj end; auto.
  clear - E5. induction E5 as [|s s' l l' S F IH]; constructor; auto. destruct S as (? & ? & ? & ? & ? & ? & ?). repeat split; auto.
Qed.
Lemma same_trans w1 w2 w3 : same_session w1 w2 -> same_session w2 w3 -> same_session w1 w3.
Proof.
  intros (A1 & A2 & A3 & A4 & A5) (B1 & B2 & B3 & B4 & B5).
  unfold same_session; repeat match goal with |- _ /\ _ => apply conj end; try congruence.
  revert B5. generalize (se_structs w3). clear - A5. induction A5 as [|s s' l l' S F IH]; intros l3 H3; inversion H3 as [|? s2 ? ? S2]; subst; constructor; auto.
  destruct S as (? & ? & ? & ? & ? & ? & ?). destruct S2 as (? & ? & ? & ? & ? & ? & ?). repeat split; congruence.
Qed.

Lemma same_edit w w' a f f' : same_session w w' -> (forall s s', same_struct s s' -> same_struct (f s) (f' s')) ->
  same_session (edit w a f) (edit w' a f').
Proof.
  intros (E1 & E2 & E3 & E4 & E5) F. unfold same_session; repeat match goal with |- _ /\ _ => apply conj end; auto. apply F2_update; auto.
Qed.
Lemma same_with_params w w' f : same_session w w' -> same_session (with_params w (f (se_params w))) (with_params w' (f (se_params w'))).
Proof. intros (E1 & E2 & E3 & E4 & E5). repeat split; cbn; auto. congruence. Qed.
Lemma same_with_scats w w' f : same_session w w' -> same_session (with_scats w (f (se_scats w))) (with_scats w' (f (se_scats w'))).
Proof. intros (E1 & E2 & E3 & E4 & E5). repeat split; cbn; auto. congruence. Qed.
Lemma same_with_comps w w' f : same_session w w' -> same_session (with_comps w (f (se_comps w))) (with_comps w' (f (se_comps w'))).
Proof. intros (E1 & E2 & E3 & E4 & E5). repeat split; cbn; auto. congruence. Qed.
Lemma same_with_models w w' f : same_session w w' -> same_session (with_models w (f (se_models w))) (with_models w' (f (se_models w'))).
Proof. intros (E1 & E2 & E3 & E4 & E5). repeat split; cbn; auto. congruence. Qed.

Lemma same_exists w w' o : same_session w w' -> exists_object w o = exists_object w' o.
Proof.
  intros (E1 & E2 & E3 & E4 & E5). destruct o; cbn [exists_object]; unfold exists_comp, exists_scat, exists_struct; try congruence.
  f_equal. clear - E5. induction E5; cbn; congruence.
Qed.
Lemma same_scat_at w w' a : same_session w w' -> scat_at w a = scat_at w' a.
Proof. intros (E1 & E2 & E3 & E4 & E5). unfold scat_at. congruence. Qed.
Lemma same_new_comp w w' a d : same_session w w' -> same_session (new_comp a d w) (new_comp a d w').
Proof.
  intros H. pose proof H as (E1 & E2 & E3 & E4 & E5). unfold new_comp.
  assert (L : list_attrs w a = list_attrs w' a) by (destruct a; cbn; rewrite ?(same_scat_at w w'), ?(same_scat_at w w' ri_B); auto).
  rewrite L. apply (same_with_comps w w' (fun l => l ++ [_])). exact H.
Qed.
Lemma same_slab_of w w' s : same_session w w' -> same_session (slab_of s w) (slab_of s w').
Proof.
  intros H. unfold slab_of. assert (L : se_params w = se_params w') by apply H. rewrite L. apply same_new_comp.
  rewrite <- L at 1. apply (same_with_params w w' (fun l => l ++ _)). exact H.
Qed.
Lemma data_map_same f s s' : same_struct s s' -> same_struct (data_map f s) (data_map f s').
Proof. intros (? & ? & ? & ? & ? & ? & ?). repeat split; cbn; congruence. Qed.
Ltac same_setter := intros ? ? (? & ? & ? & ? & ? & ? & ?); repeat split; cbn; congruence.
Lemma same_append w w' a o : same_session w w' ->
  fst (append_to w a o) = fst (append_to w' a o) /\ same_session (snd (append_to w a o)) (snd (append_to w' a o)).
Proof.
  intros H. destruct o; cbn [append_to fst snd]; split; auto.
  - apply same_edit; auto. intros; apply data_map_same; auto.
  - assert (L : se_comps w = se_comps w') by apply H. rewrite L. apply same_edit; [apply same_slab_of; auto|].
    intros; apply data_map_same; auto.
Qed.
Lemma same_forallb w w' l : same_session w w' -> forallb (exists_object w) l = forallb (exists_object w') l.
Proof. intros H. induction l; cbn; auto. rewrite IHl, (same_exists w w'); auto. Qed.
Lemma same_forallc w w' l : same_session w w' -> forallb (exists_comp w) l = forallb (exists_comp w') l.
Proof. intros (E1 & E2 & E3 & E4 & E5). unfold exists_comp. rewrite E3. reflexivity. Qed.
Lemma same_attrs_exist w w' a : same_session w w' -> attrs_exist w a = attrs_exist w' a.
Proof. intros (E1 & E2 & E3 & E4 & E5). destruct a; cbn; unfold exists_scat; rewrite ?E2; reflexivity. Qed.

(** an evaluation changes wavelengths only *)
Lemma evaluate_same ext w m X : same_session (snd (execute ext w (Evaluate m X))) w.
Proof.
  cbn [execute]. destruct (evaluation ext w m X) as [r lam]. cbn [snd]. unfold edit.
  repeat split; cbn [se_structs with_structs].
  generalize (mo_struct (model_at w m)). induction (se_structs w); intros [|i]; cbn; constructor; auto using same_refl, same_refl2.
  repeat split.
Qed.

Lemma same_execute ext w w' x : same_session w w' ->
  fst (execute ext w x) = fst (execute ext w' x) /\ same_session (snd (execute ext w x)) (snd (execute ext w' x)).
Proof.
  intros H. pose proof H as (E1 & E2 & E3 & E4 & E5). destruct x; try (cbn [execute]; cbn [fst snd]).
  - split; auto. apply (same_with_params w w' (fun l => l ++ _)). exact H.
  - split; auto. apply (same_with_scats w w' (fun l => l ++ _)). exact H.
  - rewrite (same_attrs_exist w w') by auto. destruct attrs_exist; cbn [fst snd]; split; auto using same_new_comp.
  - rewrite (same_forallb w w') by auto.
    replace (match solvent with Some o => exists_object w o | None => true end)
      with (match solvent with Some o => exists_object w' o | None => true end)
      by (destruct solvent; auto; symmetry; apply same_exists; auto).
    destruct (_ && _); [|cbn [fst snd]; split; auto]. destruct solvent_arg; cbn [fst snd]; split; auto.
    unfold same_session; repeat match goal with |- _ /\ _ => apply conj end; auto. cbn [se_structs with_structs snd]. apply Forall2_app; auto. repeat constructor.
  - rewrite (same_exists w w') by auto. destruct exists_object; [|cbn [fst snd]; split; auto]. destruct s; cbn [fst snd]; split; auto.
    apply (same_with_models w w' (fun l => l ++ _)). exact H.
  - split; auto. apply (same_with_params w w' (fun l => update l p _)). exact H.
  - split; auto. apply (same_with_params w w' (fun l => update l p _)). exact H.
  - rewrite (same_exists w w') by auto. destruct exists_object; [|cbn [fst snd]; split; auto]. apply same_append; auto.
  - rewrite (same_exists w w') by auto. destruct exists_object; [|cbn [fst snd]; split; auto].
    destruct o; try (apply same_append; auto); [].
    cbn [fst snd]. split; auto. apply same_edit; auto. intros s s' S.
    replace (so_data (struct_at w a0)) with (so_data (struct_at w' a0)).
    + apply data_map_same; auto.
    + unfold struct_at. destruct (same_nth _ _ a0 E5). congruence.
  - rewrite (same_forallc w w') by auto. destruct forallb; cbn [fst snd]; split; auto. apply same_edit; auto. intros; apply data_map_same; auto.
  - replace (match o with Some o => exists_object w o | None => true end)
      with (match o with Some o => exists_object w' o | None => true end)
      by (destruct o; auto; symmetry; apply same_exists; auto).
    destruct (match o with Some o => exists_object w' o | None => true end); [|cbn [fst snd]; split; auto].
    destruct solvent_arg; cbn [fst snd]; split; auto. apply same_edit; auto. same_setter.
  - split; auto. apply same_edit; auto. same_setter.
  - split; auto. apply same_edit; auto. same_setter.
  - split; auto. apply same_edit; auto. same_setter.
  - destruct v; try (split; auto; fail). destruct Rle_dec; [destruct Rle_dec|]; cbn [fst snd]; split; auto. apply same_edit; auto. same_setter.
  - rewrite (same_exists w w') by auto. destruct exists_object; [|cbn [fst snd]; split; auto]. destruct o; cbn [fst snd]; split; auto.
    apply (same_with_models w w' (fun l => update l m _)). exact H.
  - split; auto. apply (same_with_models w w' (fun l => update l m _)). exact H.
  - split; auto. apply (same_with_models w w' (fun l => update l m _)). exact H.
  - split.
    + pose proof (same_evaluation ext w w' m X H) as S. cbn [execute].
      destruct (evaluation ext w m X), (evaluation ext w' m X). cbn [fst] in *. congruence.
    + apply (same_trans _ w); [apply evaluate_same|]. apply (same_trans _ w'); auto. apply same_sym, evaluate_same.
  - rewrite (same_attrs_exist w w') by auto. destruct attrs_exist; cbn [fst snd]; split; auto.
    apply (same_with_comps w w' (fun l => update l c _)). exact H.
  - split; auto. apply (same_with_scats w w' (fun l => update l s _)). exact H.
Qed.

Lemma run_same ext l : forall w w', same_session w w' ->
  same_session (run ext w l) (run ext w' (filter (fun x => negb (is_evaluation x)) l)).
Proof.
  induction l as [|x l IH]; intros w w' H; [exact H|]. cbn [filter]. destruct (is_evaluation x) eqn:E; cbn [negb].
  - destruct x; try discriminate. apply IH. apply (same_trans _ w); auto. apply evaluate_same.
  - apply IH. apply same_execute. exact H.
Qed.
Theorem evaluations_leave_no_trace ext l m X :
  fst (evaluation ext (run ext nothing l) m X) =
  fst (evaluation ext (run ext nothing (filter (fun x => negb (is_evaluation x)) l)) m X).
Proof. apply same_evaluation, run_same, same_session_refl. Qed.

Theorem failures_leave_no_trace ext w x e : fst (execute ext w x) = Raise e ->
  same_session (snd (execute ext w x)) w /\ (is_evaluation x = false -> snd (execute ext w x) = w).
Proof.
  intros H. destruct (is_evaluation x) eqn:V.
  - destruct x; try discriminate. split; [apply evaluate_same|discriminate].
  - assert (E : snd (execute ext w x) = w).
    { destruct x; cbn [execute] in *; try discriminate.
      - destruct attrs_exist; [discriminate|reflexivity].
      - destruct (_ && _); [|reflexivity]. destruct solvent_arg; [discriminate|reflexivity].
      - destruct exists_object; [|reflexivity]. destruct s; try discriminate; reflexivity.
      - destruct exists_object; [|reflexivity]. destruct o; try discriminate; reflexivity.
      - destruct exists_object; [|reflexivity]. destruct o; try discriminate; reflexivity.
      - destruct forallb; [discriminate|reflexivity].
      - destruct (match o with Some o => exists_object w o | None => true end); [|reflexivity].
        destruct solvent_arg; [discriminate|reflexivity].
      - destruct v; try reflexivity. destruct Rle_dec; [destruct Rle_dec|]; try discriminate; reflexivity.
      - destruct exists_object; [|reflexivity]. destruct o; try discriminate; reflexivity.
      - destruct attrs_exist; [discriminate|reflexivity]. }
    rewrite E. split; [apply same_session_refl|auto].
Qed.

Theorem wrong_structure ext w m o p : exists_object w o = true -> (forall a, o <> O_struct a) ->
  execute ext w (Set_structure m o) = (Raise ValueError, w) /\ execute ext w (New_model o p) = (Raise ValueError, w).
Proof. intros E N. cbn [execute]. rewrite E. destruct o; auto. destruct (N a eq_refl). Qed.
