(** * Proofs: evaluations use what the attributes are now *)

Require Import Reals List Bool String.
From Verif Require Import Base M_disp M_struct M_model M_data M_objective M_session Spec_now.
Import ListNotations.
Open Scope list_scope.
Open Scope R_scope.

Lemma oscillators_is (v : pid -> R) : forall a b c os, oscillators_now v a b c os <-> os = oscillators v a b c.
Proof.
  unfold oscillators. induction a as [|x a IH]; intros [|y b] [|z c] os; cbn [oscillators_now map combine]; try reflexivity.
  destruct os as [|[[p q] r] os]; [split; [tauto|discriminate]|]. rewrite IH. split.
  - intros (-> & -> & -> & ->). reflexivity.
  - intros K. injection K as -> -> -> ->. auto.
Qed.
Lemma scatterer_is v t s : scatterer_now v t s -> s = inst_scat v t.
Proof.
  destruct t as [k wl nm], s as [k' wl' nm']. unfold scatterer_now, inst_scat. cbn [sct_kind sct_wavelength sct_name sc_kind sc_wavelength sc_name].
  intros (-> & -> & H). f_equal. destruct k, k'; try contradiction; try rewrite !oscillators_is in H;
    repeat match goal with H : _ /\ _ |- _ => destruct H end; subst; reflexivity.
Qed.
Lemma scatterer_picture v t : scatterer_now v t (inst_scat v t).
Proof.
  destruct t as [k wl nm]. unfold scatterer_now, inst_scat. cbn [sct_kind sct_wavelength sct_name sc_kind sc_wavelength sc_name].
  split; [reflexivity|]. split; [reflexivity|]. destruct k; try rewrite !oscillators_is; auto.
Qed.
Lemma material_is w i m : material_now w i m -> m = inst_material (value_of w) (so_material (scat_at w i)).
Proof. intros (H1 & H2). destruct m as [s d]. cbn [m_scat m_dispersive] in *. apply scatterer_is in H1. subst. reflexivity. Qed.
Lemma material_picture w i : material_now w i (inst_material (value_of w) (so_material (scat_at w i))).
Proof. split; [apply scatterer_picture|reflexivity]. Qed.

Lemma component_is w i k : component_now w i k -> k = inst_component (value_of w) (comp_now w (comp_at w i)).
Proof.
  unfold component_now, comp_now. destruct (comp_at w i) as [a d l]. destruct k as [k d'].
  cbn [co_attrs co_default_interface c_kind c_default_interface]. intros (-> & H). unfold inst_component. cbn [ct_kind ct_default_interface].
  destruct a, k; try contradiction.
  - destruct H as (-> & M & -> & ->). rewrite (material_is _ _ _ M). reflexivity.
  - destruct H as (-> & M & N & -> & ->). rewrite (material_is _ _ _ M), (material_is _ _ _ N). reflexivity.
  - subst. reflexivity.
Qed.
Lemma component_picture w i : component_now w i (inst_component (value_of w) (comp_now w (comp_at w i))).
Proof.
  unfold component_now, comp_now. destruct (comp_at w i) as [a d l]. cbn [co_attrs co_default_interface].
  unfold inst_component. cbn [ct_kind ct_default_interface c_kind c_default_interface]. split; [reflexivity|].
  destruct a; repeat split; try reflexivity; apply scatterer_picture.
Qed.

Lemma picture_is w s st : pictured w s st -> st = inst_structure (value_of w) (so_wavelength s) (struct_now w s).
Proof.
  intros (D & H1 & H2 & H3 & H4 & H5 & H6 & H7). destruct st as [da na so re co wl em de].
  cbn [st_data st_name st_solvent st_reverse st_contract st_wavelength st_ema st_dep] in *. subst.
  unfold inst_structure, struct_now. cbn [stt_data stt_name stt_solvent stt_reverse stt_contract stt_ema stt_dep].
  f_equal.
  - induction D as [|i k l m E D IH]; [reflexivity|]. cbn [map]. rewrite <- (component_is _ _ _ E), IH. reflexivity.
  - destruct (so_solvent s), so; try contradiction; [|reflexivity]. f_equal. cbn. apply scatterer_is. assumption.
Qed.
Lemma picture_exists w s : exists st, pictured w s st.
Proof.
  exists (inst_structure (value_of w) (so_wavelength s) (struct_now w s)). split.
  - cbn [inst_structure st_data struct_now stt_data]. induction (so_data s) as [|i l IH]; [constructor|].
    cbn [map]. constructor; [apply component_picture|exact IH].
  - repeat (split; [reflexivity|]). cbn. destruct (so_solvent s); [apply scatterer_picture|exact I].
Qed.

Lemma evaluates ext w m X o s st :
  nth_error (se_models w) m = Some o -> nth_error (se_structs w) (mo_struct o) = Some s -> pictured w s st ->
  let r := model ext DFloat st (value_of w (mo_delta_offset o)) (mo_flip o) X in
  fst (evaluation ext w m X) = fst r /\
  fst (execute ext w (Evaluate m X)) = rmap (fun _ => tt) (fst r) /\
  exists s', nth_error (se_structs (snd (execute ext w (Evaluate m X)))) (mo_struct o) = Some s' /\
    so_wavelength s' = st_wavelength (snd r).
Proof.
  intros Hm Hs P. rewrite (picture_is _ _ _ P). cbv zeta.
  assert (model_at w m = o) as Em by (unfold model_at; apply nth_error_nth; exact Hm).
  assert (struct_at w (mo_struct o) = s) as Es by (unfold struct_at; apply nth_error_nth; exact Hs).
  cbn [execute]. unfold evaluation. rewrite Em, Es.
  destruct (model ext DFloat (inst_structure (value_of w) (so_wavelength s) (struct_now w s)) (value_of w (mo_delta_offset o)) (mo_flip o) X) as [r s'].
  cbn [fst snd]. split; [reflexivity|]. split; [reflexivity|].
  unfold edit. cbn [se_structs with_structs]. clear -Hs.
  exists (wavelength_to (st_wavelength s') s). split; [|reflexivity].
  revert Hs. generalize (mo_struct o) as n. induction (se_structs w) as [|x l IH]; intros [|n] H; try discriminate.
  - injection H as ->. reflexivity.
  - cbn [update nth_error]. apply IH. exact H.
Qed.

Lemma scatterer_lists ext w m :
  exists o g, nth_error (se_scats (snd (execute ext w (New_scat m)))) (List.length (se_scats w)) = Some o /\
    groups (sct_kind (mt_scat m)) g /\ so_listed o = List.concat g.
Proof.
  cbn [execute snd with_scats se_scats]. rewrite nth_error_app2, Nat.sub_diag by apply Nat.le_refl.
  destruct m as [[k wl nm] d]. cbn [mt_scat sct_kind]. 
  destruct k; eexists; eexists; (split; [reflexivity|]); (split; [reflexivity|]); cbn; rewrite ?app_nil_r; reflexivity.
Qed.
Lemma component_lists ext w a d : attrs_exist w a = true ->
  exists o, nth_error (se_comps (snd (execute ext w (New_comp a d)))) (List.length (se_comps w)) = Some o /\
    match a with
    | A_Slab t s r v => co_listed o = t :: so_listed (scat_at w s) ++ [r; v]
    | A_Mixed t i j v r => co_listed o = t :: so_listed (scat_at w i) ++ so_listed (scat_at w j) ++ [v; r]
    | A_Custom ps _ => co_listed o = ps
    end.
Proof.
  intros E. cbn [execute]. rewrite E. cbn [snd new_comp with_comps se_comps].
  rewrite nth_error_app2, Nat.sub_diag by apply Nat.le_refl. eexists. split; [reflexivity|]. destruct a; reflexivity.
Qed.
Lemma model_lists w m o s cs :
  nth_error (se_models w) m = Some o -> nth_error (se_structs w) (mo_struct o) = Some s ->
  Forall2 (fun i c => nth_error (se_comps w) i = Some c) (so_data s) cs ->
  exists sv, listed w m = mo_delta_offset o :: List.concat (map co_listed cs) ++ sv /\
    (so_solvent s = None -> sv = []) /\
    (forall i c, so_solvent s = Some i -> nth_error (se_scats w) i = Some c -> sv = so_listed c).
Proof.
  intros Hm Hs F.
  assert (model_at w m = o) as Em by (unfold model_at; apply nth_error_nth; exact Hm).
  assert (struct_at w (mo_struct o) = s) as Es by (unfold struct_at; apply nth_error_nth; exact Hs).
  exists (match so_solvent s with Some a => so_listed (scat_at w a) | None => [] end).
  unfold listed, listed_struct. rewrite Em, Es. split; [|split].
  - f_equal. f_equal. clear -F. induction F as [|i c l cs E F IH]; [reflexivity|]. cbn [flat_map map List.concat]. rewrite IH. f_equal.
    unfold comp_at. rewrite (nth_error_nth _ _ _ E). reflexivity.
  - intros ->. reflexivity.
  - intros i c -> E. unfold scat_at. rewrite (nth_error_nth _ _ _ E). reflexivity.
Qed.

Lemma constructor_stores l name solvent reverse contract wl ema dep :
  let s := new_structure l name solvent reverse contract wl ema dep in
  st_name s = name /\ st_solvent s = solvent /\ st_reverse s = reverse /\ st_contract s = contract /\
  st_wavelength s = wl /\ st_ema s = ema /\ st_dep s = dep.
Proof. repeat split. Qed.
