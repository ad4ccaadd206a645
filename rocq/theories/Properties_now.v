(** * What an evaluation in a session uses, and the order of the Parameters (C153)

    [pictured w s st]: [st] has the attributes which the structure object [s] has now, with the
    numbers the Parameters have now; [groups k g]: the Parameters of a scatterer by name. *)

Require Import Reals List Bool String.
From Verif Require Import Base M_disp M_struct M_model M_data M_objective M_session Spec_session P_session P_session2 Spec_now P_now.
Import ListNotations.
Open Scope list_scope.
Open Scope R_scope.

(** ** C153 *)
(** a model computes from the present attributes of its structure, components and scatterers *)
Theorem C153_evaluation : forall ext w m X o s st,
  nth_error (se_models w) m = Some o -> nth_error (se_structs w) (mo_struct o) = Some s -> pictured w s st ->
  let r := model ext DFloat st (value_of w (mo_delta_offset o)) (mo_flip o) X in
  fst (evaluation ext w m X) = fst r /\
  fst (execute ext w (Evaluate m X)) = rmap (fun _ => tt) (fst r) /\
  exists s', nth_error (se_structs (snd (execute ext w (Evaluate m X)))) (mo_struct o) = Some s' /\
    so_wavelength s' = st_wavelength (snd r).
Proof. exact evaluates. Qed.
Print Assumptions C153_evaluation.

Theorem C153_picture : forall w s, exists st, pictured w s st.
Proof. exact picture_exists. Qed.
Print Assumptions C153_picture.

(** the order of the Parameters: scatterers, components, models *)
Theorem C153_scatterer : forall ext w m,
  exists o g, nth_error (se_scats (snd (execute ext w (New_scat m)))) (List.length (se_scats w)) = Some o /\
    groups (sct_kind (mt_scat m)) g /\ so_listed o = List.concat g.
Proof. exact scatterer_lists. Qed.
Print Assumptions C153_scatterer.

Theorem C153_component : forall ext w a d, attrs_exist w a = true ->
  exists o, nth_error (se_comps (snd (execute ext w (New_comp a d)))) (List.length (se_comps w)) = Some o /\
    match a with
    | A_Slab t s r v => co_listed o = t :: so_listed (scat_at w s) ++ [r; v]
    | A_Mixed t i j v r => co_listed o = t :: so_listed (scat_at w i) ++ so_listed (scat_at w j) ++ [v; r]
    | A_Custom ps _ => co_listed o = ps
    end.
Proof. exact component_lists. Qed.
Print Assumptions C153_component.

(** the phase offset, the components from the top, the solvent *)
Theorem C153_model : forall w m o s cs,
  nth_error (se_models w) m = Some o -> nth_error (se_structs w) (mo_struct o) = Some s ->
  Forall2 (fun i c => nth_error (se_comps w) i = Some c) (so_data s) cs ->
  exists sv, listed w m = mo_delta_offset o :: List.concat (map co_listed cs) ++ sv /\
    (so_solvent s = None -> sv = []) /\
    (forall i c, so_solvent s = Some i -> nth_error (se_scats w) i = Some c -> sv = so_listed c).
Proof. exact model_lists. Qed.
Print Assumptions C153_model.

(** StructureSE(...) stores its arguments *)
Theorem C153_structure : forall l name solvent reverse contract wl ema dep,
  let s := new_structure l name solvent reverse contract wl ema dep in
  st_name s = name /\ st_solvent s = solvent /\ st_reverse s = reverse /\ st_contract s = contract /\
  st_wavelength s = wl /\ st_ema s = ema /\ st_dep s = dep.
Proof. exact constructor_stores. Qed.
Print Assumptions C153_structure.

(** the session of C100: two components *)
Example C153_example : forall ext, let w := run ext nothing build in
  exists o s cs, nth_error (se_models w) 0 = Some o /\ nth_error (se_structs w) (mo_struct o) = Some s /\
    Forall2 (fun i c => nth_error (se_comps w) i = Some c) (so_data s) cs /\ List.length cs = 2%nat /\
    attrs_exist w (A_Mixed 0%nat 0 1 0%nat 0%nat) = true.
Proof.
  intros ext. cbv zeta. do 3 eexists. split; [reflexivity|]. split; [reflexivity|]. split; [|split].
  - constructor; [reflexivity|]. constructor; [reflexivity|]. constructor.
  - reflexivity.
  - reflexivity.
Qed.
