(** * Properties of fitting sessions.

    [session_of ext pf start l]: what the statements [l] leave, one after the other, when nothing exists before
    the first.  [structure_of w m], [offset_of w m]: the structure and delta_offset that model [m] has
    in [w]; [data_of w o]: the dataset of objective [o] (Spec_fit).  [holds], [kept]: Spec_data.
    [lit_structure S x st]: light of the wavelength and angle [x] meets the media [st] in structure [S];
    [Spec_whole.measured off flip st pd]: [pd] are psi and delta of the light that Maxwell's boundary conditions
    reflect from [st].  [one_convention], [effect], [keeps_lists], [leaves_data], [agrees]: Spec_fit. *)

Require Import Reals List Bool String Lia.
From Verif Require Import Base M_disp M_struct M_model M_data M_objective M_session M_life M_fit.
From Verif Require Import Spec_struct Spec_optics Spec_whole Spec_data Spec_objective Spec_session Spec_life Spec_fit.
From Verif Require Import P_fit P_fit2 P_fit3 P_fit4 P_whole2.
Import ListNotations.
Open Scope list_scope.
Open Scope R_scope.

(** ** C130.  Calls whose result is dropped can be replaced by the setp they contain *)
Theorem C130_no_trace : forall ext pf l o v,
  let w := session_of ext pf start l in let w' := session_of ext pf start (flat_map effect l) in
  fst (w_residuals ext w o v) = fst (w_residuals ext w' o v) /\ fst (w_chisqr ext w o v) = fst (w_chisqr ext w' o v) /\
  fst (w_logp w o v) = fst (w_logp w' o v) /\ fst (w_logl ext w o v) = fst (w_logl ext w' o v) /\
  fst (w_logpost ext w o v) = fst (w_logpost ext w' o v).
Proof. exact calls_leave_no_trace. Qed.
Print Assumptions C130_no_trace.

(** the model folds delta exactly when the data of the objective are folded *)
Theorem C130_convention : forall ext pf l o, let w := session_of ext pf start l in (o < List.length (wo_objs w))%nat ->
  one_convention ext pf start (oo_model (obj_at w o)) (ds_flipped (data_of w o)) l ->
  mo_flip (model_at (wo_session w) (oo_model (obj_at w o))) = ds_flipped (data_of w o).
Proof. exact right_convention. Qed.
Print Assumptions C130_convention.

(** ... which fails when two objectives share a model and their data do not share a convention *)
Theorem C130_convention_refuted : exists l, forall ext pf, let w := session_of ext pf start l in
  Forall keeps_lists l /\ (0 < List.length (wo_objs w))%nat /\
  mo_flip (model_at (wo_session w) (oo_model (obj_at w 0))) = true /\ ds_flipped (data_of w 0) = false.
Proof. exists two_sets. exact wrong_convention. Qed.
Print Assumptions C130_convention_refuted.

(** after any session: residuals and chi-squared compare the data as they are now with Maxwell's
    psi and delta of the structure as it is now *)
Theorem C130_theory : forall ext pf l o pts mk sel X stacks,
  let w := session_of ext pf start l in let m := oo_model (obj_at w o) in let S := structure_of w m in
  (o < List.length (wo_objs w))%nat -> one_convention ext pf start m (ds_flipped (data_of w o)) l ->
  holds (lf_heap (wo_life w)) (data_of w o) pts -> ds_mask (data_of w o) = MBool mk -> kept mk pts sel -> Forall2 Spec_objective.measured sel X ->
  slab_ends (st_data S) -> Forall (fun c => c_default_interface c = true) (st_data S) -> st_contract S <= 0 ->
  Forall2 (lit_structure S) X stacks -> Forall reflecting stacks ->
  exists pds,
    Forall2 (Spec_whole.measured (offset_of w m) (ds_flipped (data_of w o))) stacks pds /\ List.length pds = List.length sel /\
    (exists rpsi rdelta, fst (w_residuals ext w o None) = Ok (rpsi ++ rdelta) /\
      Forall2 (fun xp r => minus (Some (fst (snd xp))) (p_psi (fst xp)) r) (combine sel pds) rpsi /\
      Forall2 (fun xp r => distance (Some (snd (snd xp))) (p_delta (fst xp)) r) (combine sel pds) rdelta) /\
    (forall c, fst (w_chisqr ext w o None) = Ok (Some c) ->
      Forall (fun x => forall y, p_delta x = Some y -> offset_of w m <= y <= offset_of w m + 360) sel ->
      (c = 0 <-> Forall2 agrees sel pds)).
Proof. exact session_theory. Qed.
Print Assumptions C130_theory.

Example C130_theory_example : forall ext pf,
  let w := session_of ext pf start (wet_fit false) in let m := oo_model (obj_at w 0) in let S := structure_of w m in
  let x := (Some 633, Some 30, Some 20, Some 150) in
  (0 < List.length (wo_objs w))%nat /\ one_convention ext pf start m (ds_flipped (data_of w 0)) (wet_fit false) /\
  holds (lf_heap (wo_life w)) (data_of w 0) [x] /\ ds_mask (data_of w 0) = MBool [true] /\ kept [true] [x] [x] /\ Forall2 Spec_objective.measured [x] [(633, 30)] /\
  slab_ends (st_data S) /\ Forall (fun c => c_default_interface c = true) (st_data S) /\ st_contract S <= 0 /\
  Forall2 (lit_structure S) [(633, 30)] [wet_stack] /\ Forall reflecting [wet_stack] /\
  Forall (fun x => forall y, p_delta x = Some y -> offset_of w m <= y <= offset_of w m + 360) [x].
Proof. exact wet_session_ok. Qed.

(** a dataset that got its own columns keeps its points whatever is done to other datasets, arrays,
    models and objectives, unless the delta of a copy is folded *)
Theorem C130_data : forall ext pf l0 x l d pts,
  let w := session_of ext pf start l0 in let w1 := snd (perform ext pf w (W_data x)) in let w2 := session_of ext pf w1 l in
  fst (perform ext pf w (W_data x)) = Ok tt -> own_columns (wo_life w) d x -> Forall (leaves_data d) l ->
  holds (lf_heap (wo_life w1)) (set_at (wo_life w1) d) pts ->
  holds (lf_heap (wo_life w2)) (set_at (wo_life w2) d) pts /\ set_at (wo_life w2) d = set_at (wo_life w1) d.
Proof. exact data_stay. Qed.
Print Assumptions C130_data.

Example C130_data_example : forall ext pf,
  let w := session_of ext pf start (wet_build ++ wet_data false) in let w1 := snd (perform ext pf w (W_data wet_assign)) in
  fst (perform ext pf w (W_data wet_assign)) = Ok tt /\ own_columns (wo_life w) 0 wet_assign /\ Forall (leaves_data 0) wet_later /\
  holds (lf_heap (wo_life w1)) (set_at (wo_life w1) 0) [(Some 600, Some 40, Some 21, Some 100)].
Proof. exact wet_data_stay. Qed.

(** as long as no attribute of a component or scatterer is replaced, a call gives what the objective of the
    other properties (C04-C12, C84, C109-C114) gives for the objects as they are now *)
Theorem C130_objective : forall ext pf l o v, let w := session_of ext pf start l in Forall keeps_lists l ->
  (forall p, In p (parameters_now w o) -> (p < List.length (se_params (wo_session w)))%nat) ->
  fst (w_setp w o v) = fst (setp (system_now ext w) (objective_now w o) v (state_now w)) /\
  state_now (snd (w_setp w o v)) = snd (setp (system_now ext w) (objective_now w o) v (state_now w)) /\
  fst (w_residuals ext w o v) = fst (residuals (system_now ext w) (objective_now w o) v (state_now w)) /\
  fst (w_chisqr ext w o v) = fst (chisqr (system_now ext w) (objective_now w o) v (state_now w)) /\
  fst (w_logp w o v) = fst (logp (system_now ext w) (objective_now w o) v (state_now w)) /\
  fst (w_logl ext w o v) = fst (logl (system_now ext w) (objective_now w o) v (state_now w)) /\
  fst (w_logpost ext w o v) = fst (logpost (system_now ext w) (objective_now w o) v (state_now w)).
Proof. exact objective_of_session. Qed.
Print Assumptions C130_objective.

Example C130_objective_example : forall ext pf, let w := session_of ext pf start (wet_fit false) in
  Forall keeps_lists (wet_fit false) /\
  parameters_now w 0 = [3; 0; 0; 0; 1; 0; 2; 0; 0; 0]%nat /\ varying_now w 0 = [1]%nat /\
  (forall p, In p (parameters_now w 0) -> (p < List.length (se_params (wo_session w)))%nat).
Proof. intros ext pf. split; [exact wet_keeps|exact (wet_parameters ext pf)]. Qed.
