(** * Properties of fitting sessions with every call that looks at the objects: C147.

    [full_session ext pf start l]: what the statements [l] leave, one after the other.  [V_do x]: a statement
    of Properties_fit; the others are model(x, p), ObjectiveSE.plot, plot_ellipsdata, plot_structure,
    StructureSE.plot and covar (M_views).  [looks], [proper], [same_answers], [target], [one_convention_all],
    [keeps_all]: Spec_views.  The rest as in Properties_fit. *)

Require Import Reals List Bool String ZArith.
From Coquelicot Require Import Complex.
From Verif Require Import Base M_disp M_struct M_model M_data M_objective M_session M_life M_fit M_plot M_covar M_views.
From Verif Require Import Spec_struct Spec_optics Spec_whole Spec_data Spec_objective Spec_session Spec_life Spec_fit Spec_views.
From Verif Require Import P_whole P_whole2 P_fit P_fit2 P_fit3 P_fit4 P_film P_identex P_views P_views2 P_views3 P_views4.
Import ListNotations.
Open Scope list_scope.
Open Scope R_scope.

(** calls that only look can be deleted from a session: every objective answers the same afterwards *)
Theorem C147_no_trace : forall ext pf l, Forall proper l ->
  same_answers ext (full_session ext pf start l) (full_session ext pf start (filter (fun x => negb (looks x)) l)).
Proof. exact looking_leaves_no_trace. Qed.
Print Assumptions C147_no_trace.

Example C147_no_trace_example : forall svd, Forall proper (wet_watched svd) /\
  filter (fun x => negb (looks x)) (wet_watched svd) = map V_do (wet_fit false) /\
  filter looks (wet_watched svd) =
    [V_plot 0 (Some "aoi"%string); V_covar 0 probing probing svd; V_profile 0 None 0 (Ok []) 0; V_model 0 [(633, 30)] None;
     V_ellips None None (Some 0%nat) "wavelength"%string true; V_do (W_logpost 0 None)].
Proof. intros svd. split; [exact (watched_proper svd)|split; reflexivity]. Qed.

(** plot_structure is not among them: it stands for structure.reverse_structure = False, or, if drawing fails,
    for nothing or reverse_structure = reverse *)
Theorem C147_structure : forall ext pf l o a reverse k later, let w := full_session ext pf start l in
  Forall proper l -> Forall proper later -> target w o a k -> exists_all w (V_structure o a reverse) = true ->
  let after x := full_session ext pf (snd (perform_all ext pf w x)) later in
  let turn b := V_do (W_session (Set_reverse k b)) in
  match fst (perform_all ext pf w (V_structure o a reverse)) with
  | Ok _ => same_answers ext (after (V_structure o a reverse)) (after (turn false))
  | Raise _ => same_answers ext (after (V_structure o a reverse)) (full_session ext pf w later) \/
               same_answers ext (after (V_structure o a reverse)) (after (turn reverse))
  end.
Proof. exact structure_plot. Qed.
Print Assumptions C147_structure.

Example C147_structure_example : forall ext pf, let w := full_session ext pf start dense_fit in
  Forall proper dense_fit /\ target w (Some 0%nat) None 0 /\ exists_all w (V_structure (Some 0%nat) None false) = true /\
  fst (perform_all ext pf w (V_structure (Some 0%nat) None false)) = Ok tt.
Proof.
  intros ext pf w. destruct (plot_structure_counts ext pf) as (A & B & _). split; [exact A|].
  split; [right; exists 0%nat; repeat split|]. split; [reflexivity|exact B].
Qed.

(** and it changes residuals: light that met index 4 and then 3 at Brewster's angle meets 3 and then 4 *)
Theorem C147_structure_refuted : exists l, forall ext pf,
  let w := full_session ext pf start l in let w' := full_session ext pf start (l ++ [V_structure (Some 0%nat) None false]) in
  Forall proper l /\ fst (perform_all ext pf w (V_structure (Some 0%nat) None false)) = Ok tt /\
  (exists d, fst (w_residuals ext w 0 None) = Ok [Some 0; d]) /\
  (exists r d, r <> 0 /\ fst (w_residuals ext w' 0 None) = Ok [Some r; d]).
Proof. exact (ex_intro _ dense_fit plot_structure_counts). Qed.
Print Assumptions C147_structure_refuted.

(** C130_theory, after any such session: the residuals are differences between measured and theoretical
    psi and delta *)
Theorem C147_theory : forall ext pf l o pts mk sel X stacks,
  let w := full_session ext pf start l in let m := oo_model (obj_at w o) in let S := structure_of w m in
  (o < List.length (wo_objs w))%nat -> one_convention_all ext pf start m (ds_flipped (data_of w o)) l ->
  holds (lf_heap (wo_life w)) (data_of w o) pts -> ds_mask (data_of w o) = MBool mk -> kept mk pts sel -> Forall2 Spec_objective.measured sel X ->
  slab_ends (st_data S) -> Forall (fun c => c_default_interface c = true) (st_data S) -> st_contract S <= 0 ->
  Forall2 (lit_structure S) X stacks -> Forall reflecting stacks ->
  exists pds,
    Forall2 (Spec_whole.measured (offset_of w m) (ds_flipped (data_of w o))) stacks pds /\ List.length pds = List.length sel /\
    (exists rpsi rdelta, fst (w_residuals ext w o None) = Ok (rpsi ++ rdelta) /\
      Forall2 (fun xp r => minus (Some (fst (snd xp))) (p_psi (fst xp)) r) (combine sel pds) rpsi /\
      Forall2 (fun xp r => distance (Some (snd (snd xp))) (p_delta (fst xp)) r) (combine sel pds) rdelta) /\
    (forall c, fst (w_chisqr ext w o None) = Ok (Some c) ->
      Forall (fun x => forall y, p_delta x = Some y -> offset_of w m <= y <= offset_of w m + 360) sel ->
      (c = 0 <-> Forall2 agrees sel pds)).
Proof. exact theory_all. Qed.
Print Assumptions C147_theory.

Example C147_theory_example : forall ext pf svd,
  let w := full_session ext pf start (wet_watched svd) in let m := oo_model (obj_at w 0) in let S := structure_of w m in
  let x := (Some 633, Some 30, Some 20, Some 150) in
  (0 < List.length (wo_objs w))%nat /\ one_convention_all ext pf start m (ds_flipped (data_of w 0)) (wet_watched svd) /\
  holds (lf_heap (wo_life w)) (data_of w 0) [x] /\ ds_mask (data_of w 0) = MBool [true] /\ kept [true] [x] [x] /\ Forall2 Spec_objective.measured [x] [(633, 30)] /\
  slab_ends (st_data S) /\ Forall (fun c => c_default_interface c = true) (st_data S) /\ st_contract S <= 0 /\
  Forall2 (lit_structure S) [(633, 30)] [wet_stack] /\ Forall reflecting [wet_stack] /\
  Forall (fun x => forall y, p_delta x = Some y -> offset_of w m <= y <= offset_of w m + 360) [x].
Proof. exact watched_ok. Qed.

(** covar, model(x, p) and StructureSE.plot give in a session what C109-C114, C14 and C91 are about *)
Theorem C147_covar : forall ext pf l o a1 a2 svd, let w := full_session ext pf start l in Forall keeps_all l ->
  (forall p, In p (parameters_now w o) -> (p < List.length (se_params (wo_session w)))%nat) ->
  fst (w_covar ext w o a1 a2 svd) = fst (covariance (system_now ext w) (objective_now w o) a1 a2 svd (state_now w)).
Proof. exact covar_of_session. Qed.
Print Assumptions C147_covar.

Theorem C147_model : forall ext pf l m X p, let w := full_session ext pf start l in Forall keeps_all l ->
  (forall p, In p (listed (wo_session w) m) -> (p < List.length (se_params (wo_session w)))%nat) ->
  fst (w_model ext w m X p) = fst (call_model_p (system_now ext w) m X p (state_now w)).
Proof. exact model_of_session. Qed.
Print Assumptions C147_model.

Theorem C147_profile : forall ext pf l a pvals samples chain align, let w := full_session ext pf start l in Forall keeps_all l ->
  (forall p, In p (listed_struct (wo_session w) (struct_at (wo_session w) a)) -> (p < List.length (se_params (wo_session w)))%nat) ->
  let r := plot_profile (system_now ext w) a pvals samples chain align (state_now w) in
  fst (w_draw ext w a pvals samples chain align) = fst r /\ state_now (snd (w_draw ext w a pvals samples chain align)) = snd r /\
  system_now ext (snd (w_draw ext w a pvals samples chain align)) = system_now ext w.
Proof. exact profile_of_session. Qed.
Print Assumptions C147_profile.

Example C147_lists_example : forall ext pf svd, let w := full_session ext pf start (wet_watched svd) in
  Forall keeps_all (wet_watched svd) /\
  parameters_now w 0 = [3; 0; 0; 0; 1; 0; 2; 0; 0; 0]%nat /\ varying_now w 0 = [1]%nat /\ listed (wo_session w) 0 = [3; 0; 0; 0; 1; 0; 2; 0; 0; 0]%nat /\
  listed_struct (wo_session w) (struct_at (wo_session w) 0) = [0; 0; 0; 1; 0; 2; 0; 0; 0]%nat /\ List.length (se_params (wo_session w)) = 4%nat.
Proof. intros ext pf svd w. split; [exact (watched_keeps svd)|exact (watched_parameters ext pf svd)]. Qed.
