(** * The Jacobian of a fit (objectiveSE.py:276-398, dispersion.py, structureSE.py:858-922) *)

Require Import Reals.
From Coquelicot Require Import Coquelicot.
Require Import List Bool String Lra.
From Verif Require Import Base Cplx Mat M_ema M_tmm M_disp M_struct M_model M_data M_objective Spec_data Spec_struct Spec_optics Spec_whole Spec_objective Spec_covar Spec_diff Spec_jac Spec_smooth
  P_examples P_objective3 P_jac P_smooth3 P_smooth4 P_jac2 P_jac3.
Import ListNotations.
Open Scope list_scope.
Open Scope R_scope.

(** ** C132: the residuals have partial derivatives in the varying parameters, and central differences
    approach them *)
Theorem C132_jacobian : forall sy o st sel X psi delta, well_formed sy -> has_data sy o sel X -> predicts sy st (ob_model o) X psi delta ->
  let flip := nth (ob_model o) (st_flips st) false in
  let off := value sy st (mo_offset (the_model sy (ob_model o))) in
  List.Forall (fun x => exists p, p_psi x = Some p) sel ->
  Forall2 (fun x d => exists m v, p_delta x = Some m /\ d = Some v /\ off_corners off flip m v) sel delta ->
  (forall j, (j < List.length (varying_parameters sy o))%nat -> ex_derive (moved_offset sy o st j) 0 /\ List.Forall (smooth_point (moved_structure sy o st j)) X) ->
  exists J, partials (2 * List.length sel) (fun v => fst (residuals sy o (Some v) st)) (present sy o st) J.
Proof. exact jacobian_exists. Qed.
Print Assumptions C132_jacobian.
Theorem C132_central : forall sy o st m J, well_formed sy -> (0 < List.length (present sy o st))%nat ->
  partials m (fun v => fst (residuals sy o (Some v) st)) (present sy o st) J ->
  forall eps, 0 < eps -> exists eta, 0 < eta /\ forall e1 e2 h1 h2, (forall x j, 0 < Rabs (h1 x j) < eta) -> (forall x j, 0 < Rabs (h2 x j) < eta) ->
  exists used jac, differentiated sy o (central_differences e1 h1) (central_differences e2 h2) st used jac /\ is_matrix m (List.length (present sy o st)) jac /\
    (used = true <-> List.Forall (fun x => x <> 0) (present sy o st)) /\
    forall i j, (i < m)%nat -> (j < List.length (present sy o st))%nat ->
      Rabs (entry jac i j - entry J i j * (if used then nth j (present sy o st) 0 else 1)) < eps.
Proof. exact jacobian_converges. Qed.
Print Assumptions C132_central.

(** ** C133: indices are differentiable in the parameters of the materials *)
Theorem C133_dispersion : forall (v : R -> pid -> R) s w x n, (forall p, In p (scat_params s) -> ex_derive (fun t => v t p) x) ->
  sc_complex (inst_scat (v x) s) w = Ok (Some n) -> 0 < Re n -> well_behaved (v x) s w ->
  smooth_index (fun t => sc_complex (inst_scat (v t) s) w) x.
Proof. exact scat_smooth. Qed.
Print Assumptions C133_dispersion.
Theorem C133_mixing : forall ema (a b : R -> C) (f : R -> R) d x m, cdiff a x -> cdiff b x -> ex_derive f x -> mix_ok ema (a x) (b x) (f x) d m ->
  exists g, locally x (fun t => overall_ri (a t) (b t) (f t) ema d = Ok (g t)) /\ cdiff g x /\ g x = m.
Proof. exact mix_smooth. Qed.
Print Assumptions C133_mixing.
(** an index that reaches 0 *)
Theorem C133_zero_refuted : exists (v : R -> pid -> R) s w x n, (forall p, In p (scat_params s) -> ex_derive (fun t => v t p) x) /\
  sc_complex (inst_scat (v x) s) w = Ok (Some n) /\ well_behaved (v x) s w /\
  ~ smooth_index (fun t => sc_complex (inst_scat (v t) s) w) x.
Proof. exact (ex_intro _ passing (ex_intro _ empty_t (ex_intro _ (Some 633) (ex_intro _ 0 (ex_intro _ (RtoC 0) (conj (fun p _ => proj1 vf_kink p) (conj (proj1 zero_index) (conj Logic.I (proj2 zero_index))))))))). Qed.
Print Assumptions C133_zero_refuted.
(** a solvent fraction that passes 0: the index of the row has a corner *)
Theorem C133_solvation_refuted : exists (v : R -> pid -> R) s w (n : R -> C), (forall p, ex_derive (fun t => v t p) 0) /\
  (forall t, t < 1 -> exists rows, rows_at (inst_structure (v t) None s) w rows /\ s_ri (nth 1 rows row0) = Some (n t)) /\
  ~ ex_derive (fun t => Re (n t)) 0.
Proof. exact (ex_intro _ passing (ex_intro _ film_t (ex_intro _ 633 (ex_intro _ wet_index vf_kink)))). Qed.
Print Assumptions C133_solvation_refuted.

(** one Lorentz oscillator *)
Example C133_case : forall x, 0 < x -> exists n, sc_complex (inst_scat (fun _ => x) osc_t) (Some 633) = Ok (Some n) /\ 0 < Re n /\ well_behaved (fun _ => x) osc_t (Some 633) /\
  smooth_index (fun t => sc_complex (inst_scat (fun _ => t) osc_t) (Some 633)) x.
Proof. exact lorentz_ex. Qed.

(** ** C134: a fit of slabs and mixed slabs has a Jacobian *)
Theorem C134_structure : forall (v : R -> pid -> R) (wl : R -> option R) s w aoi rows, smooth_structure v s w 0 ->
  rows_at (inst_structure (v 0) (wl 0) s) w rows -> clear_path rows w aoi -> smooth_point (fun t => inst_structure (v t) (wl t) s) (w, aoi).
Proof. exact structure_point. Qed.
Print Assumptions C134_structure.
Theorem C134_fit : forall sy o st sel X psi delta, well_formed sy -> has_data sy o sel X -> predicts sy st (ob_model o) X psi delta ->
  let flip := nth (ob_model o) (st_flips st) false in
  let off := value sy st (mo_offset (the_model sy (ob_model o))) in
  let s := the_structure sy (mo_structure (the_model sy (ob_model o))) in
  List.Forall (fun x => exists p, p_psi x = Some p) sel ->
  Forall2 (fun x d => exists m v, p_delta x = Some m /\ d = Some v /\ off_corners off flip m v) sel delta ->
  (forall p j, In p (model_params sy (ob_model o)) -> p_constraint (sy_params sy p) <> None -> (j < List.length (varying_parameters sy o))%nat ->
     ex_derive (fun t => value sy (moved sy o st j t) p) 0) ->
  slab_ends (st_data (current sy st (ob_model o))) -> (2 <= List.length (stt_data s))%nat ->
  List.Forall (fun c => ct_default_interface c = true) (stt_data s) -> stt_contract s <= 0 ->
  List.Forall (fun x => List.Forall (smooth_component (value sy st) s (fst x)) (stt_data s) /\
    (forall j, (j < List.length (varying_parameters sy o))%nat -> settled (fun t => value sy (moved sy o st j t)) s (fst x) 0) /\
    exists rows, rows_at (current sy st (ob_model o)) (fst x) rows /\ clear_path rows (fst x) (snd x)) X ->
  exists J, partials (2 * List.length sel) (fun v => fst (residuals sy o (Some v) st)) (present sy o st) J.
Proof. exact fit_jacobian. Qed.
Print Assumptions C134_fit.

(** glass of index A = 1.56 (Cauchy) in air; A and delta_offset vary *)
Example C134_case : exists psi delta,
  well_formed sys_j /\ has_data sys_j ob_j [pt_j] [(633, ex_aoi)] /\ predicts sys_j st_j 0%nat [(633, ex_aoi)] psi delta /\
  present sys_j ob_j st_j = [5; 39 / 25] /\
  (exists J, partials 2 (fun v => fst (residuals sys_j ob_j (Some v) st_j)) (present sys_j ob_j st_j) J).
Proof. exact example_j. Qed.
