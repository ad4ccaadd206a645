(** * Specification of sessions with every call that looks at the objects *)

Require Import Reals List Bool String ZArith.
From Verif Require Import Base M_disp M_struct M_model M_data M_objective M_session M_life M_fit M_plot M_covar M_views.
From Verif Require Import Spec_data Spec_objective Spec_session Spec_life Spec_fit.
Import ListNotations.
Open Scope list_scope.
Open Scope R_scope.

(** calls without parameter values: evaluations, plots of data and of profiles, covar *)
Definition looks (x : full_statement) : bool :=
  match x with
  | V_do (W_residuals _ None) | V_do (W_chisqr _ None) | V_do (W_logp _ None) | V_do (W_logl _ None) | V_do (W_logpost _ None)
  | V_do (W_session (Evaluate _ _)) | V_do (W_data (L_save _)) => true
  | V_model _ _ None | V_plot _ _ | V_ellips _ _ _ _ _ | V_covar _ _ _ _ => true
  | V_profile _ None samples _ _ => (samples <=? 0)%Z
  | _ => false
  end.

(** parameters that vary have no constraint; approx_derivative probes with vectors of the length it was given;
    no samples are drawn *)
Definition proper (x : full_statement) : Prop :=
  match x with
  | V_do (W_session (New_param q _)) | V_do (W_session (Set_param _ q)) => p_vary q = true -> p_constraint q = None
  | V_covar _ a1 a2 _ => forall v, visits (List.length v) (a1 v) /\ visits (List.length v) (a2 v)
  | V_profile _ _ samples _ _ => (samples <= 0)%Z
  | _ => True
  end.

(** as Spec_fit.one_convention, keeps_lists *)
Fixpoint one_convention_all (ext : externals) (pf : string -> option num) (w : world) (m : nat) (b : bool) (l : list full_statement) : Prop :=
  match l with
  | [] => True
  | x :: l' =>
      match x with
      | V_do (W_model _ _) | V_do (W_dataset _ _) | V_do (W_session (Set_flip _ _)) => False
      | V_do (W_objective m' d _ _) => m' = m -> ds_flipped (set_at (wo_life w) d) = b
      | _ => True
      end /\ one_convention_all ext pf (snd (perform_all ext pf w x)) m b l'
  end.
Definition keeps_all (x : full_statement) : Prop := match x with V_do x => keeps_lists x | _ => True end.

(** all that can be asked of the objectives *)
Definition same_answers (ext : externals) (w w' : world) : Prop := forall o v,
  fst (w_residuals ext w o v) = fst (w_residuals ext w' o v) /\ fst (w_chisqr ext w o v) = fst (w_chisqr ext w' o v) /\
  fst (w_logp w o v) = fst (w_logp w' o v) /\ fst (w_logl ext w o v) = fst (w_logl ext w' o v) /\
  fst (w_logpost ext w o v) = fst (w_logpost ext w' o v).

(** plot_structure(objective o) or plot_structure(structure a) is about structure [k] *)
Definition target (w : world) (o a : option nat) (k : nat) : Prop :=
  (o = None /\ a = Some k) \/
  (exists i, o = Some i /\ a = None /\ k = mo_struct (model_at (wo_session w) (oo_model (obj_at w i)))).
