(** * Specification of fitting sessions *)

Require Import Reals List Bool String ZArith.
From Verif Require Import Base M_disp M_struct M_model M_data M_objective M_session M_life M_fit Spec_data Spec_session Spec_life.
Import ListNotations.
Open Scope list_scope.
Open Scope R_scope.

(** the structure that model [m] holds now, with the numbers its parameters have now *)
Definition structure_of (w : world) (m : nat) : structure :=
  let s := wo_session w in
  inst_structure (value_of s) None (struct_now s (struct_at s (mo_struct (model_at s m)))).
Definition offset_of (w : world) (m : nat) : R := value_of (wo_session w) (mo_delta_offset (model_at (wo_session w) m)).
(** the dataset of objective [o] *)
Definition data_of (w : world) (o : nat) : dataset := set_at (wo_life w) (oo_data (obj_at w o)).

(** what is left of a statement whose result nobody looks at *)
Definition effect (x : world_statement) : list world_statement :=
  match x with
  | W_residuals o v | W_chisqr o v | W_logp o v | W_logl o v | W_logpost o v => [W_setp o v]
  | W_session (Evaluate _ _) | W_data (L_save _) => []
  | x => [x]
  end.

(** model and data of no objective are replaced, and every objective of model [m] is made with data
    whose delta is folded ([b] = true) or not folded ([b] = false) *)
Fixpoint one_convention (ext : externals) (pf : string -> option num) (w : world) (m : nat) (b : bool) (l : list world_statement) : Prop :=
  match l with
  | [] => True
  | x :: l' =>
      match x with
      | W_model _ _ | W_dataset _ _ | W_session (Set_flip _ _) => False
      | W_objective m' d _ _ => m' = m -> ds_flipped (set_at (wo_life w) d) = b
      | _ => True
      end /\ one_convention ext pf (snd (perform ext pf w x)) m b l'
  end.

(** the statements on datasets *)
Definition on_data (x : world_statement) : list op := match x with W_data o => [o] | _ => [] end.
(** none of the statements touches dataset [d] or folds the delta of another dataset *)
Definition leaves_data (d : nat) (x : world_statement) : Prop :=
  match x with W_data o => ~ about d o /\ ~ folding_copy o | _ => True end.
(** ... or replaces an attribute of a component or a scatterer *)
Definition keeps_lists (x : world_statement) : Prop :=
  match x with W_session x => keeps_attributes x | _ => True end.

(** a point of the data and a prediction agree, delta up to whole turns *)
Definition agrees (x : point) (pd : R * R) : Prop :=
  p_psi x = Some (fst pd) /\ exists (y : R) (k : Z), p_delta x = Some y /\ snd pd - y = IZR k * 360.
