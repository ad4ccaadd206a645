(** * Specification of sessions *)

Require Import Reals List Bool String.
From Verif Require Import Base M_disp M_struct M_model M_data M_objective M_session.
Import ListNotations.
Open Scope list_scope.
Open Scope R_scope.

(** the Parameters in the attributes of a scatterer *)
Definition attribute_of (k : scat_kind_t) (p : pid) : Prop :=
  match k with
  | T_RI _ | T_Abstract => False
  | T_Cauchy a b c => p = a \/ p = b \/ p = c
  | T_Sellmeier a b c d => p = a \/ p = b \/ p = c \/ p = d
  | T_Lorentz a b c d | T_Gauss _ a b c d => In p a \/ In p b \/ In p c \/ p = d
  | T_TaucLorentz a b c d e => In p a \/ In p b \/ In p c \/ p = d \/ p = e
  | T_User ps _ => In p ps
  end.
Definition scat_has (w : session) (a : nat) (p : pid) : Prop :=
  attribute_of (sct_kind (mt_scat (so_material (scat_at w a)))) p.

(** the Parameters a component refers to, now *)
Definition comp_has (w : session) (c : nat) (p : pid) : Prop :=
  match co_attrs (comp_at w c) with
  | A_Slab t s r v => p = t \/ p = r \/ p = v \/ scat_has w s p
  | A_Mixed t a b v r => p = t \/ p = r \/ p = v \/ scat_has w a p \/ scat_has w b p
  | A_Custom ps _ => In p ps
  end.

(** the Parameters a model refers to, now: delta_offset, those of the components of its structure
    and those of the solvent *)
Definition owned (w : session) (m : nat) (p : pid) : Prop :=
  let s := struct_at w (mo_struct (model_at w m)) in
  p = mo_delta_offset (model_at w m) \/
  (exists c, In c (so_data s) /\ comp_has w c p) \/
  (exists a, so_solvent s = Some a /\ scat_has w a p).

(** no attribute of a component or a scatterer is replaced *)
Definition keeps_attributes (x : statement) : Prop :=
  match x with Set_comp_attrs _ _ | Set_scat_attrs _ _ => False | _ => True end.

Definition is_evaluation (x : statement) : bool := match x with Evaluate _ _ => true | _ => false end.

(** equal but for the wavelength left in structures *)
Definition same_struct (s s' : struct_obj) : Prop :=
  so_data s = so_data s' /\ so_name s = so_name s' /\ so_solvent s = so_solvent s' /\ so_reverse s = so_reverse s' /\
  so_contract s = so_contract s' /\ so_ema s = so_ema s' /\ so_dep s = so_dep s'.
Definition same_session (w w' : session) : Prop :=
  se_params w = se_params w' /\ se_scats w = se_scats w' /\ se_comps w = se_comps w' /\ se_models w = se_models w' /\
  Forall2 same_struct (se_structs w) (se_structs w').
