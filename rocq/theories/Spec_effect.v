(** * Specification: what a statement changes, and what it leaves alone *)

Require Import Reals List Bool String.
From Verif Require Import Base M_disp M_struct M_model M_data M_objective M_session.
Import ListNotations.
Open Scope list_scope.
Open Scope R_scope.

(** the list is the same but for the element number i, which is related to the old one *)
Definition changed {A} (i : nat) (P : A -> A -> Prop) (l l' : list A) : Prop :=
  List.length l' = List.length l /\
  (forall j, j <> i -> nth_error l' j = nth_error l j) /\
  forall x, nth_error l i = Some x -> exists y, nth_error l' i = Some y /\ P x y.

(** only the Parameters / scatterers / components / structures / models are different *)
Definition only_params (Q : list (param * R) -> list (param * R) -> Prop) (w w' : session) : Prop :=
  Q (se_params w) (se_params w') /\ se_scats w' = se_scats w /\ se_comps w' = se_comps w /\
  se_structs w' = se_structs w /\ se_models w' = se_models w.
Definition only_scats (Q : list scat_obj -> list scat_obj -> Prop) (w w' : session) : Prop :=
  se_params w' = se_params w /\ Q (se_scats w) (se_scats w') /\ se_comps w' = se_comps w /\
  se_structs w' = se_structs w /\ se_models w' = se_models w.
Definition only_comps (Q : list comp_obj -> list comp_obj -> Prop) (w w' : session) : Prop :=
  se_params w' = se_params w /\ se_scats w' = se_scats w /\ Q (se_comps w) (se_comps w') /\
  se_structs w' = se_structs w /\ se_models w' = se_models w.
Definition only_structs (Q : list struct_obj -> list struct_obj -> Prop) (w w' : session) : Prop :=
  se_params w' = se_params w /\ se_scats w' = se_scats w /\ se_comps w' = se_comps w /\
  Q (se_structs w) (se_structs w') /\ se_models w' = se_models w.
Definition only_models (Q : list model_obj -> list model_obj -> Prop) (w w' : session) : Prop :=
  se_params w' = se_params w /\ se_scats w' = se_scats w /\ se_comps w' = se_comps w /\
  se_structs w' = se_structs w /\ Q (se_models w) (se_models w').

(** the attributes of a structure, one by one *)
Definition structure_with (s' : struct_obj) (data : list nat) (name : string) (solvent : option nat) (reverse : bool)
    (contract : R) (wavelength : option R) (ema : string) (dep : R) : Prop :=
  so_data s' = data /\ so_name s' = name /\ so_solvent s' = solvent /\ so_reverse s' = reverse /\
  so_contract s' = contract /\ so_wavelength s' = wavelength /\ so_ema s' = ema /\ so_dep s' = dep.
(** the same but for the components *)
Definition with_data (data : list nat -> list nat) (s s' : struct_obj) : Prop :=
  structure_with s' (data (so_data s)) (so_name s) (so_solvent s) (so_reverse s) (so_contract s) (so_wavelength s) (so_ema s) (so_dep s).

(** a slab of no thickness, no roughness and without solvent, whose three Parameters are new *)
Definition bare_slab_of (w w' : session) (s : nat) (c : comp_obj) : Prop :=
  let n := List.length (se_params w) in
  co_attrs c = A_Slab n s (n + 1)%nat (n + 2)%nat /\ co_default_interface c = true /\
  co_listed c = n :: so_listed (scat_at w s) ++ [(n + 1)%nat; (n + 2)%nat] /\
  List.length (se_params w') = (n + 3)%nat /\
  (forall p, (p < n)%nat -> nth_error (se_params w') p = nth_error (se_params w) p) /\
  (forall p, (n <= p < n + 3)%nat -> value_of w' p = 0 /\ p_vary (settings_of w' p) = false).

(** the same but for one Parameter's number *)
Definition number_set (w : session) (p : pid) (v : R) (w' : session) : Prop :=
  only_params (changed p (fun x y => y = (fst x, v))) w w'.
