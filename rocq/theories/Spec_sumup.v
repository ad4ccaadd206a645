(** * Specification: objectives that differ in their data *)

Require Import Reals List Bool.
From Verif Require Import Base M_data Spec_data M_objective Spec_objective.
Import ListNotations.
Open Scope list_scope.
Open Scope R_scope.

(** the objectives differ only in the points of their datasets *)
Definition alike (o o' : objective) : Prop :=
  ob_model o = ob_model o' /\ ob_lnsigma o = ob_lnsigma o' /\ ob_use_weights o = ob_use_weights o' /\
  ds_weighted (ob_data o) = ds_weighted (ob_data o').
(** sum of two numbers, nan if one is nan *)
Definition plus (a b : num) : num := match a, b with Some x, Some y => Some (x + y) | _, _ => None end.
(** both computations return this value, or neither returns it *)
Definition same_value {A} (r r' : result A) : Prop := forall a, r = Ok a <-> r' = Ok a.
