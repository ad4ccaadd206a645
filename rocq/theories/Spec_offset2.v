(** * Specification: angles that are the same on the circle *)

Require Import Reals.
Open Scope R_scope.

(** the same angle written with at most one turn more or less *)
Definition same_or_turn (a b : R) : Prop := a = b \/ a = b + 360 \/ a = b - 360.
