(** * Single precision: the numbers of 24 bits *)

Require Import Reals ZArith.
Open Scope R_scope.

(** 2 to the power [e] *)
Definition two_to (e : Z) : R := powerRZ 2 e.
(** a number that float32 stores exactly (ignoring its largest value) *)
Definition single_number (y : R) : Prop := exists m e : Z, y = IZR m * two_to e /\ (Z.abs m < 2 ^ 24)%Z /\ (-149 <= e)%Z.
(** no number of float32 is nearer to [x] than [y] *)
Definition nearest_single (x y : R) : Prop :=
  single_number y /\ forall z, single_number z -> Rabs (y - x) <= Rabs (z - x).
(** zero, or not so small that float32 keeps fewer than 24 bits *)
Definition normal (x : R) : Prop := x = 0 \/ two_to (-126) <= Rabs x.
