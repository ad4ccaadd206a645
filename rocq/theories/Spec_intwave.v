(** * Specification: Cauchy at integer wavelengths (C146) *)

Require Import Reals ZArith.
From Coquelicot Require Import Complex.
From Verif Require Import M_intwave.
Open Scope Z_scope.

(** the type holds the number *)
Definition fits (t : int_type) (z : Z) : Prop := it_least t <= z < it_least t + 2 ^ it_bits t.
(** [r] is what is left of [z] in the type: it fits and differs by a multiple of 2^bits *)
Definition left_of (t : int_type) (z r : Z) : Prop := fits t r /\ exists q, z = r + q * 2 ^ it_bits t.
(** Cauchy's formula at a wavelength in nm *)
Definition cauchy_formula (A B Cc w : R) : C := RtoC (A + B * 1000 ^ 2 / w ^ 2 + Cc * 1000 ^ 4 / w ^ 4).
