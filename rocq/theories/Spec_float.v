(** * Specification of the double precision functions.
    [val x] is the real number a finite double stands for. *)

Require Import Reals ZArith.
From Flocq Require Import Core.
From Flocq.IEEE754 Require Import BinarySingleNaN.
From Verif Require Import M_float.
Open Scope R_scope.

Definition val (x : f64) : R := B2R x.
Definition finite (x : f64) : Prop := is_finite x = true.
Definition nan (x : f64) : Prop := is_nan x = true.

(** the smallest relative spacing of doubles *)
Definition u : R := / 2 ^ 53.
