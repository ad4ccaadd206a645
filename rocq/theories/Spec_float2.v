(** * Specification of the dispersion formulas in double precision *)

Require Import Reals ZArith.
From Flocq Require Import Core.
From Flocq.IEEE754 Require Import BinarySingleNaN.
From Verif Require Import M_float Spec_float.
Open Scope R_scope.

(** zero, or neither huge nor tiny *)
Definition moderate (x : R) : Prop := x = 0 \/ bpow radix2 (-100) <= Rabs x <= bpow radix2 100.

(** [f] computes the k-th power up to two units of relative rounding error (less than one unit
    in the last place), for doubles that are neither huge nor tiny *)
Definition powers (k : nat) (f : f64 -> f64) : Prop :=
  forall x, finite x -> moderate (val x) ->
    finite (f x) /\ Rabs (val (f x) - val x ^ k) <= 2 * u * Rabs (val x ^ k).
