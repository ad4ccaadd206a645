(** * Specification of the double precision chi-squared *)

Require Import Reals ZArith List Permutation.
From Flocq Require Import Core.
From Flocq.IEEE754 Require Import BinarySingleNaN.
From Verif Require Import M_float Spec_objective Spec_float M_fresid.
Import ListNotations.
Open Scope R_scope.

(** the residuals that a plan uses *)
Fixpoint used (p : plan) : list nat :=
  match p with
  | Nothing => []
  | Square i => [i]
  | Fused i p => i :: used p
  | Plus p q => used p ++ used q
  end.
(** every one of n residuals once, in any order *)
Definition covers (n : nat) (p : plan) : Prop := Permutation (used p) (seq 0 n).

Fixpoint total (l : list R) : R := match l with [] => 0 | x :: l' => x + total l' end.
Definition squares (l : list f64) : R := total (map (fun r => val r * val r) l).

(** half of the smallest positive double *)
Definition tiny : R := bpow radix2 (-1075).

(** a number that is 0, positive or +infinity *)
Definition at_least_zero (c : f64) : Prop :=
  (finite c /\ 0 <= val c) \/ c = B754_infinity false.

(** the differences between model and data, without rounding: psi, then delta around the circle *)
Definition exact_residuals (psi delta psi_d delta_d : list f64) (ds : list R) : Prop :=
  exists ps cs, ds = ps ++ cs /\
    Forall2 (fun q d => d = val (fst q) - val (snd q)) (combine psi psi_d) ps /\
    Forall2 (fun q d => circle_distance 360 (val (fst q)) (val (snd q)) d) (combine delta delta_d) cs.

(** finite values at most one turn apart *)
Definition comparable (l m : list f64) : Prop :=
  Forall2 (fun a b => finite a /\ finite b /\ Rabs (val a - val b) <= 360) l m.
