(** * Specification of dispersion curves *)

Require Import Reals List Sorting.Sorted.
From Coquelicot Require Import Complex.
Import ListNotations.
Open Scope R_scope.

Definition increasing (l : list R) : Prop := StronglySorted Rlt l.

(** [v] is the value at [x] of the piecewise linear curve through the points
    (xs_i, ys_i), continued by constants *)
Definition interpolates (xs ys : list R) (x v : R) : Prop :=
  (x <= nth 0 xs 0 -> v = nth 0 ys 0) /\
  (last xs 0 <= x -> v = last ys 0) /\
  (forall i, (S i < length xs)%nat -> nth i xs 0 <= x <= nth (S i) xs 0 ->
     v = nth i ys 0 + (nth (S i) ys 0 - nth i ys 0) *
         ((x - nth i xs 0) / (nth (S i) xs 0 - nth i xs 0))).

(** one Lorentz oscillator with complex energy *)
Definition lorentz_denominator (B E : R) (z : C) : C :=
  (RtoC (E ^ 2) - z * z - Ci * RtoC B * z)%C.

(** imaginary part of one Lorentz oscillator *)
Definition lorentz_absorption (A B E e : R) : R :=
  A * B * e / ((E ^ 2 - e ^ 2) ^ 2 + (B * e) ^ 2).

(** imaginary part of one Tauc-Lorentz oscillator (Jellison and Modine 1996) *)
Definition tauc_lorentz_absorption (A Cc E0 Eg e : R) : R :=
  if Rlt_dec Eg e
  then A * E0 * Cc * (e - Eg) ^ 2 / ((e ^ 2 - E0 ^ 2) ^ 2 + Cc ^ 2 * e ^ 2) * / e
  else 0.

(** imaginary part of one Gauss oscillator: two bells of full width at half maximum [B] *)
Definition gauss_absorption (A B E e : R) : R :=
  A * exp (- (4 * ln 2) * ((e - E) / B) ^ 2) - A * exp (- (4 * ln 2) * ((e + E) / B) ^ 2).

(** an oscillator is a triple: amplitude, broadening, energy *)
Definition osc_A (o : R * R * R) : R := fst (fst o).
Definition osc_B (o : R * R * R) : R := snd (fst o).
Definition osc_E (o : R * R * R) : R := snd o.
Definition good_gauss (o : R * R * R) : Prop := 0 <= osc_A o /\ 0 < osc_B o /\ 0 <= osc_E o.

(** what is assumed of scipy's Hilbert transform *)
Definition keeps_length (h : list R -> list R) : Prop := forall l, length (h l) = length l.

(** sum of a quantity over the oscillators *)
Definition over_all (f : R -> R -> R -> R) (os : list (R * R * R)) : R :=
  fold_right Rplus 0 (map (fun o => f (osc_A o) (osc_B o) (osc_E o)) os).
