(** * Residuals and chi-squared in double precision (objectiveSE.py 203-231).

    The model's psi and delta, and the data, are lists of doubles.  np.dot does not fix the order
    of its additions, nor whether it uses fused multiply-add (BLAS); a [plan] is one such way of
    working, and the theorems are about every plan that uses every residual once. *)

Require Import ZArith Bool List.
From Flocq Require Import Core.
From Flocq.IEEE754 Require Import BinarySingleNaN.
From Verif Require Import M_float.
Import ListNotations.

(** x * y + z with one rounding *)
Definition ffma : f64 -> f64 -> f64 -> f64 := @Bfma 53 1024 prec_ok emax_ok mode_NE.
Definition fzero : f64 := B754_zero false.

Fixpoint map2 {A B C} (f : A -> B -> C) (l : list A) (m : list B) : list C :=
  match l, m with
  | a :: l', b :: m' => f a b :: map2 f l' m'
  | _, _ => []
  end.

(** objectiveSE.py:203-207: np.r_[psi - psi_d, circular_distance(delta, delta_d, period=360)] *)
Definition fl_residuals (psi delta psi_d delta_d : list f64) : list f64 :=
  map2 fsub psi psi_d ++ map2 (fun a b => fl_circular_distance a b (fZ 360)) delta delta_d.

(** ways to calculate a sum of squares *)
Inductive plan :=
| Nothing                            (* an accumulator starts at 0 *)
| Square (i : nat)                   (* res[i] * res[i] *)
| Fused (i : nat) (p : plan)         (* res[i] * res[i] + accumulator, fused *)
| Plus (p q : plan).                 (* the sum of two accumulators *)

Fixpoint run (res : list f64) (p : plan) : f64 :=
  match p with
  | Nothing => fzero
  | Square i => fmul (nth i res fzero) (nth i res fzero)
  | Fused i p => ffma (nth i res fzero) (nth i res fzero) (run res p)
  | Plus p q => fadd (run res p) (run res q)
  end.

(** objectiveSE.py:229-231: np.dot(res, res) *)
Definition fl_chisqr (p : plan) (psi delta psi_d delta_d : list f64) : f64 :=
  run (fl_residuals psi delta psi_d delta_d) p.
