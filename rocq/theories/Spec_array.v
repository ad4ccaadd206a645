(** * Vocabulary of C143: refractive indices at arrays of wavelengths *)

Require Import Reals List.
From Coquelicot Require Import Complex.
From Verif Require Import Base M_disp M_array.
Import ListNotations.
Open Scope R_scope.

(** an RI that is one number *)
Definition constant_RI (s : scatterer) : Prop :=
  exists n k, sc_kind s = K_RI (RI_const n k) \/ sc_kind s = K_RI (RI_row 0 n k).

(** a Lorentz or Tauc-Lorentz scatterer and its Einf *)
Definition oscillator_class (s : scatterer) (os : list osc) (Einf : R) : Prop :=
  sc_kind s = K_Lorentz os Einf \/ exists Eg, sc_kind s = K_TaucLorentz os Eg Einf.

(** the sum of f over 0 .. n-1 *)
Fixpoint csum_to (n : nat) (f : nat -> C) : C :=
  match n with O => RtoC 0 | S m => (csum_to m f + f m)%C end.

(** entry (i, j) of an array *)
Definition entry2 (rows : list (list R)) (i j : nat) : R := nth j (nth i rows []) 0.

(** p rows of q wavelengths, none of them zero *)
Definition grid (rows : list (list R)) (p q : nat) : Prop :=
  List.length rows = p /\ Forall (fun r => List.length r = q) rows /\ Forall (Forall (fun w => w <> 0)) rows.
