(** * Specification: the roles of the parameters of dispersions; what is plotted; truncation *)

Require Import Reals List Sorting.Sorted.
From Coquelicot Require Import Complex.
From Verif Require Import Base Spec_disp.
Import ListNotations.
Open Scope list_scope.
Open Scope R_scope.

(** sum over the oscillators whose parameters are listed in [a], [b] and [c] *)
Fixpoint sum3 {A : Type} (f : A -> A -> A -> R) (a b c : list A) : R :=
  match a, b, c with
  | x :: a', y :: b', z :: c' => f x y z + sum3 f a' b' c'
  | _, _, _ => 0
  end.
Fixpoint csum3 {A : Type} (f : A -> A -> A -> C) (a b c : list A) : C :=
  match a, b, c with
  | x :: a', y :: b', z :: c' => (f x y z + csum3 f a' b' c')%C
  | _, _, _ => RtoC 0
  end.
(** all oscillators are like this *)
Fixpoint all3 {A : Type} (P : A -> A -> A -> Prop) (a b c : list A) : Prop :=
  match a, b, c with
  | x :: a', y :: b', z :: c' => P x y z /\ all3 P a' b' c'
  | [], [], [] => True
  | _, _, _ => False
  end.
(** the 2048 energies from -20 to 20 of the Gauss grid *)
Definition grid2048 : list R := map (fun j => -20 + 40 * INR j / 2047) (seq 0 2048).
(** n is the square root of eps with a nonnegative real part *)
Definition index_of (eps n : C) : Prop := (n * n)%C = eps /\ 0 <= Re n.

(** y is x without its fractional part *)
Definition towards_zero (x y : R) : Prop := (exists z : Z, y = IZR z) /\ 0 <= x * y /\ Rabs y <= Rabs x < Rabs y + 1.

(** the wavelengths of the curves in a plot of the structure alone, or of an objective with these data *)
Definition drawn (data : option (list R)) (ws : list R) : Prop :=
  match data with
  | None => ws = [658]
  | Some d =>
      exists u, StronglySorted Rlt u /\ (forall x, In x u <-> In x d) /\
      ((List.length u <= 8)%nat -> ws = u) /\
      ((8 < List.length u)%nat -> exists a b, In a d /\ In b d /\ (forall x, In x d -> a <= x <= b) /\
         ws = [a; a + (b - a) / 5; a + 2 * (b - a) / 5; a + 3 * (b - a) / 5; a + 4 * (b - a) / 5; b])
  end.
(** what is left of a value in an array of integers; [nan] is the integer a nan becomes *)
Definition cut (nan : R) (a b : option R) : Prop :=
  match a with Some x => exists y, b = Some y /\ towards_zero x y | None => b = Some nan end.
(** the energy in eV of a photon of wavelength w nm *)
Definition photon (w : R) : R := 1239841984055 / 1000000000 / w.
