(** * Specification of the likelihood with unusual columns *)

Require Import Reals List Bool.
From Verif Require Import Base M_data M_objective Spec_data Spec_objective Spec_anyfit.
Import ListNotations.
Open Scope list_scope.
Open Scope R_scope.

(** what a calculated value [m] and its residual [r] add to -2 logl; [s] is ln sigma *)
Definition addend (weighted : bool) (s : option R) (m r : R) : R :=
  let variance := 1 + match s with Some s => exp (2 * s) * m ^ 2 | None => 0 end in
  (if weighted then ln (2 * PI * variance) else 0) + r ^ 2 / variance.

(** what a point adds *)
Definition contributes (calculated : R * R -> num * num -> Prop) (weighted : bool) (s : option R) (x : point) (t : R) : Prop :=
  exists psi delta a b,
    value_at calculated (p_wav x, p_aoi x) (Some psi, Some delta) /\
    residual_of (Some psi, Some delta) (p_psi x) (p_delta x) (Some a) (Some b) /\
    t = addend weighted s psi a + addend weighted s delta b.

(** the sum of the members of a list *)
Definition total (l : list R) : R := fold_right Rplus 0 l.

Definition has_wavelength (x : point) : bool := match p_wav x with Some _ => true | None => false end.

(** what a point without a wavelength adds: its distance from psi = delta = 0, whatever the model *)
Definition lost (w : bool) (x : point) (c : R) : Prop :=
  exists p d b, p_psi x = Some p /\ p_delta x = Some d /\ distance (Some 0) (Some d) (Some b) /\
    c = (if w then 2 * ln (2 * PI) else 0) + p ^ 2 + b ^ 2.
