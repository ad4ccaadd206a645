(** * Specification: what a measurement determines. *)

Require Import Reals.
From Coquelicot Require Import Complex.
From Verif Require Import Cplx Spec_optics.
Open Scope R_scope.
Open Scope C_scope.

(** the complex reflectance ratio coded by the two angles (degrees) *)
Definition ratio (psi delta : R) : C := RtoC (tan (rad psi)) * cexp (- (Ci * RtoC (rad delta))).

(** the textbook inversion for a bare substrate: the square of the index of a
    half-space seen at the angle [th] (radians) from a medium of index [n0] *)
Definition substrate_eps (n0 th : R) (rho : C) : C :=
  RtoC (n0 * sin th) * RtoC (n0 * sin th) *
  (1 + RtoC (tan th) * RtoC (tan th) * (((1 - rho) / (1 + rho)) * ((1 - rho) / (1 + rho)))).

(** half the wavelength of the standing wave across a layer of real index [n], the
    sine being fixed by [s] = n0 sin(theta0) *)
Definition order_thickness (n s w : R) : R := w / (2 * sqrt (n * n - s * s)).

(** [g] is defined at and around [x], and continuous there *)
Definition settles (g : R -> option R) (x : R) : Prop :=
  exists v, g x = Some v /\
  forall eps, (0 < eps)%R -> exists eta, (0 < eta)%R /\
    forall y, (Rabs (y - x) < eta)%R -> exists v', g y = Some v' /\ (Rabs (v' - v) < eps)%R.
