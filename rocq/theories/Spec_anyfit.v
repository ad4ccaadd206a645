(** * Specification of fits with unusual columns *)

Require Import Reals List Bool.
From Verif Require Import Base M_disp M_struct M_model M_data Spec_objective.
Import ListNotations.
Open Scope list_scope.
Open Scope R_scope.

(** what a point contributes: calculated like the single point (w, a), or zero without a
    wavelength; a point without an angle has no value *)
Definition value_at (calculated : R * R -> num * num -> Prop) (x : num * num) (pd : num * num) : Prop :=
  match x with
  | (Some w, Some a) => calculated (w, a) pd
  | (Some _, None) => False
  | (None, _) => pd = (Some 0, Some 0)
  end.

(** psi and delta when model() is called for one point alone *)
Definition single (ext : externals) (s : structure) (off : R) (flip : bool) (x : R * R) (pd : num * num) : Prop :=
  fst (model ext DFloat s off flip [x]) = Ok ([fst pd], [snd pd]).

(** a structure of slabs and mixed slabs only, with default interfaces, not contracted *)
Definition ordinary (s : structure) : Prop :=
  Forall (fun c => c_default_interface c = true /\ (forall f, c_kind c <> Custom f)) (st_data s) /\
  st_contract s <= 0.

(** residuals of points: calculated minus measured, and distance on the circle *)
Definition residual_of (pd : num * num) (psi_d delta_d : num) (a b : num) : Prop :=
  minus (fst pd) psi_d a /\ distance (snd pd) delta_d b.
