(** * Specification: a fit in which one parameter moves *)

Require Import Reals.
From Coquelicot Require Import Coquelicot.
Require Import List Bool String.
From Verif Require Import Base Cplx M_disp M_struct M_model M_data M_objective Spec_struct Spec_optics Spec_whole Spec_objective Spec_covar Spec_diff.
Import ListNotations.
Open Scope list_scope.
Open Scope R_scope.

(** the values of the varying parameters *)
Definition present (sy : system) (o : objective) (st : state) : list R := map (value sy st) (varying_parameters sy o).
(** the state in which the [j]-th varying parameter has been increased by [t] *)
Definition moved (sy : system) (o : objective) (st : state) (j : nat) (t : R) : state :=
  snd (setp sy o (Some (bump (present sy o st) j t)) st).
(** the structure and the offset of the objective's model in that state *)
Definition moved_structure (sy : system) (o : objective) (st : state) (j : nat) (t : R) : structure :=
  current sy (moved sy o st j t) (ob_model o).
Definition moved_offset (sy : system) (o : objective) (st : state) (j : nat) (t : R) : R :=
  value sy (moved sy o st j t) (mo_offset (the_model sy (ob_model o))).

(** for small [t], [S t] has at wavelength [w] the fronting index [nA t], layers [F] and the backing index [nB t] *)
Definition consists_of (S : R -> structure) (w : R) (nA : R -> C) (F : films) (nB : R -> C) : Prop :=
  locally 0 (fun t =>
    slab_ends (st_data (S t)) /\ List.Forall (fun c => c_default_interface c = true) (st_data (S t)) /\ st_contract (S t) <= 0 /\
    exists rowA mid rowB, rows_at (S t) w (rowA :: mid ++ [rowB]) /\ s_ri rowA = Some (nA t) /\ s_ri rowB = Some (nB t) /\
      Forall2 (fun r l => s_ri r = Some (fst (fst l) t) /\ s_thick r = snd (fst l) t) mid F).
(** ... and they are differentiable; [x]: wavelength and angle *)
Definition smooth_point (S : R -> structure) (x : R * R) : Prop :=
  exists nA F nB, consists_of S (fst x) nA F nB /\ smooth_stack nA F nB (rad (snd x)) (fst x) 0.

(** the model's delta [v] and the measured one [m] are not at a jump of delta nor at a corner of the residual *)
Definition off_corners (off : R) (flip : bool) (m v : R) : Prop :=
  m <> v /\ Rabs (v - m) <> 180 /\ if flip then v <> off /\ v <> off + 180 else v <> off + 360.
