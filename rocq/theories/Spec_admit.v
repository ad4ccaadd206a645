(** * Specification: the admittance (Abelès) method for stacks of layers.

    Independent of the model.  The tangential fields at the far face of a layer are
    carried to its near face by a 2 x 2 matrix that involves the cosine and the sine of
    the phase of the layer and its tilted admittance. *)

Require Import Reals List.
From Coquelicot Require Import Complex.
Require Import List.
From Verif Require Import Cplx Spec_optics.
Import ListNotations.
Open Scope R_scope.
Open Scope C_scope.

(** tilted admittance: ratio of the two tangential fields of a forward wave *)
Definition admittance (p : pol) (m : medium) : C :=
  match p with pS => idx m * cosine m | pP => cosine m / idx m end.

(** tangential field of a wave of unit amplitude *)
Definition unit_field (p : pol) (m : medium) : C :=
  match p with pS => 1 | pP => idx m end.

(** the characteristic matrix of a layer *)
Definition through (p : pol) (m : medium) (BC : C * C) : C * C :=
  let (B, D) := BC in
  (ccos (phase m) * B - Ci * csin (phase m) / admittance p m * D,
   ccos (phase m) * D - Ci * admittance p m * csin (phase m) * B).

(** the fields at the front of the stack [ms] in front of [back], for a unit field at [back] *)
Definition loaded (p : pol) (ms : list medium) (back : medium) : C * C :=
  fold_right (through p) (RtoC 1, admittance p back) ms.

(** a layer one quarter of a wave thick (or an odd number of quarters) *)
Definition quarter_wave (m : medium) : Prop := ccos (phase m) = 0.
(** a layer a whole number of half waves thick *)
Definition half_wave (m : medium) : Prop := csin (phase m) = 0.

(** ** Mirrors: N periods of two transparent layers.
    [normal s n] is the normal component of the wave vector (in units of 2 pi / lambda) in a
    medium of index [n], when its tangential component is [s]. *)
Definition normal (s n : R) : R := sqrt (n * n - s * s).

(** [n] periods of a layer of index [nH] and a layer of index [nL]: (index, thickness,
    roughness) rows *)
Definition periods (N : nat) (nH dH rH nL dL rL : R) : list (C * R * R) :=
  concat (repeat [(RtoC nH, dH, rH); (RtoC nL, dL, rL)] N).

(** tilted admittance of a transparent medium *)
Definition tilted (p : pol) (s n : R) : R :=
  match p with pS => normal s n | pP => (normal s n / (n * n))%R end.

(** admittance of N periods in front of a backing of index [nB] *)
Definition mirror_admittance (p : pol) (s nH nL nB : R) (N : nat) : R :=
  ((tilted p s nH / tilted p s nL) ^ (2 * N) * tilted p s nB)%R.

(** transparent media, no total reflection anywhere, both layers an odd number of quarter
    waves thick (thicknesses in Angstrom, wavelength in nm) *)
Definition quarter_mirror (n0 nH dH nL dL nB aoi w : R) : Prop :=
  let s := (n0 * sin (rad aoi))%R in
  (0 < n0 /\ 0 < nH /\ 0 < nL /\ 0 < nB /\ 0 < w)%R /\ cos (rad aoi) <> 0%R /\
  (s * s < nH * nH /\ s * s < nL * nL /\ s * s < nB * nB)%R /\
  (exists j, 4 * normal s nH * (dH / 10) = (2 * INR j + 1) * w)%R /\
  (exists j, 4 * normal s nL * (dL / 10) = (2 * INR j + 1) * w)%R.

(** Fresnel-like reflection at an interface of admittances [y0] and [y] *)
Definition mismatch (y0 y : R) : R := ((y0 - y) / (y0 + y))%R.

(** the reflection of the mirror *)
Definition mirror_r (p : pol) (n0 nH nL nB aoi : R) (N : nat) : R :=
  let s := (n0 * sin (rad aoi))%R in mismatch (tilted p s n0) (mirror_admittance p s nH nL nB N).
