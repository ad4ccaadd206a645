(** * Specification: datasets of one point read from a file (C145) *)

Require Import Reals List Bool String Ascii.
From Verif Require Import Base M_data Spec_data M_onepoint.
Import ListNotations.
Open Scope list_scope.
Open Scope R_scope.

(** the columns are the scalars of the point [x] *)
Definition scalars (d : xdata) (x : point) : Prop :=
  x_wav d = Sca (p_wav x) /\ x_aoi d = Sca (p_aoi x) /\ x_psi d = Sca (p_psi x) /\ x_delta d = Sca (p_delta x).

(** everything but the columns is the same *)
Definition same_rest (d d' : xdata) : Prop :=
  x_mask d' = x_mask d /\ x_flipped d' = x_flipped d /\ x_weighted d' = x_weighted d /\ x_file d' = x_file d /\
  x_delim d' = x_delim d.

(** loading gives the scalars of [x] and changes nothing else *)
Definition becomes (h : heap) (d : xdata) (r : result (xdata * heap)) (x : point) : Prop :=
  exists d', r = Ok (d', h) /\ scalars d' x /\ same_rest d d'.

(** the same source in the two models *)
Definition xsource_of (s : source) : xsource :=
  match s with
  | FromNothing => XNothing
  | FromArrays w a p x => XArrays w a p x
  | FromDataSE d => XCopy (of_dataset d)
  | FromFile name lines => XFile name lines
  | FromHandle lines => XHandle lines
  end.

(** a list of points as arrays with one row *)
Definition one_row (pts : list point) : ndarray * ndarray * ndarray * ndarray :=
  (A2 [map p_wav pts], A2 [map p_aoi pts], A2 [map p_psi pts], A2 [map p_delta pts]).
