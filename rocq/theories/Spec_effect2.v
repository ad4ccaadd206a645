(** * Specification: what a statement on a dataset changes *)

Require Import Reals List Bool String Ascii.
From Verif Require Import Base M_disp M_data M_life.
Import ListNotations.
Open Scope list_scope.

(** where the columns are: wavelength, angle, psi, delta *)
Definition address (d : dataset) (i : nat) : nat := nth i [ds_wav d; ds_aoi d; ds_psi d; ds_delta d] (ds_wav d).
(** the columns *)
Definition column_of (s : life) (e : entry) (i : nat) : list num := arr (lf_heap s) (address (en_data e) i).

(** name of file, flags, delimiter and metadata of the two are the same *)
Definition same_flags (e e' : entry) : Prop :=
  en_metadata e' = en_metadata e /\ ds_flipped (en_data e') = ds_flipped (en_data e) /\
  ds_weighted (en_data e') = ds_weighted (en_data e) /\ ds_file (en_data e') = ds_file (en_data e) /\
  ds_delim (en_data e') = ds_delim (en_data e).
(** every dataset but number d is as it was, its columns included *)
Definition others_same (d : nat) (s s' : life) : Prop :=
  List.length (lf_sets s') = List.length (lf_sets s) /\
  forall j e, j <> d -> nth_error (lf_sets s) j = Some e -> nth_error (lf_sets s') j = Some e /\
    forall i, column_of s' e i = column_of s e i.

(** the first k columns given can be used, and the next one (if k < 4) cannot *)
Definition usable (cols : list (result (list num))) (k : nat) : Prop :=
  (k <= 4)%nat /\ (forall i, (i < k)%nat -> exists c, nth_error cols i = Some (Ok c)) /\
  (k = 4%nat \/ nth_error cols k = None \/ exists e, nth_error cols k = Some (Raise e)).
