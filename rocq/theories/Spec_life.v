(** * Specification of the lifetime of datasets *)

Require Import Reals List Bool String Ascii.
From Verif Require Import Base M_disp M_data Spec_data M_life.
Import ListNotations.
Open Scope list_scope.
Open Scope R_scope.

(** columns handed to a dataset together have the same length *)
Definition equal_columns (s : life) (o : op) : Prop :=
  match o with
  | L_new (L_arrays w a p x) _ _ _ =>
      forall w' a' p' x', nth_error (lf_user s) w = Some w' -> nth_error (lf_user s) a = Some a' ->
        nth_error (lf_user s) p = Some p' -> nth_error (lf_user s) x = Some x' ->
        let n b := List.length (arr (lf_heap s) b) in n w' = n a' /\ n a' = n p' /\ n p' = n x'
  | L_columns _ cols => exists w a p x rest, cols = Ok w :: Ok a :: Ok p :: Ok x :: rest /\
      List.length w = List.length a /\ List.length a = List.length p /\ List.length p = List.length x
  | _ => True
  end.
(** ... in every statement of a run *)
Fixpoint equal_throughout (pf : string -> option num) (s : life) (l : list op) : Prop :=
  match l with
  | [] => True
  | o :: l' => equal_columns s o /\ equal_throughout pf (snd (act pf s o)) l'
  end.

(** statements on the dataset number d *)
Definition about (d : nat) (o : op) : Prop :=
  match o with
  | L_mask d' _ | L_columns d' _ | L_load d' _ | L_refresh d' _ _ => d' = d
  | _ => False
  end.
(** a new dataset folds the delta of another one *)
Definition folding_copy (o : op) : Prop :=
  match o with L_new (L_copy _) _ true _ => True | _ => False end.

(** dataset number d has columns of its own after the statement *)
Definition own_columns (s : life) (d : nat) (o : op) : Prop :=
  match o with
  | L_columns d' _ | L_load d' _ => d' = d
  | L_refresh d' _ _ => d' = d /\ ds_file (set_at s d) <> None
  | L_new (L_file _ _ | L_handle _ | L_nothing) _ _ _ => d = List.length (lf_sets s)
  | _ => False
  end.
