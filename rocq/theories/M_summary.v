(** * Model of ObjectiveSE.__str__ (objectiveSE.py:120-136): the facts it prints *)

Require Import Reals List Bool String.
From Verif Require Import Base M_disp M_struct M_model M_data M_objective.
Import ListNotations.
Open Scope list_scope.

(** datapoints, chi2, Weighted; and the values of all parameters, in order.  Name, dataset name and
    transform are left out. *)
Record summary := Summary { su_datapoints : nat; su_chi2 : num; su_weighted : bool; su_values : list R }.
Definition objective_str (sy : system) (o : objective) : call summary :=
  bind (chisqr sy o None) (fun c => fun st =>
  (Ok (Summary (npoints (sy_heap sy) (ob_data o)) c (weighted o) (map (value sy st) (parameters sy o))), st)).
