(** * Specification: simulated measurements *)

Require Import Reals List.
From Verif Require Import Base M_data M_objective Spec_data.
Import ListNotations.
Open Scope list_scope.
Open Scope R_scope.

(** the points with the wavelengths and angles [X] and the given psi and delta *)
Definition simulated (X : list (R * R)) (psi delta : list R) : list point :=
  map (fun x : (R * R) * (R * R) => (Some (fst (fst x)), Some (snd (fst x)), Some (fst (snd x)), Some (snd (snd x)))) (combine X (combine psi delta)).

(** the objects of [sy], with other arrays *)
Definition with_arrays (sy : system) (h : heap) : system := System (sy_params sy) (sy_ext sy) (sy_structures sy) (sy_models sy) h.
