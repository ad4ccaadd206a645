(** * The whole calculation (C95): ReflectModelSE.model returns, for every point of a batch, the
    ellipsometric angles of the light that Maxwell's equations say the structure reflects. *)

Require Import Reals List Bool String.
From Coquelicot Require Import Complex.
From Verif Require Import Base M_struct M_model Spec_struct Spec_optics Spec_whole P_whole P_whole2.
Import ListNotations.
Open Scope list_scope.
Open Scope R_scope.

Theorem C95_model : forall ext s off flip X stacks,
  slab_ends (st_data s) -> List.Forall (fun c => c_default_interface c = true) (st_data s) -> st_contract s <= 0 ->
  Forall2 (lit_structure s) X stacks -> List.Forall reflecting stacks ->
  exists pds,
    fst (model ext DFloat s off flip X) = Ok (map (fun pd => Some (fst pd)) pds, map (fun pd => Some (snd pd)) pds) /\
    Forall2 (measured off flip) stacks pds.
Proof. exact model_whole. Qed.
Print Assumptions C95_model.

(** a solvated quarter-wave film on glass at 30 degrees *)
Example C95_example_structure :
  slab_ends (st_data wet) /\ List.Forall (fun c => c_default_interface c = true) (st_data wet) /\ st_contract wet <= 0.
Proof. exact wet_ok. Qed.
Example C95_example : lit_structure wet (633, 30) wet_stack /\ reflecting wet_stack.
Proof. exact (conj wet_lit_structure wet_reflecting). Qed.
