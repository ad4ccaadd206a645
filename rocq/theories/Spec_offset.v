(** * Specification: moving delta_offset *)

Require Import Reals List.
From Verif Require Import Base M_data M_objective Spec_objective.
Import ListNotations.
Open Scope list_scope.
Open Scope R_scope.

(** the state [st'] differs from [st], as far as the model [m] is concerned, in delta_offset being larger by [c] *)
Definition moved_offset (sy : system) (m : nat) (c : R) (st st' : state) : Prop :=
  (forall p, In p (structure_params (the_structure sy (mo_structure (the_model sy m)))) -> value sy st' p = value sy st p) /\
  value sy st' (mo_offset (the_model sy m)) = value sy st (mo_offset (the_model sy m)) + c /\
  nth m (st_flips st') false = nth m (st_flips st) false.

Definition shifted (c : R) (l : list num) : list num := map (omap (fun x => x + c)) l.

Definition mean (l : list R) : R := sum l / INR (List.length l).
(** measured minus predicted *)
Definition errors (measured predicted : list R) : list R := map2 Rminus measured predicted.
