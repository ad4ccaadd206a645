(** * General tools: matrices as lists of rows, finite sums *)

Require Import Reals List Arith.
Import ListNotations.
Open Scope list_scope.
Open Scope R_scope.

Definition entry (M : list (list R)) (i j : nat) : R := nth j (nth i M []) 0.
(** f 0 + ... + f (n-1) *)
Fixpoint sumn (n : nat) (f : nat -> R) : R := match n with O => 0 | S k => sumn k f + f k end.
(** the n x m matrix with entries f i j *)
Definition matrix (n m : nat) (f : nat -> nat -> R) : list (list R) :=
  map (fun i => map (f i) (seq 0 m)) (seq 0 n).
