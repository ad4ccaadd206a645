(** * Specification: the numbers in a nested sequence, in the order they are written *)

Require Import Reals List.
From Verif Require Import M_disp.
Import ListNotations.

Inductive elements : pyarg -> list R -> Prop :=
| El_number x : elements (Num x) [x]
| El_empty : elements (Seq []) []
| El_more a l xs ys : elements a xs -> elements (Seq l) ys -> elements (Seq (a :: l)) (xs ++ ys).
