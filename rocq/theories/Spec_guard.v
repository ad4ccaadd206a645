(** * Specification of the names of EP4 datasets *)

Require Import Reals List String Ascii.
From Verif Require Import Base M_data M_ep4.
Import ListNotations.
Open Scope list_scope.
Open Scope R_scope.


(** [base] is [fname] without its last 23 characters *)
Definition stem (fname base : string) : Prop :=
  (exists date, fname = (base ++ date)%string /\ String.length date = 23%nat) \/
  (base = ""%string /\ (String.length fname < 23)%nat).

(** the numbers satisfying [S] are printed differently if they differ, and all numbers without the
    letters m and s *)
Fixpoint lacks (c : Ascii.ascii) (s : string) : Prop :=
  match s with EmptyString => True | String x s' => x <> c /\ lacks c s' end.
Definition readable (pr : R -> string) (S : R -> Prop) : Prop :=
  (forall x y, S x -> S y -> pr x = pr y -> x = y) /\ forall x, lacks "m"%char (pr x) /\ lacks "s"%char (pr x).

(** the numbers in the name of a dataset *)
Definition named (s : summary) (x : R) : Prop :=
  (exists y, sm_pos s = Some (x, y) \/ sm_pos s = Some (y, x)) \/ sm_time s = Some (Some x).

(** the datasets returned *)
Definition entries {A} (r : one_or_many A) : list A := match r with One d => [d] | Many ds => ds end.
