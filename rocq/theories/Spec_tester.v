(** * Specification: running the tests of the package *)

Require Import List String Ascii ZArith.
From Verif Require Import Base M_tester.
Import ListNotations.
Open Scope string_scope.

(** [flag n s]: [s] is a dash followed by [n] letters v *)
Inductive flag : nat -> string -> Prop :=
| flag_dash : flag 0 "-"
| flag_more n s : flag n s -> flag (S n) (s ++ "v").

(** the marker expression a label stands for *)
Inductive selection : string -> list string -> Prop :=
| sel_fast : selection "fast" ["-m"; "not slow"]
| sel_full : selection "full" []
| sel_other l : l <> "fast" -> l <> "full" -> selection l ["-m"; l].

(** how often pytest is told to be more verbose *)
Inductive more_verbose (int_of : string -> option Z) : verbosity -> list string -> Prop :=
| mv_none : more_verbose int_of VNone []
| mv_empty : more_verbose int_of (VText "") []
| mv_low v z : (z <= 1)%Z -> v = VInt z \/ (exists s, v = VText s /\ s <> "" /\ int_of s = Some z) -> more_verbose int_of v []
| mv_high v z n s : (1 < z)%Z -> v = VInt z \/ (exists s, v = VText s /\ s <> "" /\ int_of s = Some z) ->
    z = Z.of_nat (S n) -> flag n s -> more_verbose int_of v [s].

(** success as Python sees it: exit status 0 (sys.exit() and sys.exit(None) are status 0) *)
Definition succeeds (o : outcome) : Prop := o = Returned 0 \/ o = Exited (CInt 0) \/ o = Exited CNone.
