(** * Sessions (C100-C102): structures and models are built, edited and evaluated one statement at
    a time.  [run ext nothing l] is the state after the statements l, starting from an empty
    session; an exception is caught and the session goes on. *)

Require Import Reals List Bool String.
From Verif Require Import Base M_struct M_model M_data M_objective M_session Spec_session P_session P_session2.
Import ListNotations.
Open Scope list_scope.
Open Scope R_scope.

(** ** C100: model.parameters is current *)

Theorem C100_parameters : forall ext l m, List.Forall keeps_attributes l ->
  forall p, In p (listed (run ext nothing l) m) <-> owned (run ext nothing l) m p.
Proof. exact parameters_current. Qed.
Print Assumptions C100_parameters.

(** and sufficient: numbers that agree on the listed parameters give the same result *)
Theorem C100_sufficient : forall ext l m X x, List.Forall keeps_attributes l ->
  let w := run ext nothing l in let w' := with_params w x in
  (forall p, In p (listed w m) -> value_of w p = value_of w' p) ->
  fst (evaluation ext w m X) = fst (evaluation ext w' m X).
Proof. exact parameters_sufficient. Qed.
Print Assumptions C100_sufficient.

Example C100_example : List.Forall keeps_attributes build /\
  forall ext, listed (run ext nothing build) 0 = [3; 0; 0; 0; 0; 1; 0; 0; 0; 0]%nat.
Proof. exact (conj build_keeps build_listed). Qed.
(** parameter 1, the index of the glass, matters: the result for 3/2 and the result for 1 *)
Example C100_example_matters : forall ext, List.Forall keeps_attributes (build ++ rewire) /\
  let w := run ext nothing (build ++ rewire) in In 1%nat (listed w 0) /\
  fst (evaluation ext w 0 [(633, 0)]) <> fst (evaluation ext (with_params w (numbers_with w 1%nat 1)) 0 [(633, 0)]).
Proof. exact rewired. Qed.

(** ** C101: evaluations and failed statements leave no trace *)

Theorem C101_evaluations : forall ext l m X,
  fst (evaluation ext (run ext nothing l) m X) =
  fst (evaluation ext (run ext nothing (filter (fun x => negb (is_evaluation x)) l)) m X).
Proof. exact evaluations_leave_no_trace. Qed.
Print Assumptions C101_evaluations.

Theorem C101_failures : forall ext w x e, fst (execute ext w x) = Raise e ->
  same_session (snd (execute ext w x)) w /\ (is_evaluation x = false -> snd (execute ext w x) = w).
Proof. exact failures_leave_no_trace. Qed.
Print Assumptions C101_failures.

Theorem C101_wrong_structure : forall ext w m o p, exists_object w o = true -> (forall a, o <> O_struct a) ->
  execute ext w (Set_structure m o) = (Raise ValueError, w) /\ execute ext w (New_model o p) = (Raise ValueError, w).
Proof. exact wrong_structure. Qed.
Print Assumptions C101_wrong_structure.

(** after the session of the example: a scatterer is not a structure, nor can a model be appended *)
Example C101_example : forall ext, let w := run ext nothing build in
  fst (execute ext w (Set_structure 0 (O_scat 1))) = Raise ValueError /\
  fst (execute ext w (Append 0 O_other)) = Raise ValueError /\
  fst (execute ext w (Set_dep 0 (VNum 2))) = Raise ValueError /\
  filter (fun x => negb (is_evaluation x)) ([Evaluate 0 [(633, 0)]] ++ build ++ [Evaluate 0 [(400, 60)]; Set_value 1%nat 2])
    = build ++ [Set_value 1%nat 2].
Proof. exact failing. Qed.

(** ** C102: after slab.ri = ... the list is stale *)

Theorem C102_current_refuted : forall ext, exists l m X x, let w := run ext nothing l in let w' := with_params w x in
  (forall p, In p (listed w m) -> value_of w p = value_of w' p) /\
  fst (evaluation ext w m X) <> fst (evaluation ext w' m X) /\
  exists p q, owned w m p /\ ~ In p (listed w m) /\ In q (listed w m) /\ ~ owned w m q.
Proof. exact stale_list. Qed.
Print Assumptions C102_current_refuted.

(** nor do later statements other than replacing the slab in the structure repair it: the list of
    a component never changes *)
Theorem C102_lists_fixed : forall ext l w c, (c < List.length (se_comps w))%nat ->
  co_listed (comp_at (run ext w l) c) = co_listed (comp_at w c).
Proof. exact list_kept. Qed.
Print Assumptions C102_lists_fixed.

Example C102_example : forall ext, (1 < List.length (se_comps (run ext nothing build)))%nat /\
  co_listed (comp_at (run ext nothing build) 1) = [0; 1; 0; 0; 0; 0]%nat.
Proof. exact list_kept_example. Qed.
