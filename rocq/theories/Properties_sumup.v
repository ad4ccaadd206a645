(** * The objective is a sum over the points that are not masked (C124) *)

Require Import Reals List Bool Sorting.Permutation.
From Verif Require Import Base M_data Spec_data M_objective Spec_objective P_objective3 Spec_sumup P_sumup P_sumup2.
Import ListNotations.
Open Scope list_scope.
Open Scope R_scope.

(** masking a point is the same as not having measured it *)
Theorem C124_masked : forall sy o o' v st sel X,
  alike o o' -> has_data sy o sel X -> has_data sy o' sel X ->
  residuals sy o v st = residuals sy o' v st /\ chisqr sy o v st = chisqr sy o' v st /\
  logl sy o v st = logl sy o' v st /\ logp sy o v st = logp sy o' v st /\ logpost sy o v st = logpost sy o' v st.
Proof. exact same_points. Qed.
Print Assumptions C124_masked.

(** the order of the points does not matter *)
Theorem C124_order : forall sy o o' v st sel X sel' X',
  alike o o' -> has_data sy o sel X -> has_data sy o' sel' X' -> Permutation sel sel' ->
  same_value (fst (chisqr sy o v st)) (fst (chisqr sy o' v st)) /\
  same_value (fst (logl sy o v st)) (fst (logl sy o' v st)) /\
  same_value (fst (logpost sy o v st)) (fst (logpost sy o' v st)).
Proof. exact order_irrelevant. Qed.
Print Assumptions C124_order.

(** two sets of points: chi-squared and log-likelihood add *)
Theorem C124_chisqr : forall sy o o1 o2 v st sel1 sel2 X X1 X2,
  alike o o1 -> alike o o2 -> has_data sy o (sel1 ++ sel2) X -> has_data sy o1 sel1 X1 -> has_data sy o2 sel2 X2 ->
  forall c, fst (chisqr sy o v st) = Ok c <->
    exists a b, fst (chisqr sy o1 v st) = Ok a /\ fst (chisqr sy o2 v st) = Ok b /\ c = plus a b.
Proof. exact additive_chisqr. Qed.
Print Assumptions C124_chisqr.

Theorem C124_logl : forall sy o o1 o2 v st sel1 sel2 X X1 X2,
  alike o o1 -> alike o o2 -> has_data sy o (sel1 ++ sel2) X -> has_data sy o1 sel1 X1 -> has_data sy o2 sel2 X2 ->
  forall c, fst (logl sy o v st) = Ok c <->
    exists a b, fst (logl sy o1 v st) = Ok a /\ fst (logl sy o2 v st) = Ok b /\ c = a + b.
Proof. exact additive_logl. Qed.
Print Assumptions C124_logl.

(** the prior is counted once *)
Theorem C124_logpost : forall sy o o1 o2 v st sel1 sel2 X X1 X2 p,
  alike o o1 -> alike o o2 -> has_data sy o (sel1 ++ sel2) X -> has_data sy o1 sel1 X1 -> has_data sy o2 sel2 X2 ->
  fst (logp sy o v st) = Ok (Some p) ->
  forall c, fst (logpost sy o v st) = Ok (Some c) <->
    exists a b, fst (logpost sy o1 v st) = Ok (Some a) /\ fst (logpost sy o2 v st) = Ok (Some b) /\ c = a + b - p.
Proof. exact additive_logpost. Qed.
Print Assumptions C124_logpost.

(** leaving points out never makes chi-squared larger, nor undefined *)
Theorem C124_fewer : forall sy o o1 v st sel sel1 X X1 c,
  alike o o1 -> has_data sy o sel X -> has_data sy o1 sel1 X1 ->
  (exists rest, Permutation sel (sel1 ++ rest)) -> fst (chisqr sy o v st) = Ok (Some c) ->
  exists c1, fst (chisqr sy o1 v st) = Ok (Some c1) /\ 0 <= c1 <= c.
Proof. exact fewer_points. Qed.
Print Assumptions C124_fewer.

(** the hypotheses are met: two measured points of glass in air, also masked, swapped and deleted *)
Example ex_C124_data : has_data sys_s both_s ([p_s] ++ [q_s]) [(633, 0); (633, 0)] /\ has_data sys_s first_s [p_s] [(633, 0)] /\
  has_data sys_s second_s [q_s] [(633, 0)] /\ has_data sys_s swapped_s [q_s; p_s] [(633, 0); (633, 0)] /\
  has_data sys_s alone_s [p_s] [(633, 0)] /\ alike both_s first_s /\ alike both_s second_s /\ alike both_s swapped_s /\ alike first_s alone_s /\
  Permutation ([p_s] ++ [q_s]) [q_s; p_s].
Proof.
  split; [exact has_both|]. split; [exact has_first|]. split; [exact has_second|]. split; [exact has_swapped|]. split; [exact has_alone|].
  split; [apply alike_s|]. split; [apply alike_s|]. split; [apply alike_s|]. split; [apply alike_s|]. apply perm_swap.
Qed.
Example ex_C124_chisqr : fst (chisqr sys_s both_s (Some [0; 0]) (st_g 0 0 None)) = Ok (Some 3) /\
  fst (chisqr sys_s first_s (Some [0; 0]) (st_g 0 0 None)) = Ok (Some 1) /\
  fst (chisqr sys_s second_s (Some [0; 0]) (st_g 0 0 None)) = Ok (Some 2).
Proof. exact (chisqr_s _ eq_refl). Qed.
Example ex_C124_logl : exists a b, fst (logl sys_s first_s (Some [0; 0]) (st_g 0 0 None)) = Ok a /\
  fst (logl sys_s second_s (Some [0; 0]) (st_g 0 0 None)) = Ok b /\
  fst (logl sys_s both_s (Some [0; 0]) (st_g 0 0 None)) = Ok (a + b).
Proof. exact logl_s. Qed.
