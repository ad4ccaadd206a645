(** * The covariance matrix in the limit of small steps (objectiveSE.py:453-525) *)

Require Import Reals.
From Coquelicot Require Import Coquelicot.
Require Import List Bool Lia.
From Verif Require Import Base Mat M_disp M_struct M_model M_data M_objective M_covar Spec_objective Spec_covar Spec_jac P_objective3 P_covar5 P_jac4.
Import ListNotations.
Open Scope list_scope.
Open Scope R_scope.

(** ** C135: covar with central differences of small steps is close to c (J^T J)^-1, J the Jacobian of
    the residuals *)
Theorem C135_covariance : forall sy o svd st m n c J Js, well_formed sy -> n = List.length (present sy o st) -> (0 < n <= m)%nat ->
  partials m (fun v => fst (residuals sy o (Some v) st)) (present sy o st) J ->
  (List.Forall (fun x => x <> 0) (present sy o st) -> columns_scaled m n J (present sy o st) Js) ->
  (List.Exists (fun x => x = 0) (present sy o st) -> Js = J) ->
  svd_correct svd -> (forall A, is_matrix m n A -> exists s VT, svd A = Ok (s, VT)) ->
  well_conditioned m n Js -> variance_scale sy o st m n c ->
  exists K, inverse_of n K (gram m J) /\
  forall eps, 0 < eps -> exists eta, 0 < eta /\ forall e1 e2 h1 h2, (forall x j, 0 < Rabs (h1 x j) < eta) -> (forall x j, 0 < Rabs (h2 x j) < eta) ->
  exists C, fst (covariance sy o (central_differences e1 h1) (central_differences e2 h2) svd st) = Ok C /\ is_matrix n n C /\
    forall i j, (i < n)%nat -> (j < n)%nat -> Rabs (entry C i j - c * K i j) < eps.
Proof. exact covariance_converges. Qed.
Print Assumptions C135_covariance.

(** the objective of C109: J = (0, 1), chi-squared 4 *)
Example C135_case : well_formed sys_g /\ present sys_g ob_1 (st_g 0 3 None) = [3] /\
  partials 2 (fun v => fst (residuals sys_g ob_1 (Some v) (st_g 0 3 None))) [3] [[0]; [1]] /\ columns_scaled 2 1 [[0]; [1]] [3] [[0]; [3]] /\
  svd_correct svd_ex /\ (forall A, is_matrix 2 1 A -> exists s VT, svd_ex A = Ok (s, VT)) /\
  well_conditioned 2 1 [[0]; [3]] /\ variance_scale sys_g ob_1 (st_g 0 3 None) 2 1 4.
Proof. exact case_1. Qed.
