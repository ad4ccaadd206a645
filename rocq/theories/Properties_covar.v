(** * Properties of ObjectiveSE.covar (objectiveSE.py:453-525) *)

Require Import Reals List Bool Arith.
From Coquelicot Require Import Coquelicot.
From Verif Require Import Base Mat M_disp M_struct M_model M_data M_objective Spec_objective M_covar Spec_covar
  P_objective3 P_covar4 P_covar5 P_covar6.
Import ListNotations.
Open Scope list_scope.
Open Scope R_scope.

(** ** C109: the inverse of J^T J *)
Theorem C109_inverse : forall sy o a1 a2 svd st m n c J jac used s VT, well_formed sy ->
  (forall v, visits (List.length v) (a1 v) /\ visits (List.length v) (a2 v)) ->
  let pvals := map (value sy st) (varying_parameters sy o) in
  n = List.length pvals -> (0 < n <= m)%nat ->
  differentiated sy o a1 a2 st used jac -> List.length jac = m ->
  (if used then columns_scaled m n J pvals jac else J = jac) ->
  svd jac = Ok (s, VT) -> is_svd m n jac s VT -> well_conditioned m n jac -> variance_scale sy o st m n c ->
  exists C K, fst (covariance sy o a1 a2 svd st) = Ok C /\ is_matrix n n C /\
    inverse_of n K (gram m J) /\ forall i j, (i < n)%nat -> (j < n)%nat -> entry C i j = c * K i j.
Proof. exact inverse_of_returned. Qed.
Print Assumptions C109_inverse.

Theorem C109_exact_derivatives : forall sy o a1 a2 svd st m n c J jac used s VT, well_formed sy ->
  (forall v, visits (List.length v) (a1 v) /\ visits (List.length v) (a2 v)) ->
  let pvals := map (value sy st) (varying_parameters sy o) in
  let F v := fst (residuals sy o (Some v) st) in
  n = List.length pvals -> (0 < n <= m)%nat ->
  partials m F pvals J ->
  differentiated sy o a1 a2 st used jac ->
  (if used then partials m (fun v => F (map2 Rmult pvals v)) (map (fun _ => 1) pvals) jac else partials m F pvals jac) ->
  svd jac = Ok (s, VT) -> is_svd m n jac s VT -> well_conditioned m n jac -> variance_scale sy o st m n c ->
  exists C K, fst (covariance sy o a1 a2 svd st) = Ok C /\ is_matrix n n C /\
    inverse_of n K (gram m J) /\ forall i j, (i < n)%nat -> (j < n)%nat -> entry C i j = c * K i j.
Proof. exact inverse_of_exact. Qed.
Print Assumptions C109_exact_derivatives.

(** one parameter, two residuals 0 and |x - 1| at x = 3: J = (0, 1), chi-squared 4 *)
Example C109_example : forall e1 e2, exists C,
  fst (covariance sys_g ob_1 (central_differences e1 half) (central_differences e2 half) svd_ex (st_g 0 3 None)) = Ok C /\ C = [[4]].
Proof. exact covariance_1. Qed.
Example C109_derivatives : partials 2 (fun v => fst (residuals sys_g ob_1 (Some v) (st_g 0 3 None))) [3] [[0]; [1]] /\
  partials 2 (fun v => fst (residuals sys_g ob_1 (Some (map2 Rmult [3] v)) (st_g 0 3 None))) [1] [[0]; [3]] /\
  well_conditioned 2 1 [[0]; [3]] /\ variance_scale sys_g ob_1 (st_g 0 3 None) 2 1 4.
Proof. exact (conj partials_1 (conj partials_1s (conj conditioned_1 scale_1))). Qed.

(** ** C110: symmetric, positive *)
Theorem C110_positive : forall sy o a1 a2 svd st m n jac used s VT C, well_formed sy ->
  (forall v, visits (List.length v) (a1 v) /\ visits (List.length v) (a2 v)) ->
  n = List.length (varying_parameters sy o) -> (0 < n)%nat -> (0 < m)%nat ->
  differentiated sy o a1 a2 st used jac -> List.length jac = m ->
  svd jac = Ok (s, VT) -> is_svd m n jac s VT ->
  fst (covariance sy o a1 a2 svd st) = Ok C ->
  (forall i j, (i < n)%nat -> (j < n)%nat -> entry C i j = entry C j i) /\
  ((m > n)%nat \/ weighted o = true ->
    (forall x, 0 <= quad n (entry C) x) /\
    (weighted o = true \/ fst (chisqr sy o None st) <> Ok (Some 0) -> forall i, (i < n)%nat -> 0 < entry C i i)).
Proof. exact returned_psd. Qed.
Print Assumptions C110_positive.
Example C110_case : forall e1 e2,
  differentiated sys_g ob_1 (central_differences e1 half) (central_differences e2 half) (st_g 0 3 None) true [[0]; [3]] /\
  svd_ex [[0]; [3]] = Ok ([hypot 0 3], [[1]]) /\ is_svd 2 1 [[0]; [3]] [hypot 0 3] [[1]].
Proof. exact (fun e1 e2 => conj (differentiated_1 e1 e2) svd_1). Qed.

(** ** C111: parameters without effect *)
Theorem C111_no_effect : forall sy o a1 a2 svd st m n jac used s VT j, well_formed sy ->
  (forall v, visits (List.length v) (a1 v) /\ visits (List.length v) (a2 v)) ->
  n = List.length (varying_parameters sy o) -> (0 < m)%nat ->
  differentiated sy o a1 a2 st used jac -> List.length jac = m ->
  svd jac = Ok (s, VT) -> is_svd m n jac s VT ->
  (j < n)%nat -> (forall i, (i < m)%nat -> entry jac i j = 0) ->
  fst (covariance sy o a1 a2 svd st) = Raise OtherError.
Proof. exact column_of_zeros. Qed.
Print Assumptions C111_no_effect.

Theorem C111_only_then : forall sy o a1 a2 svd st m n c jac used s VT e, well_formed sy ->
  (forall v, visits (List.length v) (a1 v) /\ visits (List.length v) (a2 v)) ->
  n = List.length (varying_parameters sy o) -> (0 < n)%nat -> (0 < m)%nat ->
  differentiated sy o a1 a2 st used jac -> List.length jac = m ->
  svd jac = Ok (s, VT) -> is_svd m n jac s VT -> variance_scale sy o st m n c ->
  fst (covariance sy o a1 a2 svd st) = Raise e ->
  e = OtherError /\ exists j, (j < n)%nat /\ invisible m n jac j.
Proof. exact reported_invisible. Qed.
Print Assumptions C111_only_then.
Example C111_case :
  differentiated sys_g ob_g (known [[0; 1]; [0; 2]]) (known []) (st_g 1 3 None) true [[0; 1]; [0; 2]] /\
  (exists s VT, svd_ex [[0; 1]; [0; 2]] = Ok (s, VT) /\ is_svd 2 2 [[0; 1]; [0; 2]] s VT) /\ variance_scale sys_g ob_g (st_g 1 3 None) 2 2 1 /\
  fst (covariance sys_g ob_g (known [[0; 1]; [0; 2]]) (known []) svd_ex (st_g 1 3 None)) = Raise OtherError.
Proof. exact no_effect_case. Qed.

Theorem C111_lnsigma : forall sy o e1 e2 h1 h2 svd st p, well_formed sy -> svd_correct svd ->
  ob_lnsigma o = Some p -> p_vary (sy_params sy p) = true -> unread sy o p ->
  forall C, fst (covariance sy o (central_differences e1 h1) (central_differences e2 h2) svd st) <> Ok C.
Proof. exact covariance_lnsigma. Qed.
Print Assumptions C111_lnsigma.
Example C111_lnsigma_case : well_formed sys_g /\ svd_correct svd_ex /\ ob_lnsigma ob_g = Some 2%nat /\
  p_vary (sy_params sys_g 2%nat) = true /\ unread sys_g ob_g 2%nat.
Proof. exact (conj (wf_ex _ _ _) (conj svd_ex_correct (conj eq_refl (conj eq_refl unread_g)))). Qed.

(** ** C112: combinations of parameters without effect are not reported *)
Theorem C112_reported_refuted : exists sy o st svd J J' C C',
  let pvals := map (value sy st) (varying_parameters sy o) in
  let fails := fun _ : list R => Throw FloatingPointError in
  well_formed sy /\ weighted o = true /\ columns_scaled 2 2 J pvals J' /\
  (exists x, 0 < norm2 2 x /\ forall i, (i < 2)%nat -> apply 2 J x i = 0) /\
  (exists s VT, svd J = Ok (s, VT) /\ is_svd 2 2 J s VT) /\ (exists s VT, svd J' = Ok (s, VT) /\ is_svd 2 2 J' s VT) /\
  differentiated sy o fails (known J) st false J /\ fst (covariance sy o fails (known J) svd st) = Ok C /\
  differentiated sy o (known J') (known J) st true J' /\ fst (covariance sy o (known J') (known J) svd st) = Ok C' /\
  entry C 0 0 = 1 / 8 /\ entry C 1 1 = 1 / 8 /\ entry C' 0 0 = 1 / 50 /\ entry C' 1 1 = 16 / 50.
Proof. exact correlated_paths. Qed.
Print Assumptions C112_reported_refuted.

(** ** C113: a perfect fit *)
Theorem C113_perfect_fit_refuted : exists sy o st, forall e1 e2 h1 h2 svd, svd_correct svd ->
  (forall x j, 0 < h1 x j <= 180) -> (forall x j, 0 < h2 x j <= 180) ->
  (forall C, fst (covariance sy o (central_differences e1 h1) (central_differences e2 h2) svd st) <> Ok C) /\
  (forall x, Rabs (x - 1) <= 180 -> fst (residuals sy o (Some [x]) st) = Ok [Some 0; Some (Rabs (x - 1))]).
Proof. exact (ex_intro _ sys_g (ex_intro _ ob_1 (ex_intro _ (st_g 0 1 None) perfect_fit))). Qed.
Print Assumptions C113_perfect_fit_refuted.

(** ** C114: more parameters than residuals *)
Theorem C114_negative : forall sy o a1 a2 svd st m n jac used s VT C, well_formed sy ->
  (forall v, visits (List.length v) (a1 v) /\ visits (List.length v) (a2 v)) ->
  n = List.length (varying_parameters sy o) -> (0 < m < n)%nat -> weighted o = false ->
  differentiated sy o a1 a2 st used jac -> List.length jac = m ->
  svd jac = Ok (s, VT) -> is_svd m n jac s VT ->
  fst (covariance sy o a1 a2 svd st) = Ok C -> fst (chisqr sy o None st) <> Ok (Some 0) ->
  forall i, (i < n)%nat -> entry C i i < 0.
Proof. exact returned_negative. Qed.
Print Assumptions C114_negative.

Theorem C114_variances_refuted : exists sy o a1 a2 svd st s VT C,
  well_formed sy /\ (forall v, visits (List.length v) (a1 v) /\ visits (List.length v) (a2 v)) /\
  (exists used jac, differentiated sy o a1 a2 st used jac /\ svd jac = Ok (s, VT) /\ is_svd 2 3 jac s VT) /\
  fst (covariance sy o a1 a2 svd st) = Ok C /\ (forall i, (i < 3)%nat -> entry C i i < 0).
Proof. exact negative_variances. Qed.
Print Assumptions C114_variances_refuted.
