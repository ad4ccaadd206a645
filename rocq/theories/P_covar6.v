(** * covar in terms of what the differentiation returned; more parameters than residuals *)

Require Import Reals List Bool Arith Lra Lia String.
From Coquelicot Require Import Coquelicot.
From Verif Require Import Base Mat M_disp M_struct M_model P_struct2 P_model2 M_data Spec_data M_objective Spec_objective P_objective P_objective2 P_objective3
  M_covar Spec_covar P_covar P_covar2 P_covar3 P_covar4 P_covar5.
Import ListNotations.
Open Scope list_scope.
Open Scope R_scope.

Lemma differentiated_jacobian sy o a1 a2 st used jac : differentiated sy o a1 a2 st used jac ->
  exists st1, jacobian sy o (map (value sy st) (varying_parameters sy o)) a1 a2 st = (Ok jac, used, st1).
Proof.
  unfold differentiated. set (p := map (value sy st) (varying_parameters sy o)).
  assert (NZ : List.Forall (fun x => x <> 0) p -> existsb (fun x => if Req_EM_T x 0 then true else false) p = false).
  { intros F. destruct (existsb _ p) eqn:E; [|reflexivity]. apply existsb_exists in E as (x & I1 & I2).
    destruct (Req_EM_T x 0) as [Z|]; [|discriminate]. exfalso. apply (proj1 (Forall_forall _ _) F x I1 Z). }
  unfold jacobian. intros [(-> & F & st1 & E)|(-> & [(X & st1 & E)|(F & st1 & st2 & E & E')])].
  - rewrite (NZ F), E. eexists. reflexivity.
  - assert (B : existsb (fun x => if Req_EM_T x 0 then true else false) p = true).
    { apply existsb_exists. apply Exists_exists in X as (x & I1 & ->). exists 0. split; [exact I1|]. destruct (Req_EM_T 0 0); auto. }
    rewrite B, E. eexists. reflexivity.
  - rewrite (NZ F), E, E'. eexists. reflexivity.
Qed.

Theorem inverse_of_returned sy o a1 a2 svd st m n c J jac used s VT : well_formed sy ->
  (forall v, visits (List.length v) (a1 v) /\ visits (List.length v) (a2 v)) ->
  let pvals := map (value sy st) (varying_parameters sy o) in
  n = List.length pvals -> (0 < n <= m)%nat ->
  differentiated sy o a1 a2 st used jac -> List.length jac = m ->
  (if used then columns_scaled m n J pvals jac else J = jac) ->
  svd jac = Ok (s, VT) -> is_svd m n jac s VT -> well_conditioned m n jac -> variance_scale sy o st m n c ->
  exists C K, fst (covariance sy o a1 a2 svd st) = Ok C /\ is_matrix n n C /\
    inverse_of n K (gram m J) /\ forall i j, (i < n)%nat -> (j < n)%nat -> entry C i j = c * K i j.
Proof.
  intros WF V pvals En N D. apply differentiated_jacobian in D as (st1 & D).
  intros. eapply covariance_inverse; eauto.
Qed.
Theorem inverse_of_exact sy o a1 a2 svd st m n c J jac used s VT : well_formed sy ->
  (forall v, visits (List.length v) (a1 v) /\ visits (List.length v) (a2 v)) ->
  let pvals := map (value sy st) (varying_parameters sy o) in
  let F v := fst (residuals sy o (Some v) st) in
  n = List.length pvals -> (0 < n <= m)%nat ->
  partials m F pvals J ->
  differentiated sy o a1 a2 st used jac ->
  (if used then partials m (fun v => F (map2 Rmult pvals v)) (map (fun _ => 1) pvals) jac else partials m F pvals jac) ->
  svd jac = Ok (s, VT) -> is_svd m n jac s VT -> well_conditioned m n jac -> variance_scale sy o st m n c ->
  exists C K, fst (covariance sy o a1 a2 svd st) = Ok C /\ is_matrix n n C /\
    inverse_of n K (gram m J) /\ forall i j, (i < n)%nat -> (j < n)%nat -> entry C i j = c * K i j.
Proof.
  intros WF V pvals F En N P D. apply differentiated_jacobian in D as (st1 & D).
  intros. eapply covariance_exact; eauto.
Qed.
Theorem returned_psd sy o a1 a2 svd st m n jac used s VT C : well_formed sy ->
  (forall v, visits (List.length v) (a1 v) /\ visits (List.length v) (a2 v)) ->
  n = List.length (varying_parameters sy o) -> (0 < n)%nat -> (0 < m)%nat ->
  differentiated sy o a1 a2 st used jac -> List.length jac = m ->
  svd jac = Ok (s, VT) -> is_svd m n jac s VT ->
  fst (covariance sy o a1 a2 svd st) = Ok C ->
  (forall i j, (i < n)%nat -> (j < n)%nat -> entry C i j = entry C j i) /\
  ((m > n)%nat \/ weighted o = true ->
    (forall x, 0 <= quad n (entry C) x) /\
    (weighted o = true \/ fst (chisqr sy o None st) <> Ok (Some 0) -> forall i, (i < n)%nat -> 0 < entry C i i)).
Proof.
  intros WF V En N M D Em Es Dc H. apply differentiated_jacobian in D as (st1 & D).
  destruct (covariance_psd sy o a1 a2 svd st m n jac used st1 s VT C WF V) as (c & VS & Sy & P & G); auto.
  { rewrite map_length. exact En. }
  split; [exact Sy|]. intros K. split; [exact (P K)|]. intros Z i Hi. apply (G i Hi).
  destruct VS as [[W ->]|(W & Nn & c2 & E & ->)]; [lra|].
  destruct K as [K|K]; [|congruence]. destruct Z as [Z|Z]; [congruence|].
  assert (0 < c2). { pose proof (chisqr_nonneg _ _ _ _ _ E). destruct (Req_dec c2 0) as [->|]; [contradiction|]. lra. }
  apply Rdiv_lt_0_compat; [assumption|]. apply lt_INR in K. lra.
Qed.
Theorem returned_negative sy o a1 a2 svd st m n jac used s VT C : well_formed sy ->
  (forall v, visits (List.length v) (a1 v) /\ visits (List.length v) (a2 v)) ->
  n = List.length (varying_parameters sy o) -> (0 < m < n)%nat -> weighted o = false ->
  differentiated sy o a1 a2 st used jac -> List.length jac = m ->
  svd jac = Ok (s, VT) -> is_svd m n jac s VT ->
  fst (covariance sy o a1 a2 svd st) = Ok C -> fst (chisqr sy o None st) <> Ok (Some 0) ->
  forall i, (i < n)%nat -> entry C i i < 0.
Proof.
  intros WF V En N W D Em Es Dc H Z. apply differentiated_jacobian in D as (st1 & D).
  destruct (covariance_psd sy o a1 a2 svd st m n jac used st1 s VT C WF V) as (c & VS & Sy & P & G); auto; try lia.
  { rewrite map_length. exact En. }
  intros i Hi. apply (G i Hi).
  destruct VS as [[W' _]|(_ & Nn & c2 & E & ->)]; [congruence|].
  assert (0 < c2). { pose proof (chisqr_nonneg _ _ _ _ _ E). destruct (Req_dec c2 0) as [->|]; [contradiction|]. lra. }
  destruct N as [_ N]. apply lt_INR in N.
  replace (c2 / (INR m - INR n)) with (- (c2 / (INR n - INR m))) by (field; lra).
  assert (0 < c2 / (INR n - INR m)) by (apply Rdiv_lt_0_compat; lra). lra.
Qed.
Theorem column_of_zeros sy o a1 a2 svd st m n jac used s VT j : well_formed sy ->
  (forall v, visits (List.length v) (a1 v) /\ visits (List.length v) (a2 v)) ->
  n = List.length (varying_parameters sy o) -> (0 < m)%nat ->
  differentiated sy o a1 a2 st used jac -> List.length jac = m ->
  svd jac = Ok (s, VT) -> is_svd m n jac s VT ->
  (j < n)%nat -> (forall i, (i < m)%nat -> entry jac i j = 0) ->
  fst (covariance sy o a1 a2 svd st) = Raise OtherError.
Proof.
  intros WF V En M D Em Es Dc Hj Z. apply differentiated_jacobian in D as (st1 & D).
  apply (covariance_zero_column sy o a1 a2 svd st m n jac used st1 s VT j); auto. rewrite map_length. exact En.
Qed.
Theorem reported_invisible sy o a1 a2 svd st m n c jac used s VT e : well_formed sy ->
  (forall v, visits (List.length v) (a1 v) /\ visits (List.length v) (a2 v)) ->
  n = List.length (varying_parameters sy o) -> (0 < n)%nat -> (0 < m)%nat ->
  differentiated sy o a1 a2 st used jac -> List.length jac = m ->
  svd jac = Ok (s, VT) -> is_svd m n jac s VT -> variance_scale sy o st m n c ->
  fst (covariance sy o a1 a2 svd st) = Raise e ->
  e = OtherError /\ exists j, (j < n)%nat /\ invisible m n jac j.
Proof.
  intros WF V En N M D Em Es Dc VS H. apply differentiated_jacobian in D as (st1 & D).
  apply (covariance_reported sy o a1 a2 svd st m n c jac used st1 s VT e); auto. rewrite map_length. exact En.
Qed.

(** ** Three parameters, two residuals *)
Definition ps_3 (p : pid) : param := Param (Nat.ltb p 3%nat) None (Interval (-10) 10).
Definition sys_3 : system := System ps_3 no_ext [halves_t 1 (3 / 2)] [ModelT 0%nat 1%nat] heap_g.
Definition ob_3 : objective := Objective 0%nat data_g (Some 2%nat) false None.
Definition jac_3 : list (list R) := [[0; 0; 0]; [2; 1; 2]].
Definition VT_3 : list (list R) := [[2 / 3; 1 / 3; 2 / 3]; [2 / 3; - 2 / 3; - 1 / 3]].
Definition svd_3 : svd_fun := fun _ => Ok ([3; 0], VT_3).
Lemma wf_3 : well_formed sys_3. Proof. intros p _. reflexivity. Qed.
Lemma varying_3 : varying_parameters sys_3 ob_3 = [2; 1; 0]%nat. Proof. reflexivity. Qed.
Lemma visits_known jac v : visits (List.length v) (known jac v). Proof. constructor. Qed.
Lemma svd_3_ok : is_svd 2 3 jac_3 [3; 0] VT_3.
Proof.
  split; [reflexivity|]. split; [split; [reflexivity|repeat constructor]|]. split.
  { intros k l Hk Hl. cbn in Hl. small l; small k; cbn [nth]; lra. }
  split. { intros k l Hk Hl. cbn in Hk, Hl. unfold entry, delta. small k; small l; cbn; field. }
  exists (fun i k => if Nat.eqb i k then 0 else 1). split.
  { intros k l Hk Hl. cbn in Hk, Hl. unfold delta. small k; small l; cbn; ring. }
  intros i j Hi Hj. unfold entry. destruct j as [|[|[|j]]]; try lia; small i; cbn; field.
Qed.
Lemma differentiated_3 : differentiated sys_3 ob_3 (known []) (known jac_3) (st_g 0 3 None) false jac_3.
Proof.
  right. split; [reflexivity|]. left. rewrite varying_3. split; [|eexists; reflexivity]. left. reflexivity.
Qed.
Lemma chisqr_3 : fst (chisqr sys_3 ob_3 None (st_g 0 3 None)) = Ok (Some 4).
Proof.
  destruct scale_1 as [[W _]|(_ & _ & c2 & E & F)]; [discriminate|].
  assert (c2 = 4). { cbn in F. replace (1 + 1 - 1) with 1 in F by ring. unfold Rdiv in F. rewrite Rinv_1 in F. lra. }
  subst c2. exact E.
Qed.
Lemma covariance_3 : exists C, fst (covariance sys_3 ob_3 (known []) (known jac_3) svd_3 (st_g 0 3 None)) = Ok C.
Proof.
  destruct (differentiated_jacobian _ _ _ _ _ _ _ differentiated_3) as (st1 & D).
  rewrite (covariance_run _ _ _ _ _ _ _ _ _ wf_3 (fun v => conj (visits_known _ v) (visits_known _ v)) D).
  rewrite varying_3, chisqr_3. change (List.length jac_3) with 2%nat.
  set (pv := map (value sys_3 (st_g 0 3 None)) [2; 1; 0]%nat).
  destruct (pseudo_inverse_value 2 3 [3; 0] VT_3 false pv) as (r & cov & A & B & Cc & _ & G); [discriminate| |].
  { intros k l Hk Hl. cbn in Hl. small l; small k; cbn [nth]; lra. }
  assert (T : 0 < threshold 2 3 (nth 0 [3; 0] 0) < 3).
  { unfold threshold. change eps with unit_roundoff. cbn [nth Nat.max INR]. unfold unit_roundoff. assert (8 <= 2 ^ 52) by (simpl; lra).
    assert (0 < / 2 ^ 52 <= / 8) by (split; [apply Rinv_0_lt_compat; lra|apply Rinv_le_contravar; lra]). lra. }
  assert (Rr : r = 1%nat).
  { assert (X0 : (0 < r)%nat) by (apply (B 0%nat); [cbn; lia|cbn [nth] in *; lra]).
    destruct (lt_dec 1 r) as [X1|X1]; [|lia]. apply (B 1%nat) in X1; [|cbn; lia]. cbn [nth] in *. lra. }
  subst r.
  unfold algebra, svd_3. cbn [rbind fst snd]. change (List.length jac_3) with 2%nat. change (List.length pv) with 3%nat. rewrite Cc. cbn [rbind].
  assert (E : forall i, (i < 3)%nat -> entry cov i i <> 0).
  { intros i Hi. rewrite G by lia. unfold entry. destruct i as [|[|[|i]]]; try lia; cbn; lra. }
  unfold singular. cbn [seq filter].
  destruct (Req_EM_T (entry cov 0 0) 0) as [X|_]; [exfalso; apply (E 0%nat); auto; lia|].
  destruct (Req_EM_T (entry cov 1 1) 0) as [X|_]; [exfalso; apply (E 1%nat); auto; lia|].
  destruct (Req_EM_T (entry cov 2 2) 0) as [X|_]; [exfalso; apply (E 2%nat); auto; lia|].
  cbn [rbind rescale]. unfold rescale. cbn [weighted]. change (weighted ob_3) with false. cbn [obind]. unfold odiv.
  destruct (Req_EM_T (INR 2 - INR 3) 0) as [X|_]; [cbn in X; lra|]. eexists. reflexivity.
Qed.
Theorem negative_variances : exists sy o a1 a2 svd st s VT C,
  well_formed sy /\ (forall v, visits (List.length v) (a1 v) /\ visits (List.length v) (a2 v)) /\
  (exists used jac, differentiated sy o a1 a2 st used jac /\ svd jac = Ok (s, VT) /\ is_svd 2 3 jac s VT) /\
  fst (covariance sy o a1 a2 svd st) = Ok C /\ (forall i, (i < 3)%nat -> entry C i i < 0).
Proof.
  destruct covariance_3 as (C & H).
  exists sys_3, ob_3, (known []), (known jac_3), svd_3, (st_g 0 3 None), [3; 0], VT_3, C.
  split; [exact wf_3|]. split; [intros v; split; apply visits_known|].
  split; [exists false, jac_3; split; [exact differentiated_3|]; split; [reflexivity|exact svd_3_ok]|].
  split; [exact H|].
  apply (returned_negative sys_3 ob_3 (known []) (known jac_3) svd_3 (st_g 0 3 None) 2 3 jac_3 false [3; 0] VT_3 C wf_3); auto.
  - intros v; split; apply visits_known.
  - exact differentiated_3.
  - exact svd_3_ok.
  - rewrite chisqr_3. intros E. injection E as E. lra.
Qed.

(** ** Perfectly correlated parameters, on both paths *)
Theorem correlated_paths : exists sy o st svd J J' C C',
  let pvals := map (value sy st) (varying_parameters sy o) in
  let fails := fun _ : list R => Throw FloatingPointError in
  well_formed sy /\ weighted o = true /\ columns_scaled 2 2 J pvals J' /\
  (exists x, 0 < norm2 2 x /\ forall i, (i < 2)%nat -> apply 2 J x i = 0) /\
  (exists s VT, svd J = Ok (s, VT) /\ is_svd 2 2 J s VT) /\ (exists s VT, svd J' = Ok (s, VT) /\ is_svd 2 2 J' s VT) /\
  differentiated sy o fails (known J) st false J /\ fst (covariance sy o fails (known J) svd st) = Ok C /\
  differentiated sy o (known J') (known J) st true J' /\ fst (covariance sy o (known J') (known J) svd st) = Ok C' /\
  entry C 0 0 = 1 / 8 /\ entry C 1 1 = 1 / 8 /\ entry C' 0 0 = 1 / 50 /\ entry C' 1 1 = 16 / 50.
Proof.
  destruct correlated as (cov & cov' & S1 & S2 & CS & K & A & A0 & A1 & B & B0 & B1).
  assert (PV : map (value sys_g (st_g 1 2 None)) (varying_parameters sys_g ob_g) = [1; 2]) by reflexivity.
  assert (NZ : List.Forall (fun x => x <> 0) [1; 2]) by (repeat constructor; lra).
  assert (D1 : differentiated sys_g ob_g (fun _ => Throw FloatingPointError) (known [[1; 1]; [1; 1]]) (st_g 1 2 None) false [[1; 1]; [1; 1]]).
  { right. split; [reflexivity|]. right. rewrite PV. split; [exact NZ|]. do 2 eexists. split; reflexivity. }
  assert (D2 : differentiated sys_g ob_g (known [[1; 2]; [1; 2]]) (known [[1; 1]; [1; 1]]) (st_g 1 2 None) true [[1; 2]; [1; 2]]).
  { left. split; [reflexivity|]. rewrite PV. split; [exact NZ|]. eexists. reflexivity. }
  destruct (differentiated_jacobian _ _ _ _ _ _ _ D1) as (st1 & J1). destruct (differentiated_jacobian _ _ _ _ _ _ _ D2) as (st2 & J2).
  exists sys_g, ob_g, (st_g 1 2 None), svd_corr, [[1; 1]; [1; 1]], [[1; 2]; [1; 2]], cov, cov'. cbv zeta. rewrite PV.
  split; [apply wf_ex|]. split; [reflexivity|]. split; [exact CS|].
  split; [exists (fun j => nth j [1; -1] 0); split; [unfold norm2; cbn; lra|exact K]|].
  split. { do 2 eexists. split; [|exact S1]. unfold svd_corr. destruct (Req_EM_T (entry [[1; 1]; [1; 1]] 0 1) 1) as [_|N]; [reflexivity|]. exfalso. apply N. reflexivity. }
  split. { do 2 eexists. split; [|exact S2]. unfold svd_corr. destruct (Req_EM_T (entry [[1; 2]; [1; 2]] 0 1) 1) as [X|_]; [|reflexivity]. unfold entry in X. cbn in X. lra. }
  split; [exact D1|]. split.
  { rewrite (covariance_run sys_g ob_g _ _ svd_corr _ _ _ _ (wf_ex _ _ _)) with (2 := J1); [|intros v; split; constructor]. rewrite PV, A. reflexivity. }
  split; [exact D2|]. split.
  { rewrite (covariance_run sys_g ob_g _ _ svd_corr _ _ _ _ (wf_ex _ _ _)) with (2 := J2); [|intros v; split; constructor]. rewrite PV, B. reflexivity. }
  auto.
Qed.

(** ** Cases for the hypotheses *)
Lemma differentiated_1 e1 e2 : differentiated sys_g ob_1 (central_differences e1 half) (central_differences e2 half) (st_g 0 3 None) true [[0]; [3]].
Proof.
  left. split; [reflexivity|]. change (map (value sys_g (st_g 0 3 None)) (varying_parameters sys_g ob_1)) with [3].
  split; [repeat constructor; lra|].
  destruct (jacobian_1 e1 e2) as (st1 & E). unfold jacobian in E. cbn [existsb] in E. destruct (Req_EM_T 3 0) as [Z|_]; [lra|]. cbn [orb] in E.
  destruct (run_diff _ _ (st_g 0 3 None)) as [[j|e] st']; [injection E as -> _; eexists; reflexivity|].
  destruct e; try discriminate. destruct (run_diff _ _ _) in E. discriminate.
Qed.
Lemma svd_1 : svd_ex [[0]; [3]] = Ok ([hypot 0 3], [[1]]) /\ is_svd 2 1 [[0]; [3]] [hypot 0 3] [[1]].
Proof. split; [reflexivity|]. apply (svd_ex_correct 2%nat 1%nat [[0]; [3]]); [split; [reflexivity|repeat constructor]|reflexivity]. Qed.
Lemma no_effect_case : differentiated sys_g ob_g (known [[0; 1]; [0; 2]]) (known []) (st_g 1 3 None) true [[0; 1]; [0; 2]] /\ 
  (exists s VT, svd_ex [[0; 1]; [0; 2]] = Ok (s, VT) /\ is_svd 2 2 [[0; 1]; [0; 2]] s VT) /\ variance_scale sys_g ob_g (st_g 1 3 None) 2 2 1 /\
  fst (covariance sys_g ob_g (known [[0; 1]; [0; 2]]) (known []) svd_ex (st_g 1 3 None)) = Raise OtherError.
Proof.
  assert (D : differentiated sys_g ob_g (known [[0; 1]; [0; 2]]) (known []) (st_g 1 3 None) true [[0; 1]; [0; 2]]).
  { left. split; [reflexivity|]. change (map (value sys_g (st_g 1 3 None)) (varying_parameters sys_g ob_g)) with [1; 3].
    split; [repeat constructor; lra|]. eexists. reflexivity. }
  assert (S : svd_ex [[0; 1]; [0; 2]] = Ok ([hypot 1 2; 0], [[0; 1]; [1; 0]])).
  { cbv beta iota delta [svd_ex]. destruct (Req_EM_T 0 0); [reflexivity|contradiction]. }
  assert (S' : is_svd 2 2 [[0; 1]; [0; 2]] [hypot 1 2; 0] [[0; 1]; [1; 0]]).
  { apply (svd_ex_correct 2%nat 2%nat [[0; 1]; [0; 2]]); [split; [reflexivity|repeat constructor]|exact S]. }
  split; [exact D|]. split; [do 2 eexists; split; [exact S|exact S']|]. split; [left; auto|].
  apply (column_of_zeros sys_g ob_g _ _ svd_ex _ 2 2 [[0; 1]; [0; 2]] true _ _ 0 (wf_ex _ _ _)) with (6 := S) (7 := S'); auto; [intros v; split; constructor|].
  intros i Hi. unfold entry. small i; reflexivity.
Qed.
