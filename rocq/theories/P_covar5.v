(** * Concrete instances for covar *)

Require Import Reals List Bool Arith Lra Lia String.
From Coquelicot Require Import Coquelicot.
From Verif Require Import Base Mat M_disp M_struct M_model M_data Spec_data M_objective Spec_objective P_objective P_objective2 P_objective3
  M_covar Spec_covar P_covar P_covar2 P_covar3 P_covar4.
Import ListNotations.
Open Scope list_scope.
Open Scope R_scope.

(** ** Exact differentiation *)
Lemma partials_unique m F x J J' : partials m F x J -> partials m F x J' ->
  forall i j, (i < m)%nat -> (j < List.length x)%nat -> entry J i j = entry J' i j.
Proof.
  intros (_ & g & G1 & G2) (_ & h & H1 & H2) i j I K.
  assert (L : locally 0 (fun t => g i j t = h i j t)).
  { generalize (filter_and _ _ (G1 j K) (H1 j K)). apply filter_imp. intros t [X Y]. rewrite X in Y. injection Y as Y.
    assert (Z : nth i (map (fun i => Some (g i j t)) (seq 0 m)) None = nth i (map (fun i => Some (h i j t)) (seq 0 m)) None) by (rewrite Y; reflexivity).
    rewrite !nth_map_seq in Z by exact I. congruence. }
  rewrite <- (is_derive_unique _ _ _ (H2 i j I K)). symmetry. apply is_derive_unique.
  apply (is_derive_ext_loc (g i j)); [exact L|]. apply G2; assumption.
Qed.

Theorem covariance_exact sy o a1 a2 svd st m n c J jac used st1 s VT : well_formed sy ->
  (forall v, visits (List.length v) (a1 v) /\ visits (List.length v) (a2 v)) ->
  let pvals := map (value sy st) (varying_parameters sy o) in
  let F v := fst (residuals sy o (Some v) st) in
  n = List.length pvals -> (0 < n <= m)%nat ->
  partials m F pvals J ->
  jacobian sy o pvals a1 a2 st = (Ok jac, used, st1) ->
  (if used then partials m (fun v => F (map2 Rmult pvals v)) (map (fun _ => 1) pvals) jac else partials m F pvals jac) ->
  svd jac = Ok (s, VT) -> is_svd m n jac s VT -> well_conditioned m n jac -> variance_scale sy o st m n c ->
  exists C K, fst (covariance sy o a1 a2 svd st) = Ok C /\ is_matrix n n C /\
    inverse_of n K (gram m J) /\ forall i j, (i < n)%nat -> (j < n)%nat -> entry C i j = c * K i j.
Proof.
  intros WF V pvals F En N PJ E X Es D W VS.
  assert (MJ : is_matrix m n jac). { rewrite En. destruct used; destruct X as [X _]; [rewrite map_length in X|]; exact X. }
  destruct used.
  - apply (covariance_inverse sy o a1 a2 svd st m n c J jac true st1 s VT WF V En N E (proj1 MJ)); auto.
    rewrite En. apply (partials_scaled m F); auto. apply (jacobian_nonzero _ _ _ _ _ _ _ _ E).
  - destruct (covariance_inverse sy o a1 a2 svd st m n c jac jac false st1 s VT WF V En N E (proj1 MJ) eq_refl Es D W VS) as (C & K & A & B & I & G).
    exists C, K. split; [exact A|]. split; [exact B|]. split; [|exact G]. eapply inverse_ext_r; [|exact I].
    intros i j Hi Hj. unfold gram. apply sumn_ext. intros k Hk. rewrite En in Hi, Hj.
    rewrite !(partials_unique m F pvals jac J X PJ) by assumption. reflexivity.
Qed.

(** ** A decomposition for matrices with one nonzero column and two rows *)
Definition hypot (a b : R) : R := sqrt (a ^ 2 + b ^ 2).
Definition svd_ex : svd_fun := fun M =>
  match M with
  | [[a]; [b]] => Ok ([hypot a b], [[1]])
  | [[y; a]; [z; b]] => if Req_EM_T y 0 then if Req_EM_T z 0 then Ok ([hypot a b; 0], [[0; 1]; [1; 0]]) else Raise OtherError else Raise OtherError
  | _ => Raise OtherError
  end.
Lemma rotation a b : exists c s, c ^ 2 + s ^ 2 = 1 /\ a = c * hypot a b /\ b = s * hypot a b.
Proof.
  set (r := hypot a b). assert (R2 : r * r = a ^ 2 + b ^ 2) by (unfold r, hypot; apply sqrt_sqrt; nra).
  destruct (Req_dec r 0) as [Z|Z].
  - exists 1, 0. rewrite Z in *. split; [ring|]. split; nra.
  - exists (a / r), (b / r). split; [|split; field; exact Z].
    replace ((a / r) ^ 2 + (b / r) ^ 2) with ((a ^ 2 + b ^ 2) / (r * r)) by (field; exact Z). rewrite <- R2. field. exact Z.
Qed.
Ltac small k := destruct k as [|[|k]]; try lia.
Lemma svd_ex_correct : svd_correct svd_ex.
Proof.
  intros m n J s VT [L1 L2] E.
  destruct J as [|[|a [|a' [|? ?]]] [|[|b [|b' [|? ?]]] [|? ?]]]; try discriminate; cbn in L1; subst m; cbv beta iota delta [svd_ex] in E.
  - inversion L2; subst. cbn [List.length] in *. injection E as <- <-. destruct (rotation a b) as (c & d & R1 & R2 & R3).
    assert (Rp : 0 <= hypot a b) by apply sqrt_pos. set (r := hypot a b) in *. clearbody r.
    split; [reflexivity|]. split; [split; [reflexivity|repeat constructor]|]. split.
    { intros k l Hk Hl. cbn in Hl. small l. small k. cbn [nth]. lra. }
    split. { intros k l Hk Hl. cbn in Hk, Hl. small k. small l. cbn. ring. }
    exists (fun i k => nth i [c; d] 0). split.
    { intros k l Hk Hl. cbn in Hk, Hl. small k. small l. cbn. rewrite <- R1. ring. }
    intros i j Hi Hj. small j. small i; cbn [entry nth Nat.min sumn]; [etransitivity; [exact R2|]|etransitivity; [exact R3|]]; ring.
  - inversion L2; subst. cbn [List.length] in *. destruct (Req_EM_T a 0) as [->|]; [|discriminate]. destruct (Req_EM_T b 0) as [->|]; [|discriminate]. injection E as <- <-.
    destruct (rotation a' b') as (c & d & R1 & R2 & R3). assert (Rp : 0 <= hypot a' b') by apply sqrt_pos. set (r := hypot a' b') in *. clearbody r.
    split; [reflexivity|]. split; [split; [reflexivity|repeat constructor]|]. split.
    { intros k l Hk Hl. cbn in Hl. small l; small k; cbn [nth]; lra. }
    split. { intros k l Hk Hl. cbn in Hk, Hl. small k; small l; cbn; unfold delta; cbn; ring. }
    exists (fun i k => nth i (nth k [[c; d]; [- d; c]] []) 0). split.
    { intros k l Hk Hl. cbn in Hk, Hl. small k; small l; cbn; unfold delta; cbn; rewrite <- ?R1; ring. }
    intros i j Hi Hj. small j; small i; cbn [entry nth Nat.min sumn]; [ring|ring|etransitivity; [exact R2|]; ring|etransitivity; [exact R3|]; ring].
Qed.

(** ** One parameter, the delta offset; two residuals *)
Definition ob_1 : objective := Objective 0%nat data_g None false None.
Lemma data_1_has : has_data sys_g ob_1 [pt_g] [(633, 0)].
Proof. exact data_g_has. Qed.
Lemma residuals_now_1 st x : st_store st 0%nat = 0 -> st_store st 1%nat = x -> Rabs (x - 1) <= 180 ->
  fst (residuals sys_g ob_1 None st) = Ok [Some 0; Some (Rabs (x - 1))].
Proof.
  intros Z0 X B.
  assert (P : predicts sys_g st 0%nat [(633, 0)] [Some 45] [Some (180 + x)]) by (unfold predicts; rewrite model_g by exact Z0; rewrite X; reflexivity).
  destruct (residuals_spec sys_g ob_1 None st st _ _ _ _ data_1_has eq_refl P) as (rp & rd & E & L1 & L2 & _ & _ & N).
  rewrite E. destruct rp as [|a [|]]; try discriminate. destruct rd as [|b [|]]; try discriminate.
  destruct (N 0%nat pt_g (Some 45) (Some (180 + x)) eq_refl eq_refl eq_refl) as (a' & b' & A1 & A2 & B1 & B2).
  cbn in A1, B1. assert (a' = a) by congruence. assert (b' = b) by congruence. subst a' b'.
  cbn [minus pt_g p_psi fst snd] in A2. cbn [distance pt_g p_delta snd] in B2. destruct B2 as (d & D1 & D2 & _).
  subst a b. cbn [app]. f_equal. f_equal; [f_equal; ring|]. f_equal. f_equal.
  replace (180 + x - 181) with (x - 1) in D2 by ring. specialize (D2 ltac:(lra)).
  destruct D2 as [(k & K) M]. replace (180 + x - 181) with (x - 1) in K by ring.
  specialize (M 0%Z). rewrite Rmult_0_l, Rplus_0_r in M. replace (180 + x - 181) with (x - 1) in M by ring.
  pose proof (abs_shift (x - 1) 360 k ltac:(lra) ltac:(lra)) as Q. rewrite <- K in Q.
  rewrite Rmin_left in Q by lra. lra.
Qed.
Lemma varying_1 : varying_parameters sys_g ob_1 = [1%nat].
Proof. reflexivity. Qed.
Lemma residuals_1 st x : st_store st 0%nat = 0 -> Rabs (x - 1) <= 180 ->
  exists st', residuals sys_g ob_1 (Some [x]) st = (Ok [Some 0; Some (Rabs (x - 1))], st') /\ st_store st' 0%nat = 0.
Proof.
  intros Z0 B. pose proof (frames_after_residuals (fun q => In q [1%nat]) sys_g ob_1 (Some [x])) as F.
  assert (FS : frames (fun q => In q [1%nat]) (setp sys_g ob_1 (Some [x]))).
  { change [1%nat] with (varying_parameters sys_g ob_1). apply frames_setp. left. reflexivity. }
  specialize (F FS st).
  set (st1 := set_store st (write_all (st_store st) [1%nat] [x])).
  assert (E : residuals sys_g ob_1 (Some [x]) st = residuals sys_g ob_1 None st1) by reflexivity.
  pose proof (residuals_now_1 st1 x Z0 eq_refl B) as R. rewrite <- E in R.
  destruct (residuals sys_g ob_1 (Some [x]) st) as [r st'] eqn:E'. cbn [fst snd] in *. subst r. exists st'. split; [reflexivity|].
  destruct F as [F _]. rewrite F; [exact Z0|]. cbn. intros [H|[]]; discriminate.
Qed.

(** at a perfect fit the residuals have a kink: the central differences are 0 *)
Theorem perfect_fit e1 e2 h1 h2 svd : svd_correct svd -> (forall x j, 0 < h1 x j <= 180) -> (forall x j, 0 < h2 x j <= 180) ->
  (forall C, fst (covariance sys_g ob_1 (central_differences e1 h1) (central_differences e2 h2) svd (st_g 0 1 None)) <> Ok C) /\
  (forall x, Rabs (x - 1) <= 180 -> fst (residuals sys_g ob_1 (Some [x]) (st_g 0 1 None)) = Ok [Some 0; Some (Rabs (x - 1))]).
Proof.
  intros SC H1 H2. split.
  - apply (vanishing_column sys_g ob_1 e1 e2 h1 h2 svd (st_g 0 1 None) (wf_ex _ _ _) SC 0%nat); [cbn; lia|].
    assert (PV : map (value sys_g (st_g 0 1 None)) (varying_parameters sys_g ob_1) = [1]) by reflexivity.
    assert (G : forall t a b, 0 < t <= 180 -> fst (residuals sys_g ob_1 (Some (bump [1] 0 (- t))) (st_g 0 1 None)) = Ok a ->
      fst (residuals sys_g ob_1 (Some (bump [1] 0 t)) (st_g 0 1 None)) = Ok b -> a = b).
    { intros t a b T A B.
      change (bump [1] 0 (- t)) with [1 + - t] in A. change (bump [1] 0 t) with [1 + t] in B.
      assert (M1 : Rabs (1 + - t - 1) = t) by (rewrite Rabs_left; lra).
      assert (M2 : Rabs (1 + t - 1) = t) by (rewrite Rabs_right; lra).
      destruct (residuals_1 (st_g 0 1 None) (1 + - t) eq_refl ltac:(lra)) as (s1 & E1 & _). rewrite E1, M1 in A. cbn [fst] in A.
      destruct (residuals_1 (st_g 0 1 None) (1 + t) eq_refl ltac:(lra)) as (s2 & E2 & _). rewrite E2, M2 in B. cbn [fst] in B. congruence. }
    split; cbv zeta; rewrite ?PV.
    + intros a b A B. apply (G (h2 [1] 0%nat)); auto.
    + intros a b A B. cbn [nth] in A, B. rewrite Rmult_1_l in A, B. apply (G (h1 (map (fun _ => 1) [1]) 0%nat)); auto.
  - intros x X. destruct (residuals_1 (st_g 0 1 None) x eq_refl X) as (s & E & _). rewrite E. reflexivity.
Qed.

(** ** A fit that is not perfect: offset 3, one degree of freedom *)
Definition half : list R -> nat -> R := fun _ _ => 1 / 2.
Lemma jacobian_1 e1 e2 : exists st1,
  jacobian sys_g ob_1 [3] (central_differences e1 half) (central_differences e2 half) (st_g 0 3 None) = (Ok [[0]; [3]], true, st1).
Proof.
  unfold jacobian. cbn [existsb]. destruct (Req_EM_T 3 0) as [Z|_]; [lra|]. cbn [orb map].
  unfold central_differences. cbn [List.length seq central run_diff].
  change (bump [1] 0 (- half [1] 0%nat)) with [1 + - (1 / 2)]. change (bump [1] 0 (half [1] 0%nat)) with [1 + 1 / 2]. cbn [map2].
  destruct (residuals_1 (st_g 0 3 None) (3 * (1 + - (1 / 2))) eq_refl) as (s1 & E1 & Z1); [rewrite Rabs_right; lra|]. rewrite E1.
  destruct (residuals_1 s1 (3 * (1 + 1 / 2)) Z1) as (s2 & E2 & Z2); [rewrite Rabs_right; lra|]. rewrite E2.
  cbn [quotients combine mapM fst snd olift2 obind run_diff central app List.length nth]. unfold ret.
  eexists. f_equal. f_equal. f_equal. unfold matrix. cbn [seq map nth].
  rewrite !Rabs_right by lra. unfold half. f_equal; [f_equal; field|]. f_equal. f_equal. field.
Qed.
Lemma ball_abs (e t : R) : ball (0 : R_UniformSpace) e t -> Rabs t < e.
Proof. intros B. change (Rabs (t + - 0) < e) in B. rewrite Ropp_0, Rplus_0_r in B. exact B. Qed.
Lemma partials_1 : partials 2 (fun v => fst (residuals sys_g ob_1 (Some v) (st_g 0 3 None))) [3] [[0]; [1]].
Proof.
  split; [split; [reflexivity|repeat constructor]|].
  exists (fun i j t => if Nat.eqb i 0 then 0 else 2 + t). split.
  - intros j J. cbn in J. replace j with 0%nat by lia. exists (mkposreal 1 ltac:(lra)). intros t B. apply ball_abs in B. cbn [pos] in B.
    change (bump [3] 0 t) with [3 + t]. apply Rabs_def2 in B.
    destruct (residuals_1 (st_g 0 3 None) (3 + t) eq_refl) as (s1 & E1 & Z1); [rewrite Rabs_right; lra|]. rewrite E1.
    cbn [fst seq map Nat.eqb]. rewrite Rabs_right by lra. do 4 f_equal. ring.
  - intros i j I J. cbn in J. replace j with 0%nat by lia. small i; cbn [Nat.eqb entry nth].
    + apply (is_derive_const (0 : R)).
    + auto_derive; [auto|ring].
Qed.
Lemma partials_1s : partials 2 (fun v => fst (residuals sys_g ob_1 (Some (map2 Rmult [3] v)) (st_g 0 3 None))) [1] [[0]; [3]].
Proof.
  split; [split; [reflexivity|repeat constructor]|].
  exists (fun i j t => if Nat.eqb i 0 then 0 else 2 + 3 * t). split.
  - intros j J. cbn in J. replace j with 0%nat by lia. exists (mkposreal (1 / 4) ltac:(lra)). intros t B.
    assert (Bt : Rabs t < 1 / 4) by exact (ball_abs _ _ B).
    change (bump [1] 0 t) with [1 + t]. cbn [map2]. apply Rabs_def2 in Bt.
    destruct (residuals_1 (st_g 0 3 None) (3 * (1 + t)) eq_refl) as (s1 & E1 & Z1); [rewrite Rabs_right; lra|]. rewrite E1.
    cbn [fst seq map Nat.eqb]. rewrite Rabs_right by lra. do 4 f_equal. ring.
  - intros i j I J. cbn in J. replace j with 0%nat by lia. small i; cbn [Nat.eqb entry nth].
    + apply (is_derive_const (0 : R)).
    + auto_derive; [auto|ring].
Qed.
Lemma tiny : unit_roundoff * INR (Nat.max 2 1) < 1 / 2.
Proof.
  unfold unit_roundoff. cbn [Nat.max INR]. assert (8 <= 2 ^ 52) by (simpl; lra).
  assert (/ 2 ^ 52 <= / 8) by (apply Rinv_le_contravar; lra). lra.
Qed.
Lemma tiny_pos : 0 < unit_roundoff.
Proof. apply Rinv_0_lt_compat, pow_lt. lra. Qed.
Lemma conditioned_1 : well_conditioned 2 1 [[0]; [3]].
Proof.
  intros x X. pose proof tiny. pose proof tiny_pos.
  assert (0 < unit_roundoff * INR (Nat.max 2 1)) by (apply Rmult_lt_0_compat; [assumption|cbn; lra]).
  set (e := unit_roundoff * INR (Nat.max 2 1)) in *. unfold norm2, frobenius2, apply, entry in *. cbn [sumn nth] in *.
  assert (Y : 0 < x 0%nat ^ 2) by lra. assert (e ^ 2 < 1) by nra.
  assert (E : e ^ 2 * (0 + (0 + 0 ^ 2) + (0 + 3 ^ 2)) * (0 + x 0%nat ^ 2) = 9 * x 0%nat ^ 2 * e ^ 2) by ring. rewrite E. nra.
Qed.
Lemma scale_1 : variance_scale sys_g ob_1 (st_g 0 3 None) 2 1 4.
Proof.
  right. split; [reflexivity|]. split; [lia|]. exists 4. split.
  - destruct (chisqr_spec sys_g ob_1 None (st_g 0 3 None)) as (S1 & _).
    rewrite (S1 [0; Rabs (3 - 1)]).
    + f_equal. f_equal. cbn [map sum]. rewrite Rabs_right by lra. ring.
    + rewrite (residuals_now_1 (st_g 0 3 None) 3 eq_refl eq_refl); [reflexivity|]. rewrite Rabs_right; lra.
  - cbn. field.
Qed.
Lemma covariance_1 e1 e2 : exists C, fst (covariance sys_g ob_1 (central_differences e1 half) (central_differences e2 half) svd_ex (st_g 0 3 None)) = Ok C /\
  C = [[4]].
Proof.
  destruct (jacobian_1 e1 e2) as (st1 & E).
  destruct (covariance_exact sys_g ob_1 (central_differences e1 half) (central_differences e2 half) svd_ex (st_g 0 3 None) 2%nat 1%nat 4 [[0]; [1]] [[0]; [3]] true st1 [hypot 0 3] [[1]])
    as (C & K & A & B & I & G); auto.
  - apply wf_ex.
  - apply central_visits_all.
  - exact partials_1.
  - exact partials_1s.
  - apply (svd_ex_correct 2%nat 1%nat [[0]; [3]]); [split; [reflexivity|repeat constructor]|reflexivity].
  - exact conditioned_1.
  - exact scale_1.
  - exists C. split; [exact A|]. destruct B as [L1 L2]. destruct C as [|[|x [|]] [|]]; try discriminate; try (inversion L2; discriminate).
    specialize (G 0%nat 0%nat ltac:(lia) ltac:(lia)). destruct (I 0%nat 0%nat ltac:(lia) ltac:(lia)) as [I1 _].
    unfold gram, entry, delta in *. cbn in G, I1. assert (K 0%nat 0%nat = 1) by lra. f_equal. f_equal. rewrite G. lra.
Qed.

(** ** lnsigma: the objective of P_objective3 *)
Lemma unread_g : unread sys_g ob_g 2%nat.
Proof.
  intros q store x I. change (model_params sys_g (ob_model ob_g)) with [1; 0; 0; 0; 0; 0; 0]%nat in I.
  unfold read. cbn. unfold write. destruct (Nat.eqb_spec q 2) as [->|]; [|reflexivity].
  exfalso. cbn in I. repeat (destruct I as [I|I]; [discriminate|]). exact I.
Qed.

(** ** Perfectly correlated parameters *)
Definition svd_corr : svd_fun := fun M =>
  if Req_EM_T (entry M 0 1) 1 then Ok ([2; 0], [[/ sqrt 2; / sqrt 2]; [/ sqrt 2; - / sqrt 2]])
  else Ok ([sqrt 10; 0], [[/ sqrt 5; 2 / sqrt 5]; [2 / sqrt 5; - / sqrt 5]]).
Lemma sq2 : / sqrt 2 * / sqrt 2 = 1 / 2.
Proof. rewrite <- Rinv_mult, sqrt_sqrt by lra. lra. Qed.
Lemma sq5 : / sqrt 5 * / sqrt 5 = 1 / 5.
Proof. rewrite <- Rinv_mult, sqrt_sqrt by lra. lra. Qed.
Lemma sq10 : sqrt 10 * sqrt 10 = 10. Proof. apply sqrt_sqrt. lra. Qed.
Lemma sq10_25 : sqrt 10 = sqrt 2 * sqrt 5. Proof. rewrite <- sqrt_mult by lra. f_equal. Qed.
Lemma svd_corr1 : is_svd 2 2 [[1; 1]; [1; 1]] [2; 0] [[/ sqrt 2; / sqrt 2]; [/ sqrt 2; - / sqrt 2]].
Proof.
  pose proof sq2 as S. set (a := / sqrt 2) in *.
  split; [reflexivity|]. split; [split; [reflexivity|repeat constructor]|]. split.
  { intros k l Hk Hl. cbn in Hl. small l; small k; cbn [nth]; lra. }
  split. { intros k l Hk Hl. cbn in Hk, Hl. unfold entry, delta. small k; small l; cbn; lra. }
  exists (fun i k => nth k (nth i [[a; a]; [a; - a]] []) 0). split.
  { intros k l Hk Hl. cbn in Hk, Hl. unfold delta. small k; small l; cbn; lra. }
  intros i j Hi Hj. unfold entry. small i; small j; cbn; lra.
Qed.
Lemma svd_corr2 : is_svd 2 2 [[1; 2]; [1; 2]] [sqrt 10; 0] [[/ sqrt 5; 2 / sqrt 5]; [2 / sqrt 5; - / sqrt 5]].
Proof.
  pose proof sq2 as S2. pose proof sq5 as S5. pose proof (sqrt_pos 10).
  assert (P : / sqrt 2 * sqrt 10 * / sqrt 5 = 1).
  { rewrite sq10_25. field. split; apply Rgt_not_eq, sqrt_lt_R0; lra. }
  unfold Rdiv. set (a := / sqrt 2) in *. set (b := / sqrt 5) in *. set (r := sqrt 10) in *.
  split; [reflexivity|]. split; [split; [reflexivity|repeat constructor]|]. split.
  { intros k l Hk Hl. cbn in Hl. small l; small k; cbn [nth]; lra. }
  split. { intros k l Hk Hl. cbn in Hk, Hl. unfold entry, delta. small k; small l; cbn; lra. }
  exists (fun i k => nth k (nth i [[a; a]; [a; - a]] []) 0). split.
  { intros k l Hk Hl. cbn in Hk, Hl. unfold delta. small k; small l; cbn; lra. }
  intros i j Hi Hj. unfold entry. small i; small j; cbn; lra.
Qed.
Lemma tiny2 : unit_roundoff * INR (Nat.max 2 2) < 1 / 2.
Proof. exact tiny. Qed.

Lemma corr_value jac used p s0 VT : List.length jac = 2%nat -> List.length p = 2%nat -> 0 < s0 ->
  svd_corr jac = Ok ([s0; 0], VT) -> exists cov, pseudo_inverse 2 2 [s0; 0] VT used p = Ok cov /\
  (forall i j, (i < 2)%nat -> (j < 2)%nat -> entry cov i j = entry VT 0 i / s0 ^ 2 * entry VT 0 j * (if used then nth i p 0 * nth j p 0 else 1)) /\
  algebra svd_corr jac used p = match singular 2 cov with [] => Ok cov | _ => Raise OtherError end.
Proof.
  intros L1 L2 S0 E. pose proof tiny2. pose proof tiny_pos.
  destruct (pseudo_inverse_value 2 2 [s0; 0] VT used p) as (r & cov & A & B & C & _ & G); [discriminate| |].
  { intros k l Hk Hl. cbn in Hl. small l; small k; cbn [nth]; lra. }
  assert (Rr : r = 1%nat).
  { cbn [nth] in B. unfold threshold in B. change eps with unit_roundoff in B.
    set (e := unit_roundoff * INR (Nat.max 2 2)) in *. assert (0 < e) by (unfold e; apply Rmult_lt_0_compat; [assumption|cbn; lra]).
    assert (X0 : (0 < r)%nat) by (apply (B 0%nat); [cbn; lia|cbn [nth]; nra]).
    destruct (lt_dec 1 r) as [X1|X1]; [|lia]. apply (B 1%nat) in X1; [|cbn; lia]. cbn [nth] in X1. nra. }
  subst r. exists cov. split; [exact C|]. split.
  - intros i j Hi Hj. rewrite G by assumption. cbn [sumn nth]. ring.
  - unfold algebra. rewrite E, L1, L2. cbn [rbind fst snd]. rewrite C. reflexivity.
Qed.

(** J x = 0 for x = (1, -1): the difference of the parameters is not determined; covar does not say so *)
Theorem correlated : exists cov cov', 
  is_svd 2 2 [[1; 1]; [1; 1]] [2; 0] [[/ sqrt 2; / sqrt 2]; [/ sqrt 2; - / sqrt 2]] /\
  is_svd 2 2 [[1; 2]; [1; 2]] [sqrt 10; 0] [[/ sqrt 5; 2 / sqrt 5]; [2 / sqrt 5; - / sqrt 5]] /\
  columns_scaled 2 2 [[1; 1]; [1; 1]] [1; 2] [[1; 2]; [1; 2]] /\
  (forall i, (i < 2)%nat -> apply 2 [[1; 1]; [1; 1]] (fun j => nth j [1; -1] 0) i = 0) /\
  algebra svd_corr [[1; 1]; [1; 1]] false [1; 2] = Ok cov /\ entry cov 0 0 = 1 / 8 /\ entry cov 1 1 = 1 / 8 /\
  algebra svd_corr [[1; 2]; [1; 2]] true [1; 2] = Ok cov' /\ entry cov' 0 0 = 1 / 50 /\ entry cov' 1 1 = 16 / 50.
Proof.
  pose proof sq2 as S2. pose proof sq5 as S5. pose proof sq10 as S10.
  destruct (corr_value [[1; 1]; [1; 1]] false [1; 2] 2 [[/ sqrt 2; / sqrt 2]; [/ sqrt 2; - / sqrt 2]]) as (cov & A & B & Cc); auto; [lra| |].
  { unfold svd_corr. destruct (Req_EM_T (entry [[1; 1]; [1; 1]] 0 1) 1) as [_|N]; [reflexivity|]. exfalso. apply N. reflexivity. }
  destruct (corr_value [[1; 2]; [1; 2]] true [1; 2] (sqrt 10) [[/ sqrt 5; 2 / sqrt 5]; [2 / sqrt 5; - / sqrt 5]]) as (cov' & A' & B' & C'); auto; [apply sqrt_lt_R0; lra| |].
  { unfold svd_corr. destruct (Req_EM_T (entry [[1; 2]; [1; 2]] 0 1) 1) as [E|_]; [|reflexivity]. unfold entry in E. cbn in E. lra. }
  assert (V0 : entry cov 0 0 = 1 / 8). { rewrite B by lia. unfold entry. cbn [nth]. transitivity (/ sqrt 2 * / sqrt 2 / 4); [field; apply Rgt_not_eq, sqrt_lt_R0; lra|]. rewrite S2. lra. }
  assert (V1 : entry cov 1 1 = 1 / 8). { rewrite B by lia. unfold entry. cbn [nth]. transitivity (/ sqrt 2 * / sqrt 2 / 4); [field; apply Rgt_not_eq, sqrt_lt_R0; lra|]. rewrite S2. lra. }
  assert (P5 : sqrt 5 <> 0) by (apply Rgt_not_eq, sqrt_lt_R0; lra). assert (P10 : sqrt 10 <> 0) by (apply Rgt_not_eq, sqrt_lt_R0; lra).
  assert (V0' : entry cov' 0 0 = 1 / 50).
  { rewrite B' by lia. unfold entry. cbn [nth]. transitivity (/ sqrt 5 * / sqrt 5 / (sqrt 10 * sqrt 10)); [field; auto|]. rewrite S5, S10. lra. }
  assert (V1' : entry cov' 1 1 = 16 / 50).
  { rewrite B' by lia. unfold entry. cbn [nth]. transitivity (16 * (/ sqrt 5 * / sqrt 5) / (sqrt 10 * sqrt 10)); [field; auto|]. rewrite S5, S10. lra. }
  exists cov, cov'. split; [exact svd_corr1|]. split; [exact svd_corr2|]. split.
  { split; [split; [reflexivity|repeat constructor]|]. intros i j Hi Hj. unfold entry. small i; small j; cbn; ring. }
  split. { intros i Hi. unfold apply, entry. small i; cbn; ring. }
  assert (Sg : forall c, entry c 0 0 <> 0 -> entry c 1 1 <> 0 -> singular 2 c = []).
  { intros c N0 N1. unfold singular. cbn [seq filter]. destruct (Req_EM_T (entry c 0 0) 0); [contradiction|]. destruct (Req_EM_T (entry c 1 1) 0); [contradiction|]. reflexivity. }
  rewrite Cc, C', !Sg by lra. auto 10.
Qed.
