(** * Proofs about covar: the call *)

Require Import Reals List Bool Arith Lra Lia FunctionalExtensionality.
From Coquelicot Require Import Coquelicot.
From Verif Require Import Base Mat M_disp M_struct M_model M_data M_objective Spec_objective P_objective P_objective2 M_covar Spec_covar P_covar P_covar2.
Import ListNotations.
Open Scope list_scope.
Open Scope R_scope.

Lemma jacobian_frame sy o a1 a2 st :
  (forall v, visits (List.length v) (a1 v) /\ visits (List.length v) (a2 v)) ->
  frame (fun q => In q (varying_parameters sy o)) st (snd (jacobian sy o (map (value sy st) (varying_parameters sy o)) a1 a2 st)).
Proof.
  intros V. set (pvals := map (value sy st) (varying_parameters sy o)).
  assert (LP : List.length pvals = List.length (varying_parameters sy o)) by apply map_length.
  set (P := fun q => In q (varying_parameters sy o)).
  assert (RF : forall v, List.length v = List.length pvals -> frames P (residuals sy o (Some v))).
  { intros v L. apply frames_after_residuals, frames_setp. left. congruence. }
  assert (F1 : frames P (run_diff (fun vals => residuals sy o (Some (map2 Rmult pvals vals))) (a1 (map (fun _ => 1) pvals)))).
  { apply (frames_diff P (List.length (map (fun _ : R => 1) pvals))); [apply V|].
    intros v L. apply RF. rewrite map2_length, L, map_length. lia. }
  assert (F2 : frames P (run_diff (fun vals => residuals sy o (Some vals)) (a2 pvals))).
  { apply (frames_diff P (List.length pvals)); [apply V|]. exact RF. }
  unfold jacobian. destruct (existsb _ pvals).
  - specialize (F2 st). destruct (run_diff _ _ _) as [r s]. exact F2.
  - specialize (F1 st). destruct (run_diff _ (a1 _) st) as [[j|e] s]; [exact F1|].
    specialize (F2 s). destruct e; try exact F1.
    destruct (run_diff _ (a2 pvals) s) as [r s2]. eapply frame_trans; eauto.
Qed.

Lemma jacobian_nonzero sy o pvals a1 a2 st jac st1 : jacobian sy o pvals a1 a2 st = (Ok jac, true, st1) ->
  List.Forall (fun x => x <> 0) pvals.
Proof.
  unfold jacobian. destruct (existsb (fun x => if Req_EM_T x 0 then true else false) pvals) eqn:E.
  - destruct (run_diff _ _ _) as [r s]. discriminate.
  - intros _. apply Forall_forall. intros x I Z. assert (X : existsb (fun x => if Req_EM_T x 0 then true else false) pvals = true).
    { apply existsb_exists. exists x. split; [exact I|]. destruct (Req_EM_T x 0); auto. }
    congruence.
Qed.

Definition rescale (w : bool) (chi : result num) (m n : nat) (cov : list (list R)) : result (list (list R)) :=
  if w then Ok cov else
  match chi with
  | Raise e => Raise e
  | Ok c2 => match obind c2 (fun c2 => odiv c2 (INR m - INR n)) with
             | Some scale => Ok (map (map (Rmult scale)) cov)
             | None => Raise OtherError
             end
  end.
Lemma covariance_run sy o a1 a2 svd st jac used st1 : well_formed sy ->
  (forall v, visits (List.length v) (a1 v) /\ visits (List.length v) (a2 v)) ->
  let pvals := map (value sy st) (varying_parameters sy o) in
  jacobian sy o pvals a1 a2 st = (Ok jac, used, st1) ->
  fst (covariance sy o a1 a2 svd st) =
    rbind (algebra svd jac used pvals) (rescale (weighted o) (fst (chisqr sy o None st)) (List.length jac) (List.length pvals)).
Proof.
  intros WF V pvals E. pose proof (jacobian_frame sy o a1 a2 st V) as F. fold pvals in F. rewrite E in F. cbn [snd] in F.
  unfold covariance, covar. fold pvals. rewrite E.
  destruct (setp_restore sy o st st1 WF F) as (st2 & E2 & S1 & S2). fold pvals in E2. rewrite E2.
  unfold bind, lift at 1. unfold lift. destruct (algebra svd jac used pvals) as [cov|e]; cbn [rbind]; [|reflexivity].
  unfold rescale. destruct (weighted o); [reflexivity|].
  assert (C : fst (chisqr sy o None st2) = fst (chisqr sy o None st)).
  { apply (respects_bind sy o (setp sy o None) (fun _ => chisqr_now sy o)); [apply respects_setp|intros; apply respects_chisqr|apply same_store; auto]. }
  rewrite <- C. destruct (chisqr sy o None st2) as [[c2|e] st3]; cbn [fst]; [|reflexivity].
  destruct (obind c2 _); reflexivity.
Qed.
Lemma covariance_raise sy o a1 a2 svd st e used st1 : well_formed sy ->
  (forall v, visits (List.length v) (a1 v) /\ visits (List.length v) (a2 v)) ->
  jacobian sy o (map (value sy st) (varying_parameters sy o)) a1 a2 st = (Raise e, used, st1) ->
  fst (covariance sy o a1 a2 svd st) = Raise e.
Proof.
  intros WF V E. pose proof (jacobian_frame sy o a1 a2 st V) as F. rewrite E in F. cbn [snd] in F.
  unfold covariance, covar. rewrite E.
  destruct (setp_restore sy o st st1 WF F) as (st2 & E2 & _). rewrite E2. reflexivity.
Qed.

Lemma entry_scaled c M i j : entry (map (map (Rmult c)) M) i j = c * entry M i j.
Proof.
  unfold entry. change (@nil R) with (map (Rmult c) []). rewrite map_nth.
  replace 0 with (c * 0) at 1 by ring. rewrite map_nth. reflexivity.
Qed.
Lemma is_matrix_scaled c n m M : is_matrix n m M -> is_matrix n m (map (map (Rmult c)) M).
Proof.
  intros [A B]. split; [rewrite map_length; exact A|]. apply Forall_forall. intros r H. apply in_map_iff in H as (x & <- & H).
  rewrite map_length. apply (proj1 (Forall_forall _ _) B x H).
Qed.
Lemma rescale_ok sy o st m n c cov : variance_scale sy o st m n c ->
  exists C, rescale (weighted o) (fst (chisqr sy o None st)) m n cov = Ok C /\ (forall i j, entry C i j = c * entry cov i j) /\
    (is_matrix n n cov -> is_matrix n n C).
Proof.
  intros [[W ->]|(W & N & c2 & E & ->)]; unfold rescale; rewrite W.
  - exists cov. split; [reflexivity|]. split; [intros; ring|auto].
  - rewrite E. cbn [obind]. unfold odiv. destruct (Req_EM_T (INR m - INR n) 0) as [Z|Z].
    + exfalso. apply N. apply INR_eq. lra.
    + eexists. split; [reflexivity|]. split; [intros; apply entry_scaled|apply is_matrix_scaled].
Qed.
Lemma rescale_inv sy o st m n cov C : rescale (weighted o) (fst (chisqr sy o None st)) m n cov = Ok C ->
  exists c, variance_scale sy o st m n c /\ forall i j, entry C i j = c * entry cov i j.
Proof.
  unfold rescale. intros H. destruct (weighted o) eqn:W.
  - injection H as <-. exists 1. split; [left; auto|intros; ring].
  - destruct (fst (chisqr sy o None st)) as [[c2|]|e] eqn:E; cbn [obind] in H; try discriminate.
    unfold odiv in H. destruct (Req_EM_T (INR m - INR n) 0) as [Z|Z]; [discriminate|]. injection H as <-.
    exists (c2 / (INR m - INR n)). split; [|intros; apply entry_scaled].
    right. split; [exact W|]. split; [intros ->; apply Z; ring|]. exists c2. auto.
Qed.

(** ** Full rank *)
Theorem covariance_inverse sy o a1 a2 svd st m n c J jac used st1 s VT : well_formed sy ->
  (forall v, visits (List.length v) (a1 v) /\ visits (List.length v) (a2 v)) ->
  let pvals := map (value sy st) (varying_parameters sy o) in
  n = List.length pvals -> (0 < n <= m)%nat ->
  jacobian sy o pvals a1 a2 st = (Ok jac, used, st1) -> List.length jac = m ->
  (if used then columns_scaled m n J pvals jac else J = jac) ->
  svd jac = Ok (s, VT) -> is_svd m n jac s VT -> well_conditioned m n jac -> variance_scale sy o st m n c ->
  exists C K, fst (covariance sy o a1 a2 svd st) = Ok C /\ is_matrix n n C /\
    inverse_of n K (gram m J) /\ forall i j, (i < n)%nat -> (j < n)%nat -> entry C i j = c * K i j.
Proof.
  intros WF V pvals En N E Em S Es D W VS. subst n m.
  rewrite (covariance_run sy o a1 a2 svd st jac used st1 WF V E). fold pvals.
  destruct (algebra_inverse svd jac used pvals s VT ltac:(lia) ltac:(lia) D Es) with (J := J) as (cov & A & M & I); auto; [|lia|].
  { intros ->. apply (jacobian_nonzero _ _ _ _ _ _ _ _ E). }
  rewrite A. cbn [rbind]. destruct (rescale_ok _ _ _ _ _ _ cov VS) as (C & R1 & R2 & R3).
  exists C, (entry cov). split; [exact R1|]. split; [auto|]. split; [exact I|]. intros; apply R2.
Qed.

(** ** Shape, symmetry, definiteness *)
Lemma nsum_squares l x : nsum (map (omap (fun x => x * x)) l) = Some x -> 0 <= x.
Proof.
  unfold nsum. revert x. induction l as [|[a|] l IH]; cbn [map omap fold_right]; intros x H.
  - injection H as <-. lra.
  - destruct (fold_right (olift2 Rplus) (Some 0) _) as [y|] eqn:E; cbn [olift2] in H; [|discriminate]. injection H as <-. specialize (IH y eq_refl). nra.
  - discriminate.
Qed.
Lemma chisqr_nonneg sy o v st c : fst (chisqr sy o v st) = Ok (Some c) -> 0 <= c.
Proof.
  unfold chisqr, bind. destruct (setp sy o v st) as [[]]; [|discriminate].
  destruct (residuals sy o None s) as [[r|]]; [|discriminate]. cbn. intros H. injection H as H. exact (nsum_squares _ _ H).
Qed.

Theorem covariance_psd sy o a1 a2 svd st m n jac used st1 s VT C : well_formed sy ->
  (forall v, visits (List.length v) (a1 v) /\ visits (List.length v) (a2 v)) ->
  let pvals := map (value sy st) (varying_parameters sy o) in
  n = List.length pvals -> (0 < n)%nat -> (0 < m)%nat ->
  jacobian sy o pvals a1 a2 st = (Ok jac, used, st1) -> List.length jac = m ->
  svd jac = Ok (s, VT) -> is_svd m n jac s VT ->
  fst (covariance sy o a1 a2 svd st) = Ok C ->
  exists c, variance_scale sy o st m n c /\
  (forall i j, (i < n)%nat -> (j < n)%nat -> entry C i j = entry C j i) /\
  ((m > n)%nat \/ weighted o = true -> forall x, 0 <= quad n (entry C) x) /\
  (forall i, (i < n)%nat -> (0 < c -> 0 < entry C i i) /\ (c < 0 -> entry C i i < 0) /\ (c = 0 -> entry C i i = 0)).
Proof.
  intros WF V pvals En N M E Em Es D H. subst n m.
  rewrite (covariance_run sy o a1 a2 svd st jac used st1 WF V E) in H. fold pvals in H.
  destruct (algebra svd jac used pvals) as [cov|e] eqn:A; [|discriminate]. cbn [rbind] in H.
  destruct (rescale_inv _ _ _ _ _ _ _ H) as (c & VS & R).
  destruct (algebra_ok svd jac used pvals s VT M N D Es) with (cov := cov) as (_ & Sy & Q & Dg); [|exact A|].
  { intros ->. apply (jacobian_nonzero _ _ _ _ _ _ _ _ E). }
  exists c. split; [exact VS|]. split; [intros; rewrite !R, Sy by assumption; reflexivity|]. split.
  - intros X x. assert (0 <= c).
    { destruct VS as [[_ ->]|(W & Ne & c2 & Ec & ->)]; [lra|]. apply chisqr_nonneg in Ec.
      destruct X as [X|X]; [|congruence]. apply lt_INR in X. apply Rmult_le_pos; [exact Ec|]. left. apply Rinv_0_lt_compat. lra. }
    replace (quad (List.length pvals) (entry C) x) with (c * quad (List.length pvals) (entry cov) x); [apply Rmult_le_pos; auto|].
    unfold quad. rewrite <- sumn_scal. apply sumn_ext. intros i I. rewrite <- sumn_scal. apply sumn_ext. intros j Hj. rewrite R. ring.
  - intros i I. rewrite R. specialize (Dg i I). repeat split; intros; nra.
Qed.

(** ** Parameters without effect *)
Theorem covariance_zero_column sy o a1 a2 svd st m n jac used st1 s VT j : well_formed sy ->
  (forall v, visits (List.length v) (a1 v) /\ visits (List.length v) (a2 v)) ->
  let pvals := map (value sy st) (varying_parameters sy o) in
  n = List.length pvals -> (0 < m)%nat ->
  jacobian sy o pvals a1 a2 st = (Ok jac, used, st1) -> List.length jac = m ->
  svd jac = Ok (s, VT) -> is_svd m n jac s VT ->
  (j < n)%nat -> (forall i, (i < m)%nat -> entry jac i j = 0) ->
  fst (covariance sy o a1 a2 svd st) = Raise OtherError.
Proof.
  intros WF V pvals En M E Em Es D Jn Z. subst n m.
  rewrite (covariance_run sy o a1 a2 svd st jac used st1 WF V E). fold pvals.
  rewrite (zero_column svd jac used pvals s VT M ltac:(lia) D Es) with (j := j); auto.
  intros ->. apply (jacobian_nonzero _ _ _ _ _ _ _ _ E).
Qed.
Theorem covariance_reported sy o a1 a2 svd st m n c jac used st1 s VT e : well_formed sy ->
  (forall v, visits (List.length v) (a1 v) /\ visits (List.length v) (a2 v)) ->
  let pvals := map (value sy st) (varying_parameters sy o) in
  n = List.length pvals -> (0 < n)%nat -> (0 < m)%nat ->
  jacobian sy o pvals a1 a2 st = (Ok jac, used, st1) -> List.length jac = m ->
  svd jac = Ok (s, VT) -> is_svd m n jac s VT -> variance_scale sy o st m n c ->
  fst (covariance sy o a1 a2 svd st) = Raise e ->
  e = OtherError /\ exists j, (j < n)%nat /\ invisible m n jac j.
Proof.
  intros WF V pvals En N M E Em Es D VS H. subst n m.
  rewrite (covariance_run sy o a1 a2 svd st jac used st1 WF V E) in H. fold pvals in H.
  destruct (algebra svd jac used pvals) as [cov|e'] eqn:A; cbn [rbind] in H.
  - destruct (rescale_ok _ _ _ _ _ _ cov VS) as (C & R1 & _). rewrite R1 in H. discriminate.
  - assert (e' = e) by congruence. subst e'. apply (reported svd jac used pvals s VT M N D Es) in A; [exact A|].
    intros ->. apply (jacobian_nonzero _ _ _ _ _ _ _ _ E).
Qed.

(** ** Exact derivatives: the chain rule *)
Lemma bump_length x j t : List.length (bump x j t) = List.length x.
Proof. unfold bump. rewrite map_length. apply seq_length. Qed.
Lemma map2_nth (x y : list R) k : (k < List.length x)%nat -> (k < List.length y)%nat -> nth k (map2 Rmult x y) 0 = nth k x 0 * nth k y 0.
Proof.
  revert y k. induction x as [|a x IH]; intros [|b y] k K L; cbn in *; try lia. destruct k; [reflexivity|]. apply IH; lia.
Qed.
Lemma scaled_bump p j t : (j < List.length p)%nat ->
  map2 Rmult p (bump (map (fun _ => 1) p) j t) = bump p j (nth j p 0 * t).
Proof.
  intros J. apply (nth_ext _ _ 0 0).
  - rewrite map2_length, !bump_length, map_length. lia.
  - intros k K. rewrite map2_length, bump_length, map_length, Nat.min_id in K.
    rewrite map2_nth by (rewrite ?bump_length, ?map_length; assumption).
    unfold bump. rewrite !nth_map_seq by (rewrite ?map_length; assumption).
    rewrite (nth_indep (map (fun _ : R => 1) p) 0 ((fun _ : R => 1) 0)) by (rewrite (map_length (fun _ : R => 1) p); exact K). rewrite (map_nth (fun _ : R => 1) p 0 k).
    destruct (Nat.eqb_spec k j) as [->|]; ring.
Qed.

Theorem partials_scaled m F p J jac : List.Forall (fun x => x <> 0) p -> partials m F p J ->
  partials m (fun v => F (map2 Rmult p v)) (map (fun _ => 1) p) jac -> columns_scaled m (List.length p) J p jac.
Proof.
  intros P (MJ & g & G1 & G2) (MK & h & H1 & H2).
  assert (LL : List.length (map (fun _ : R => 1) p) = List.length p) by apply map_length. rewrite LL in MK, H1, H2. split; [exact MK|].
  intros i j I Jn.
  assert (Dc : is_derive (fun t => g i j (nth j p 0 * t)) 0 (entry J i j * nth j p 0)).
  { pose proof (G2 i j I Jn) as G.
    replace (entry J i j * nth j p 0) with (scal (nth j p 0) (entry J i j)) by (unfold scal; cbn; unfold mult; cbn; ring).
    apply (is_derive_comp (g i j) (fun t => nth j p 0 * t) 0).
    - rewrite Rmult_0_r. exact G.
    - auto_derive; [auto|ring]. }
  pose proof (H2 i j I Jn) as Dh.
  assert (L : locally 0 (fun t => h i j t = g i j (nth j p 0 * t))).
  { assert (C : locally 0 (fun t => F (bump p j (nth j p 0 * t)) = Ok (map (fun i => Some (g i j (nth j p 0 * t))) (seq 0 m)))).
    { assert (Cc : continuous (fun t => nth j p 0 * t) 0) by (apply (ex_derive_continuous (fun t => nth j p 0 * t)); auto_derive; auto).
      specialize (G1 j Jn). apply (Cc (fun t => F (bump p j t) = Ok (map (fun i => Some (g i j t)) (seq 0 m)))). rewrite Rmult_0_r. exact G1. }
    specialize (H1 j Jn). generalize (filter_and _ _ C H1). apply filter_imp. intros t [X Y].
    rewrite (scaled_bump p j t Jn), X in Y. injection Y as Y.
    assert (Z : nth i (map (fun i => Some (g i j (nth j p 0 * t))) (seq 0 m)) None = nth i (map (fun i => Some (h i j t)) (seq 0 m)) None) by (rewrite Y; reflexivity).
    rewrite !nth_map_seq in Z by exact I. congruence. }
  assert (Dc' : is_derive (h i j) 0 (entry J i j * nth j p 0)).
  { apply (is_derive_ext_loc (fun t => g i j (nth j p 0 * t))); [|exact Dc]. revert L. apply filter_imp. auto. }
  rewrite <- (is_derive_unique _ _ _ Dh). apply is_derive_unique. exact Dc'.
Qed.
