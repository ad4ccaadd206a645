(** * Proofs about the linear algebra of covar *)

Require Import Reals List Bool Arith Lra Lia.
From Verif Require Import Base Mat M_disp M_struct M_model M_data M_objective M_covar Spec_covar.
Import ListNotations.
Open Scope list_scope.
Open Scope R_scope.

(** ** Sums *)
Lemma sumn_ext n f g : (forall k, (k < n)%nat -> f k = g k) -> sumn n f = sumn n g.
Proof. induction n; intros H; cbn [sumn]; [reflexivity|]. rewrite IHn, H by (intros; try apply H; lia). reflexivity. Qed.
Lemma sumn_plus n f g : sumn n (fun k => f k + g k) = sumn n f + sumn n g.
Proof. induction n; cbn [sumn]; [ring|]. rewrite IHn. ring. Qed.
Lemma sumn_minus n f g : sumn n (fun k => f k - g k) = sumn n f - sumn n g.
Proof. induction n; cbn [sumn]; [ring|]. rewrite IHn. ring. Qed.
Lemma sumn_scal n c f : sumn n (fun k => c * f k) = c * sumn n f.
Proof. induction n; cbn [sumn]; [ring|]. rewrite IHn. ring. Qed.
Lemma sumn_scal_r n c f : sumn n (fun k => f k * c) = sumn n f * c.
Proof. induction n; cbn [sumn]; [ring|]. rewrite IHn. ring. Qed.
Lemma sumn_0 n : sumn n (fun _ => 0) = 0.
Proof. induction n; cbn [sumn]; [ring|]. rewrite IHn. ring. Qed.
Lemma sumn_const n c : sumn n (fun _ => c) = INR n * c.
Proof. induction n; [cbn; ring|]. cbn [sumn]. rewrite IHn, S_INR. ring. Qed.
Lemma sumn_swap n m f : sumn n (fun i => sumn m (f i)) = sumn m (fun j => sumn n (fun i => f i j)).
Proof.
  induction n; cbn [sumn]; [rewrite sumn_0; reflexivity|]. rewrite IHn, <- sumn_plus. reflexivity.
Qed.
Lemma sumn_nonneg n f : (forall k, (k < n)%nat -> 0 <= f k) -> 0 <= sumn n f.
Proof. induction n; intros H; cbn [sumn]; [lra|]. assert (0 <= f n) by (apply H; lia). assert (0 <= sumn n f) by (apply IHn; intros; apply H; lia). lra. Qed.
Lemma sumn_le n f g : (forall k, (k < n)%nat -> f k <= g k) -> sumn n f <= sumn n g.
Proof.
  intros H. assert (0 <= sumn n (fun k => g k - f k)). { apply sumn_nonneg. intros k K. specialize (H k K). lra. }
  rewrite sumn_minus in H0. lra.
Qed.
Lemma sumn_zero n f : (forall k, (k < n)%nat -> 0 <= f k) -> sumn n f = 0 -> forall k, (k < n)%nat -> f k = 0.
Proof.
  induction n; intros H Z k K; [lia|]. cbn [sumn] in Z.
  assert (A : 0 <= f n) by (apply H; lia). assert (B : 0 <= sumn n f) by (apply sumn_nonneg; intros; apply H; lia).
  destruct (Nat.eq_dec k n) as [->|N]; [lra|]. apply IHn; [intros; apply H; lia|lra|lia].
Qed.
Lemma sumn_term n f k : (forall k, (k < n)%nat -> 0 <= f k) -> (k < n)%nat -> f k <= sumn n f.
Proof.
  induction n; intros H K; [lia|]. cbn [sumn].
  assert (A : 0 <= f n) by (apply H; lia). assert (B : 0 <= sumn n f) by (apply sumn_nonneg; intros; apply H; lia).
  destruct (Nat.eq_dec k n) as [->|N]; [lra|]. specialize (IHn ltac:(intros; apply H; lia) ltac:(lia)). lra.
Qed.
Lemma sumn_prefix r n f : (r <= n)%nat -> (forall k, (r <= k)%nat -> (k < n)%nat -> f k = 0) -> sumn n f = sumn r f.
Proof.
  intros L H. induction n; [replace r with 0%nat by lia; reflexivity|]. destruct (Nat.eq_dec r (S n)) as [->|N]; [reflexivity|].
  cbn [sumn]. rewrite H by lia. rewrite IHn; [ring|lia|]. intros; apply H; lia.
Qed.
Lemma delta_eq i : delta i i = 1.
Proof. unfold delta. rewrite Nat.eqb_refl. reflexivity. Qed.
Lemma delta_ne i j : i <> j -> delta i j = 0.
Proof. intros H. unfold delta. destruct (Nat.eqb_spec i j); [contradiction|reflexivity]. Qed.
Lemma delta_sym i j : delta i j = delta j i.
Proof. unfold delta. rewrite Nat.eqb_sym. reflexivity. Qed.
Lemma sumn_delta n i f : (i < n)%nat -> sumn n (fun k => delta i k * f k) = f i.
Proof.
  induction n; intros H; [lia|]. cbn [sumn]. destruct (Nat.eq_dec i n) as [->|N].
  - rewrite delta_eq. rewrite (sumn_ext n _ (fun _ => 0)), sumn_0; [ring|]. intros k K. rewrite delta_ne by lia. ring.
  - rewrite delta_ne by exact N. rewrite IHn by lia. ring.
Qed.
Lemma sumn_delta_r n i f : (i < n)%nat -> sumn n (fun k => f k * delta k i) = f i.
Proof. intros H. rewrite <- (sumn_delta n i f H). apply sumn_ext. intros. rewrite delta_sym. ring. Qed.

(** ** Orthonormal rows of a square matrix are orthonormal columns *)
Lemma orthonormal_columns n (V : nat -> nat -> R) :
  (forall k l, (k < n)%nat -> (l < n)%nat -> sumn n (fun j => V k j * V l j) = delta k l) ->
  forall i j, (i < n)%nat -> (j < n)%nat -> sumn n (fun k => V k i * V k j) = delta i j.
Proof.
  intros H. set (P := fun i j => sumn n (fun k => V k i * V k j)).
  assert (S : forall i j, P i j = P j i) by (intros; unfold P; apply sumn_ext; intros; ring).
  assert (Q : forall i j, (i < n)%nat -> (j < n)%nat -> sumn n (fun k => P i k * P k j) = P i j).
  { intros i j I J. unfold P.
    transitivity (sumn n (fun k => sumn n (fun a => sumn n (fun b => V a i * V b j * (V a k * V b k))))).
    - apply sumn_ext. intros k K. rewrite <- sumn_scal_r. apply sumn_ext. intros a A. rewrite <- sumn_scal. apply sumn_ext. intros; ring.
    - rewrite sumn_swap. apply sumn_ext. intros a A. rewrite sumn_swap.
      rewrite (sumn_ext n _ (fun b => delta a b * (V a i * V b j))).
      + rewrite sumn_delta by exact A. ring.
      + intros b B. rewrite sumn_scal, H by assumption. ring. }
  assert (T : sumn n (fun i => P i i) = INR n).
  { unfold P. rewrite sumn_swap. rewrite (sumn_ext n _ (fun _ => 1)); [rewrite sumn_const; ring|].
    intros k K. rewrite H by assumption. apply delta_eq. }
  assert (Z : sumn n (fun i => sumn n (fun j => (delta i j - P i j) ^ 2)) = 0).
  { transitivity (sumn n (fun i => 1 - P i i)).
    - apply sumn_ext. intros i I.
      rewrite (sumn_ext n _ (fun j => delta i j * (1 - 2 * P i j) + P i j * P j i)).
      + rewrite sumn_plus, (sumn_delta n i (fun j => 1 - 2 * P i j) I), (Q i i I I). ring.
      + intros j J. rewrite (S j i). unfold delta. destruct (Nat.eqb i j); ring.
    - rewrite sumn_minus, T, sumn_const. ring. }
  intros i j I J.
  assert (A : sumn n (fun j => (delta i j - P i j) ^ 2) = 0).
  { apply (sumn_zero n (fun i => sumn n (fun j => (delta i j - P i j) ^ 2))); [|exact Z|exact I]. intros; apply sumn_nonneg; intros; apply pow2_ge_0. }
  assert (B : (delta i j - P i j) ^ 2 = 0).
  { apply (sumn_zero n (fun j => (delta i j - P i j) ^ 2)); [intros; apply pow2_ge_0|exact A|exact J]. }
  change (P i j = delta i j). assert (delta i j - P i j = 0); [|lra].
  destruct (Req_dec (delta i j - P i j) 0) as [E|E]; [exact E|]. pose proof (pow_nonzero _ 2 E). contradiction.
Qed.

(** ** Entries *)
Lemma nth_map_seq {A} (f : nat -> A) n d k : (k < n)%nat -> nth k (map f (seq 0 n)) d = f k.
Proof.
  intros H. rewrite (nth_indep _ d (f 0%nat)) by (rewrite map_length, seq_length; exact H).
  rewrite map_nth, seq_nth by exact H. reflexivity.
Qed.
Lemma entry_matrix n m f i j : (i < n)%nat -> (j < m)%nat -> entry (matrix n m f) i j = f i j.
Proof. intros I J. unfold entry, matrix. rewrite nth_map_seq by exact I. apply nth_map_seq. exact J. Qed.
Lemma is_matrix_matrix n m f : is_matrix n m (matrix n m f).
Proof.
  unfold matrix. split; [rewrite map_length; apply seq_length|]. apply Forall_forall. intros r R.
  apply in_map_iff in R as (i & <- & _). rewrite map_length. apply seq_length.
Qed.
Lemma nth_firstn' {A} (l : list A) r k d : (k < r)%nat -> nth k (firstn r l) d = nth k l d.
Proof.
  revert r k. induction l; intros [|r] [|k] H; cbn; try reflexivity; try lia. apply IHl. lia.
Qed.

(** ** The singular values that are kept *)
Definition above (t : R) (x : R) : bool := if Rlt_dec t x then true else false.
Lemma filter_prefix t s : (forall k l, (k <= l)%nat -> (l < List.length s)%nat -> nth l s 0 <= nth k s 0) ->
  let r := List.length (filter (above t) s) in
  (r <= List.length s)%nat /\ filter (above t) s = firstn r s /\
  (forall k, (k < List.length s)%nat -> ((k < r)%nat <-> t < nth k s 0)).
Proof.
  induction s as [|x s IH]; intros D; cbn [filter].
  - cbn. repeat split; auto; intros; lia.
  - assert (D' : forall k l, (k <= l)%nat -> (l < List.length s)%nat -> nth l s 0 <= nth k s 0).
    { intros k l K L. apply (D (S k) (S l)); cbn; lia. }
    specialize (IH D'). destruct (above t x) eqn:AX; unfold above in AX; destruct (Rlt_dec t x) as [T|T]; try discriminate.
    + destruct IH as (A & B & C). cbn [List.length firstn]. split; [lia|]. split; [f_equal; exact B|].
      intros [|k] K; cbn [nth]; [split; [intros; exact T|lia]|]. rewrite <- C by (cbn in K; lia). lia.
    + assert (E : filter (above t) s = []).
      { destruct (filter (above t) s) as [|y f] eqn:E; [reflexivity|].
        assert (I : In y (filter (above t) s)) by (rewrite E; left; reflexivity).
        apply filter_In in I as [I J]. apply (In_nth _ _ 0) in I as (k & K & <-). unfold above in J.
        destruct (Rlt_dec t (nth k s 0)); [|discriminate]. specialize (D 0%nat (S k) ltac:(lia) ltac:(cbn; lia)). cbn in D. lra. }
      rewrite E. cbn. split; [lia|]. split; [reflexivity|]. intros k K. split; [lia|]. intros X.
      specialize (D 0%nat k ltac:(lia) K). cbn in D. destruct k; cbn in *; lra.
Qed.

(** the result of lines 495-503 *)
Lemma pseudo_inverse_value m n s VT used p : s <> [] ->
  (forall k l, (k <= l)%nat -> (l < List.length s)%nat -> nth l s 0 <= nth k s 0) ->
  exists r cov, (r <= List.length s)%nat /\
    (forall k, (k < List.length s)%nat -> ((k < r)%nat <-> threshold m n (nth 0 s 0) < nth k s 0)) /\
    pseudo_inverse m n s VT used p = Ok cov /\ is_matrix n n cov /\
    forall i j, (i < n)%nat -> (j < n)%nat -> entry cov i j =
      sumn r (fun k => entry VT k i / (nth k s 0) ^ 2 * entry VT k j) * (if used then nth i p 0 * nth j p 0 else 1).
Proof.
  intros N D. destruct s as [|s0 s']; [contradiction|]. set (s := s0 :: s') in *.
  destruct (filter_prefix (threshold m n s0) s D) as (A & B & C).
  set (r := List.length (filter (above (threshold m n s0)) s)) in *.
  change (pseudo_inverse m n s VT used p) with
    (let f := filter (above (threshold m n s0)) s in
     let VT' := firstn (List.length f) VT in
     let cov := matrix n n (fun i j => sumn (List.length f) (fun k => entry VT' k i / (nth k f 0) ^ 2 * entry VT' k j)) in
     @Ok (list (list R)) (if used then matrix n n (fun i j => entry cov i j * nth j p 0 * nth i p 0) else cov)).
  cbv zeta. fold r. rewrite B.
  set (cov := matrix n n (fun i j => sumn r _)).
  assert (E : forall i j, (i < n)%nat -> (j < n)%nat -> entry cov i j = sumn r (fun k => entry VT k i / (nth k s 0) ^ 2 * entry VT k j)).
  { intros i j I J. unfold cov. rewrite entry_matrix by assumption. apply sumn_ext. intros k K.
    unfold entry. rewrite !nth_firstn' by exact K. reflexivity. }
  exists r. eexists. split; [exact A|]. split; [exact C|]. split; [reflexivity|]. split; [destruct used; [apply is_matrix_matrix|apply is_matrix_matrix]|].
  intros i j I J. destruct used; [rewrite entry_matrix by assumption|]; rewrite E by assumption; ring.
Qed.

(** ** Consequences of the decomposition *)
Section decomposition.
  Context (m n : nat) (J : list (list R)) (s : list R) (VT : list (list R)) (svd : is_svd m n J s VT).
  Let q := Nat.min m n.
  Lemma svd_len : List.length s = q. Proof. apply svd. Qed.
  Lemma svd_dec : forall k l, (k <= l)%nat -> (l < List.length s)%nat -> nth l s 0 <= nth k s 0.
  Proof. intros k l K L. destruct svd as (A & _ & B & _). apply B; [exact K|]. unfold q in *. lia. Qed.
  Lemma svd_nonneg k : (k < q)%nat -> 0 <= nth k s 0.
  Proof. intros K. destruct svd as (_ & _ & B & _). apply (B k k); auto. Qed.
  Lemma svd_rows k l : (k < q)%nat -> (l < q)%nat -> sumn n (fun j => entry VT k j * entry VT l j) = delta k l.
  Proof. destruct svd as (_ & _ & _ & B & _). apply B. Qed.

  Lemma gram_svd i j : (i < n)%nat -> (j < n)%nat ->
    gram m J i j = sumn q (fun k => (nth k s 0) ^ 2 * (entry VT k i * entry VT k j)).
  Proof.
    intros I Jn. destruct svd as (_ & _ & _ & _ & U & UU & E). unfold gram. fold q in UU, E.
    transitivity (sumn m (fun a => sumn q (fun k => sumn q (fun l =>
      (nth k s 0 * entry VT k i) * (nth l s 0 * entry VT l j) * (U a k * U a l))))).
    - apply sumn_ext. intros a A. rewrite (E a i A I), (E a j A Jn), <- sumn_scal_r. apply sumn_ext. intros k K.
      rewrite <- sumn_scal. apply sumn_ext. intros l L. ring.
    - rewrite sumn_swap. apply sumn_ext. intros k K. rewrite sumn_swap.
      rewrite (sumn_ext q _ (fun l => delta k l * ((nth k s 0 * entry VT k i) * (nth l s 0 * entry VT l j)))).
      + rewrite sumn_delta by exact K. ring.
      + intros l L. rewrite sumn_scal, UU by assumption. ring.
  Qed.
  Lemma apply_svd x : norm2 m (apply n J x) = sumn q (fun k => (nth k s 0) ^ 2 * (sumn n (fun j => entry VT k j * x j)) ^ 2).
  Proof.
    unfold norm2, apply. destruct svd as (_ & _ & _ & _ & U & UU & E). fold q in UU, E.
    set (y := fun k => sumn n (fun j => entry VT k j * x j)).
    assert (F : forall i, (i < m)%nat -> sumn n (fun j => entry J i j * x j) = sumn q (fun k => U i k * (nth k s 0 * y k))).
    { intros i I. transitivity (sumn n (fun j => sumn q (fun k => U i k * nth k s 0 * (entry VT k j * x j)))).
      - apply sumn_ext. intros j Jn. rewrite (E i j I Jn), <- sumn_scal_r. apply sumn_ext. intros; ring.
      - rewrite sumn_swap. apply sumn_ext. intros k K. rewrite sumn_scal. unfold y. ring. }
    rewrite (sumn_ext m _ (fun i => sumn q (fun k => sumn q (fun l => (nth k s 0 * y k) * (nth l s 0 * y l) * (U i k * U i l))))).
    - rewrite sumn_swap. apply sumn_ext. intros k K. rewrite sumn_swap.
      rewrite (sumn_ext q _ (fun l => delta k l * ((nth k s 0 * y k) * (nth l s 0 * y l)))).
      + rewrite sumn_delta by exact K. unfold y. ring.
      + intros l L. rewrite sumn_scal, UU by assumption. ring.
    - intros i I. rewrite F by exact I. set (w := fun k => nth k s 0 * y k). change (fun k => U i k * (nth k s 0 * y k)) with (fun k => U i k * w k).
      replace (sumn q (fun k => U i k * w k) ^ 2) with (sumn q (fun k => U i k * w k) * sumn q (fun k => U i k * w k)) by ring.
      rewrite <- sumn_scal_r. apply sumn_ext. intros k K. rewrite <- sumn_scal. apply sumn_ext. intros l L. unfold w. ring.
  Qed.
  Lemma frobenius_svd : frobenius2 m n J = sumn q (fun k => (nth k s 0) ^ 2).
  Proof.
    unfold frobenius2. rewrite sumn_swap.
    rewrite (sumn_ext n _ (fun j => gram m J j j)) by (intros; unfold gram; apply sumn_ext; intros; ring).
    rewrite (sumn_ext n _ (fun j => sumn q (fun k => (nth k s 0) ^ 2 * (entry VT k j * entry VT k j)))) by (intros; apply gram_svd; assumption).
    rewrite sumn_swap. apply sumn_ext. intros k K. rewrite sumn_scal, svd_rows by exact K. rewrite delta_eq. ring.
  Qed.
  Lemma largest : (0 < q)%nat -> (nth 0 s 0) ^ 2 <= frobenius2 m n J.
  Proof.
    intros Q. rewrite frobenius_svd. apply (sumn_term q (fun k => (nth k s 0) ^ 2)); [intros; apply pow2_ge_0|exact Q].
  Qed.
  Lemma threshold_sq : (0 < q)%nat -> 0 <= threshold m n (nth 0 s 0) /\
    (threshold m n (nth 0 s 0)) ^ 2 <= (unit_roundoff * INR (Nat.max m n)) ^ 2 * frobenius2 m n J.
  Proof.
    intros Q. unfold threshold. change eps with unit_roundoff. set (e := unit_roundoff * INR (Nat.max m n)).
    assert (0 <= e). { unfold e. apply Rmult_le_pos; [|apply pos_INR]. unfold unit_roundoff. left. apply Rinv_0_lt_compat, pow_lt. lra. }
    split; [apply Rmult_le_pos; [assumption|apply svd_nonneg; exact Q]|].
    rewrite Rpow_mult_distr. apply Rmult_le_compat_l; [apply pow2_ge_0|]. apply largest. exact Q.
  Qed.
  Lemma all_kept : well_conditioned m n J -> forall k, (k < q)%nat -> threshold m n (nth 0 s 0) < nth k s 0.
  Proof.
    intros W k K. destruct (threshold_sq ltac:(lia)) as [T0 T].
    specialize (W (fun j => entry VT k j)). unfold norm2 at 1 2 in W.
    assert (O : sumn n (fun i => entry VT k i ^ 2) = 1).
    { rewrite <- (delta_eq k), <- (svd_rows k k K K). apply sumn_ext. intros; ring. }
    rewrite O in W. specialize (W ltac:(lra)). rewrite apply_svd in W.
    rewrite (sumn_ext q _ (fun l => delta k l * (nth l s 0) ^ 2)) in W.
    - rewrite sumn_delta in W by exact K. apply Rnot_le_lt. intros X.
      assert ((nth k s 0) ^ 2 <= (threshold m n (nth 0 s 0)) ^ 2) by (apply pow_incr; split; [apply svd_nonneg; exact K|exact X]). lra.
    - intros l L. rewrite (sumn_ext n _ (fun j => entry VT k j * entry VT l j)) by (intros; ring). rewrite svd_rows by assumption.
      unfold delta. destruct (Nat.eqb k l); ring.
  Qed.
End decomposition.

(** ** Full rank: the inverse of J^T J *)
Theorem full_rank m n J s VT (D : is_svd m n J s VT) : (0 < n)%nat -> (n <= m)%nat -> well_conditioned m n J ->
  inverse_of n (fun i j => sumn n (fun k => entry VT k i / (nth k s 0) ^ 2 * entry VT k j)) (gram m J).
Proof.
  intros N L W. assert (Q : Nat.min m n = n) by lia.
  assert (P : forall k, (k < n)%nat -> nth k s 0 <> 0).
  { intros k K. pose proof (all_kept m n J s VT D W k ltac:(lia)). pose proof (proj1 (threshold_sq m n J s VT D ltac:(lia))). lra. }
  assert (Ro : forall k l, (k < n)%nat -> (l < n)%nat -> sumn n (fun j => entry VT k j * entry VT l j) = delta k l).
  { intros k l K Ll. apply (svd_rows m n J s VT D); lia. }
  pose proof (orthonormal_columns n (entry VT) Ro) as C.
  assert (G : forall i j, (i < n)%nat -> (j < n)%nat -> gram m J i j = sumn n (fun k => (nth k s 0) ^ 2 * (entry VT k i * entry VT k j))).
  { intros i j I Jn. rewrite (gram_svd m n J s VT D i j I Jn), Q. reflexivity. }
  assert (M : forall (f g : nat -> R) i j, (i < n)%nat -> (j < n)%nat -> (forall k, (k < n)%nat -> f k * g k = 1) ->
    sumn n (fun a => sumn n (fun k => f k * (entry VT k i * entry VT k a)) * sumn n (fun k => g k * (entry VT k a * entry VT k j))) = delta i j).
  { intros f g i j I Jn F.
    transitivity (sumn n (fun a => sumn n (fun k => sumn n (fun l => f k * entry VT k i * (g l * entry VT l j) * (entry VT k a * entry VT l a))))).
    - apply sumn_ext. intros a A. rewrite <- sumn_scal_r. apply sumn_ext. intros k K. rewrite <- sumn_scal. apply sumn_ext. intros; ring.
    - rewrite sumn_swap. rewrite <- (C i j I Jn). apply sumn_ext. intros k K. rewrite sumn_swap.
      rewrite (sumn_ext n _ (fun l => delta k l * (f k * entry VT k i * (g l * entry VT l j)))).
      + rewrite sumn_delta by exact K. transitivity (f k * g k * (entry VT k i * entry VT k j)); [ring|]. rewrite F by exact K. ring.
      + intros l Ll. rewrite sumn_scal, Ro by assumption. ring. }
  intros i j I Jn. split.
  - rewrite <- (M (fun k => / (nth k s 0) ^ 2) (fun k => (nth k s 0) ^ 2) i j I Jn).
    + apply sumn_ext. intros a A. rewrite G by assumption. f_equal. apply sumn_ext. intros k K. unfold Rdiv. ring.
    + intros k K. apply Rinv_l. apply pow_nonzero, P, K.
  - rewrite <- (M (fun k => (nth k s 0) ^ 2) (fun k => / (nth k s 0) ^ 2) i j I Jn).
    + apply sumn_ext. intros a A. rewrite G by assumption. f_equal. apply sumn_ext. intros k K. unfold Rdiv. ring.
    + intros k K. apply Rinv_r. apply pow_nonzero, P, K.
Qed.

Lemma inverse_diag n A B i : inverse_of n A B -> (forall k, (k < n)%nat -> A i k = 0) -> (i < n)%nat -> False.
Proof.
  intros H Z I. destruct (H i i I I) as [E _]. rewrite delta_eq in E.
  rewrite (sumn_ext n _ (fun _ => 0)), sumn_0 in E by (intros; rewrite Z by assumption; ring). lra.
Qed.
Lemma inverse_unscale n (A B B' : nat -> nat -> R) (p : nat -> R) :
  (forall i, (i < n)%nat -> p i <> 0) -> (forall i j, (i < n)%nat -> (j < n)%nat -> B' i j = B i j * (p i * p j)) ->
  inverse_of n A B' -> inverse_of n (fun i j => A i j * (p i * p j)) B.
Proof.
  intros P E H i j I J. destruct (H i j I J) as [H1 H2]. split.
  - transitivity (p i / p j * sumn n (fun k => A i k * B' k j)).
    + rewrite <- sumn_scal. apply sumn_ext. intros k K. rewrite E by assumption. field. apply P; exact J.
    + rewrite H1. unfold delta. destruct (Nat.eqb_spec i j) as [->|]; [field; apply P; exact J|ring].
  - transitivity (p j / p i * sumn n (fun k => B' i k * A k j)).
    + rewrite <- sumn_scal. apply sumn_ext. intros k K. rewrite E by assumption. field. apply P; exact I.
    + rewrite H2. unfold delta. destruct (Nat.eqb_spec i j) as [->|]; [field; apply P; exact J|ring].
Qed.
Lemma inverse_ext n A A' B : (forall i j, (i < n)%nat -> (j < n)%nat -> A i j = A' i j) -> inverse_of n A B -> inverse_of n A' B.
Proof.
  intros E H i j I J. destruct (H i j I J) as [H1 H2].
  split; [rewrite <- H1|rewrite <- H2]; apply sumn_ext; intros; rewrite E by assumption; ring.
Qed.
Lemma inverse_ext_r n A B B' : (forall i j, (i < n)%nat -> (j < n)%nat -> B i j = B' i j) -> inverse_of n A B -> inverse_of n A B'.
Proof.
  intros E H i j I J. destruct (H i j I J) as [H1 H2].
  split; [rewrite <- H1|rewrite <- H2]; apply sumn_ext; intros; rewrite E by assumption; ring.
Qed.
