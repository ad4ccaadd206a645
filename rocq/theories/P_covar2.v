(** * Proofs about covar: what it returns *)

Require Import Reals List Bool Arith Lra Lia FunctionalExtensionality.
From Coquelicot Require Import Coquelicot.
From Verif Require Import Base Mat M_disp M_struct M_model M_data M_objective Spec_objective P_objective M_covar Spec_covar P_covar.
Import ListNotations.
Open Scope list_scope.
Open Scope R_scope.


Lemma quad_kept n r (s : list R) VT (p x : nat -> R) :
  quad n (fun i j => sumn r (fun k => entry VT k i / (nth k s 0) ^ 2 * entry VT k j) * (p i * p j)) x =
  sumn r (fun k => / (nth k s 0) ^ 2 * (sumn n (fun i => entry VT k i * (p i * x i))) ^ 2).
Proof.
  unfold quad. transitivity (sumn n (fun i => sumn n (fun j => sumn r (fun k => / (nth k s 0) ^ 2 * ((entry VT k i * (p i * x i)) * (entry VT k j * (p j * x j))))))).
  - apply sumn_ext. intros i I. apply sumn_ext. intros j J. rewrite <- sumn_scal_r, <- sumn_scal, <- sumn_scal_r.
    apply sumn_ext. intros k K. unfold Rdiv. ring.
  - rewrite (sumn_ext n _ (fun i => sumn r (fun k => sumn n (fun j => / (nth k s 0) ^ 2 * ((entry VT k i * (p i * x i)) * (entry VT k j * (p j * x j))))))) by (intros; apply sumn_swap).
    rewrite sumn_swap. apply sumn_ext. intros k K.
    set (y := sumn n (fun i => entry VT k i * (p i * x i))).
    replace (y ^ 2) with (y * y) by ring. unfold y at 1. rewrite <- sumn_scal_r, <- sumn_scal. apply sumn_ext. intros i I.
    rewrite sumn_scal. f_equal. rewrite sumn_scal. reflexivity.
Qed.

Lemma singular_in n cov i : In i (singular n cov) <-> (i < n)%nat /\ entry cov i i = 0.
Proof.
  unfold singular. rewrite filter_In, in_seq. destruct (Req_EM_T (entry cov i i) 0); split; intros [A B]; split; auto; try lia; discriminate.
Qed.

Section algebra.
  Context (svd : svd_fun) (jac : list (list R)) (used : bool) (p : list R) (s : list R) (VT : list (list R)).
  Let m := List.length jac.
  Let n := List.length p.
  Context (M : (0 < m)%nat) (N : (0 < n)%nat) (D : is_svd m n jac s VT) (E : svd jac = Ok (s, VT))
    (P : used = true -> List.Forall (fun x => x <> 0) p).
  Let f i : R := if used then nth i p 0 else 1.

  Lemma f_nonzero i : (i < n)%nat -> f i <> 0.
  Proof.
    intros I. unfold f. destruct used; [|lra]. apply (proj1 (Forall_forall _ _) (P eq_refl)). apply nth_In. exact I.
  Qed.

  Lemma algebra_value : exists r cov, (r <= Nat.min m n)%nat /\
    (forall k, (k < Nat.min m n)%nat -> ((k < r)%nat <-> threshold m n (nth 0 s 0) < nth k s 0)) /\
    is_matrix n n cov /\
    (forall i j, (i < n)%nat -> (j < n)%nat -> entry cov i j =
       sumn r (fun k => entry VT k i / (nth k s 0) ^ 2 * entry VT k j) * (f i * f j)) /\
    algebra svd jac used p = match singular n cov with [] => Ok cov | _ => Raise OtherError end.
  Proof.
    pose proof (svd_len _ _ _ _ _ D) as L. fold m n in L.
    destruct (pseudo_inverse_value m n s VT used p) as (r & cov & A & B & C & F & G).
    { intros ->. cbn in L. lia. }
    { apply (svd_dec _ _ _ _ _ D). }
    rewrite L in *. exists r, cov. split; [exact A|]. split; [exact B|]. split; [exact F|]. split.
    - intros i j I J. rewrite G by assumption. f_equal. unfold f. destruct used; ring.
    - unfold algebra. rewrite E. cbn [rbind fst snd]. fold m n. rewrite C. reflexivity.
  Qed.

  Lemma kept_pos r k : (r <= Nat.min m n)%nat ->
    (forall k, (k < Nat.min m n)%nat -> ((k < r)%nat <-> threshold m n (nth 0 s 0) < nth k s 0)) -> (k < r)%nat -> 0 < nth k s 0.
  Proof.
    intros A B K. assert (Q : (k < Nat.min m n)%nat) by lia. apply (B k Q) in K.
    pose proof (proj1 (threshold_sq _ _ _ _ _ D ltac:(lia))). lra.
  Qed.

  Lemma diag r cov i : (r <= Nat.min m n)%nat ->
    (forall k, (k < Nat.min m n)%nat -> ((k < r)%nat <-> threshold m n (nth 0 s 0) < nth k s 0)) ->
    (forall i j, (i < n)%nat -> (j < n)%nat -> entry cov i j =
       sumn r (fun k => entry VT k i / (nth k s 0) ^ 2 * entry VT k j) * (f i * f j)) ->
    (i < n)%nat -> 0 <= entry cov i i /\ (entry cov i i = 0 <-> forall k, (k < r)%nat -> entry VT k i = 0).
  Proof.
    intros A B C I. rewrite C by assumption.
    set (S := sumn r _).
    assert (T : forall k, (k < r)%nat -> 0 <= entry VT k i / nth k s 0 ^ 2 * entry VT k i).
    { intros k K. pose proof (kept_pos r k A B K). replace (_ / _ * _) with ((entry VT k i / nth k s 0) ^ 2) by (field; lra). apply pow2_ge_0. }
    assert (0 <= S) by (apply sumn_nonneg; exact T).
    assert (Z : S = 0 <-> forall k, (k < r)%nat -> entry VT k i = 0).
    { split.
      - intros Z k K. pose proof (sumn_zero r _ T Z k K) as X. cbn beta in X. pose proof (kept_pos r k A B K).
        assert (Y : entry VT k i ^ 2 = 0). { apply (Rmult_eq_reg_r (/ nth k s 0 ^ 2)); [|apply Rinv_neq_0_compat, pow_nonzero; lra]. rewrite Rmult_0_l. etransitivity; [|exact X]. unfold Rdiv. ring. }
        destruct (Req_dec (entry VT k i) 0) as [W|W]; [exact W|]. pose proof (pow_nonzero _ 2 W). contradiction.
      - intros Z. unfold S. rewrite (sumn_ext r _ (fun _ => 0)), sumn_0; [reflexivity|]. intros k K. rewrite Z by exact K. ring. }
    pose proof (f_nonzero i I) as F.
    assert (F2 : 0 < f i * f i) by nra.
    split; [nra|]. rewrite <- Z. split; [|intros ->; ring]. intros X. apply (Rmult_eq_reg_r (f i * f i)); [lra|lra].
  Qed.

  (** success: symmetric, positive semidefinite, positive variances *)
  Lemma algebra_ok cov : algebra svd jac used p = Ok cov ->
    is_matrix n n cov /\ (forall i j, (i < n)%nat -> (j < n)%nat -> entry cov i j = entry cov j i) /\
    (forall x, 0 <= quad n (entry cov) x) /\ forall i, (i < n)%nat -> 0 < entry cov i i.
  Proof.
    intros H. destruct algebra_value as (r & c & A & B & C & G & F). rewrite H in F.
    destruct (singular n c) as [|? ?] eqn:Z; [|discriminate]. injection F as <-.
    split; [exact C|]. split.
    { intros i j I J. rewrite !G by assumption. f_equal; [|ring]. apply sumn_ext. intros k K. unfold Rdiv. ring. }
    split.
    { intros x. replace (quad n (entry cov) x) with (quad n (fun i j => sumn r (fun k => entry VT k i / (nth k s 0) ^ 2 * entry VT k j) * (f i * f j)) x).
      - rewrite quad_kept. apply sumn_nonneg. intros k K. pose proof (kept_pos r k A B K).
        apply Rmult_le_pos; [|apply pow2_ge_0]. left. apply Rinv_0_lt_compat, pow_lt. assumption.
      - unfold quad. apply sumn_ext. intros i I. apply sumn_ext. intros j J. rewrite G by assumption. ring. }
    intros i I. destruct (diag r cov i A B G I) as [D1 D2]. destruct D1 as [D1|D1]; [exact D1|].
    exfalso. assert (X : In i (singular n cov)) by (apply singular_in; auto). rewrite Z in X. exact X.
  Qed.

  (** a zero column is reported, and only invisible columns are *)
  Lemma zero_column j : (j < n)%nat -> (forall i, (i < m)%nat -> entry jac i j = 0) -> algebra svd jac used p = Raise OtherError.
  Proof.
    intros J Z. destruct algebra_value as (r & c & A & B & C & G & F). rewrite F.
    assert (I : In j (singular n c)).
    { apply singular_in. split; [exact J|]. apply (diag r c j A B G J). intros k K.
      assert (X : norm2 m (apply n jac (fun i => delta i j)) = 0).
      { unfold norm2. rewrite (sumn_ext m _ (fun _ => 0)), sumn_0; [reflexivity|]. intros i I. unfold apply. rewrite sumn_delta_r by exact J. rewrite Z by exact I. ring. }
      rewrite (apply_svd _ _ _ _ _ D) in X.
      assert (Y : nth k s 0 ^ 2 * sumn n (fun j0 => entry VT k j0 * delta j0 j) ^ 2 = 0).
      { apply (sumn_zero _ _ (fun k _ => Rmult_le_pos _ _ (pow2_ge_0 (nth k s 0)) (pow2_ge_0 _)) X k). lia. }
      rewrite sumn_delta_r in Y by exact J. pose proof (kept_pos r k A B K).
      destruct (Req_dec (entry VT k j) 0) as [W|W]; [exact W|].
      exfalso. apply (Rmult_integral_contrapositive_currified (nth k s 0 ^ 2) (entry VT k j ^ 2)); [apply pow_nonzero; lra|apply pow_nonzero; exact W|exact Y]. }
    destruct (singular n c); [destruct I|reflexivity].
  Qed.
  Lemma reported e : algebra svd jac used p = Raise e -> e = OtherError /\ exists j, (j < n)%nat /\ invisible m n jac j.
  Proof.
    intros H. destruct algebra_value as (r & c & A & B & C & G & F). rewrite H in F.
    destruct (singular n c) as [|j js] eqn:Z; [discriminate|]. split; [congruence|]. exists j.
    assert (I : In j (singular n c)) by (rewrite Z; left; reflexivity). apply singular_in in I as [J I]. split; [exact J|].
    pose proof (proj1 (proj2 (diag r c j A B G J)) I) as I1. clear I. rename I1 into I. unfold invisible.
    assert (X : norm2 m (fun i => entry jac i j) = norm2 m (apply n jac (fun i => delta i j))).
    { unfold norm2. apply sumn_ext. intros i Hi. unfold apply. rewrite sumn_delta_r by exact J. reflexivity. }
    rewrite X, (apply_svd _ _ _ _ _ D). pose proof (threshold_sq _ _ _ _ _ D ltac:(lia)) as [T0 T].
    eapply Rle_trans; [|exact T].
    (* sum over dropped k of s_k^2 V_kj^2 <= thr^2 * sum V_kj^2 <= thr^2 *)
    assert (Bessel : sumn (Nat.min m n) (fun k => entry VT k j ^ 2) <= 1).
    { set (q := Nat.min m n). set (z := fun i => delta i j - sumn q (fun k => entry VT k j * entry VT k i)).
      assert (Zz : 0 <= norm2 n z) by (apply sumn_nonneg; intros; apply pow2_ge_0).
      assert (S2 : sumn n (fun i => sumn q (fun k => entry VT k j * entry VT k i) ^ 2) = sumn q (fun k => entry VT k j ^ 2)).
      { transitivity (sumn n (fun i => sumn q (fun k => sumn q (fun l => entry VT k j * entry VT l j * (entry VT k i * entry VT l i))))).
        - apply sumn_ext. intros i Hi. set (w := sumn q _). replace (w ^ 2) with (w * w) by ring. unfold w at 1. rewrite <- sumn_scal_r. apply sumn_ext. intros k K.
          unfold w. rewrite <- sumn_scal. apply sumn_ext. intros; ring.
        - rewrite sumn_swap. apply sumn_ext. intros k K. rewrite sumn_swap.
          rewrite (sumn_ext q _ (fun l => delta k l * (entry VT k j * entry VT l j))).
          + rewrite sumn_delta by exact K. ring.
          + intros l L. rewrite sumn_scal, (svd_rows _ _ _ _ _ D) by assumption. ring. }
      assert (Nz : norm2 n z = 1 - sumn q (fun k => entry VT k j ^ 2)).
      { unfold norm2, z. rewrite (sumn_ext n _ (fun i => (1 - 2 * sumn q (fun k => entry VT k j * entry VT k i)) * delta i j + sumn q (fun k => entry VT k j * entry VT k i) ^ 2)).
        - rewrite sumn_plus, sumn_delta_r by exact J. rewrite S2. rewrite (sumn_ext q _ (fun k => entry VT k j ^ 2)) by (intros; ring). ring.
        - intros i Hi. unfold delta. destruct (Nat.eqb i j); ring. }
      rewrite Nz in Zz. lra. }
    set (t := threshold m n (nth 0 s 0)) in *.
    apply Rle_trans with (sumn (Nat.min m n) (fun k => t ^ 2 * entry VT k j ^ 2)).
    - apply sumn_le. intros k K. rewrite sumn_delta_r by exact J.
      destruct (le_lt_dec r k) as [L|L].
      + apply Rmult_le_compat_r; [apply pow2_ge_0|]. apply pow_incr. split; [apply (svd_nonneg _ _ _ _ _ D); exact K|].
        apply Rnot_lt_le. intros Y. apply (B k K) in Y. lia.
      + rewrite I by exact L. rewrite !pow_i by lia. lra.
    - rewrite sumn_scal. rewrite <- (Rmult_1_r (t ^ 2)) at 2. apply Rmult_le_compat_l; [apply pow2_ge_0|exact Bessel].
  Qed.

  (** full rank: the inverse of J^T J, where [jac] is J with scaled columns if [used] *)
  Lemma algebra_inverse J : (n <= m)%nat -> well_conditioned m n jac ->
    (if used then columns_scaled m n J p jac else J = jac) ->
    exists cov, algebra svd jac used p = Ok cov /\ is_matrix n n cov /\ inverse_of n (entry cov) (gram m J).
  Proof.
    intros L W S. destruct algebra_value as (r & c & A & B & C & G & F).
    assert (Rn : r = n).
    { assert (K : (n - 1 < Nat.min m n)%nat) by lia. pose proof (proj2 (B _ K) (all_kept _ _ _ _ _ D W _ K)). lia. }
    subst r. pose proof (full_rank m n jac s VT D N L W) as Inv.
    assert (Gr : forall i j, (i < n)%nat -> (j < n)%nat -> gram m jac i j = gram m J i j * (f i * f j)).
    { intros i j I Jn. unfold gram. rewrite <- sumn_scal_r. apply sumn_ext. intros k K. unfold f. destruct used.
      - destruct S as [_ S]. rewrite !S by assumption. ring.
      - rewrite S. ring. }
    pose proof (inverse_unscale n _ (gram m J) (gram m jac) f f_nonzero Gr Inv) as Inv2.
    assert (Inv3 : inverse_of n (entry c) (gram m J)).
    { eapply inverse_ext; [|exact Inv2]. intros i j I Jn. cbn beta. rewrite G by assumption. reflexivity. }
    exists c. rewrite F. split; [|auto]. destruct (singular n c) as [|i l] eqn:Z; [reflexivity|]. exfalso.
    assert (I : In i (singular n c)) by (rewrite Z; left; reflexivity). apply singular_in in I as [I0 I].
    pose proof (proj1 (proj2 (diag n c i ltac:(lia) B G I0)) I) as I1. clear I. rename I1 into I.
    apply (inverse_diag n _ _ i Inv3); [|exact I0]. intros k K. rewrite G by assumption.
    rewrite (sumn_ext n _ (fun _ => 0)), sumn_0; [ring|]. intros l' L'. rewrite I by exact L'. unfold Rdiv. ring.
  Qed.
End algebra.
