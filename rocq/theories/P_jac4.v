(** * The covariance matrix obtained from central differences approaches the inverse of J^T J *)

Require Import Reals.
From Coquelicot Require Import Coquelicot.
Require Import List Bool Arith String Lra Lia Psatz.
From Verif Require Import Base Mat M_disp M_struct M_model M_data M_objective M_covar Spec_objective Spec_covar Spec_jac P_objective P_covar P_covar3 P_covar4 P_covar5 P_covar6 P_objective3 P_jac P_jac2.
Import ListNotations.
Open Scope list_scope.
Open Scope R_scope.

(** ** sums of absolute values *)
Definition mass (m n : nat) (A : nat -> nat -> R) : R := sumn m (fun i => sumn n (fun j => Rabs (A i j))).
Lemma mass_nonneg m n A : 0 <= mass m n A.
Proof. apply sumn_nonneg. intros. apply sumn_nonneg. intros. apply Rabs_pos. Qed.
Lemma mass_entry m n A i j : (i < m)%nat -> (j < n)%nat -> Rabs (A i j) <= mass m n A.
Proof.
  intros I J. unfold mass. eapply Rle_trans; [|apply (sumn_term m (fun i => sumn n (fun j => Rabs (A i j)))); [intros; apply sumn_nonneg; intros; apply Rabs_pos|exact I]].
  apply (sumn_term n (fun j => Rabs (A i j))); [intros; apply Rabs_pos|exact J].
Qed.
Lemma sumn_abs n f : Rabs (sumn n f) <= sumn n (fun k => Rabs (f k)).
Proof. induction n as [|n IH]; cbn [sumn]; [rewrite Rabs_R0; lra|]. eapply Rle_trans; [apply Rabs_triang|]. lra. Qed.
Lemma mass_le m n A d : (forall i j, (i < m)%nat -> (j < n)%nat -> Rabs (A i j) <= d) -> mass m n A <= INR m * (INR n * d).
Proof. intros H. unfold mass. rewrite <- sumn_const. apply sumn_le. intros i I. rewrite <- sumn_const. apply sumn_le. intros j J. apply H; assumption. Qed.
Lemma mass_product n A B : mass n n (fun i j => sumn n (fun k => A i k * B k j)) <= mass n n A * mass n n B.
Proof.
  unfold mass at 1 2. rewrite <- sumn_scal_r. apply sumn_le. intros i Hi. rewrite <- sumn_scal_r.
  apply Rle_trans with (sumn n (fun j => sumn n (fun k => Rabs (A i k) * Rabs (B k j)))).
  - apply sumn_le. intros j _. eapply Rle_trans; [apply sumn_abs|]. apply sumn_le. intros k _. rewrite Rabs_mult. lra.
  - rewrite sumn_swap. apply sumn_le. intros k Hk. rewrite sumn_scal. apply Rmult_le_compat_l; [apply Rabs_pos|].
    apply (sumn_term n (fun k => sumn n (fun j => Rabs (B k j)))); [intros; apply sumn_nonneg; intros; apply Rabs_pos|exact Hk].
Qed.
Lemma mass_triangle m n A B : mass m n A <= mass m n (fun i j => A i j - B i j) + mass m n B.
Proof.
  unfold mass. rewrite <- sumn_plus. apply sumn_le. intros i _. rewrite <- sumn_plus. apply sumn_le. intros j _.
  replace (A i j) with ((A i j - B i j) + B i j) at 1 by ring. apply Rabs_triang.
Qed.
Lemma mass_ext m n A B : (forall i j, (i < m)%nat -> (j < n)%nat -> A i j = B i j) -> mass m n A = mass m n B.
Proof. intros H. apply sumn_ext. intros i I. apply sumn_ext. intros j J. rewrite H by assumption. reflexivity. Qed.

(** ** the inverse depends continuously on the matrix *)
Lemma inverse_difference n K G K' G' : inverse_of n K G -> inverse_of n K' G' -> forall i j, (i < n)%nat -> (j < n)%nat ->
  K' i j - K i j = sumn n (fun a => K' i a * sumn n (fun b => (G a b - G' a b) * K b j)).
Proof.
  intros H H' i j I J.
  rewrite (sumn_ext n _ (fun a => K' i a * delta a j - sumn n (fun b => K' i a * G' a b * K b j))).
  - rewrite sumn_minus, sumn_delta_r by exact J. f_equal. rewrite sumn_swap.
    rewrite (sumn_ext n _ (fun b => delta i b * K b j)); [rewrite sumn_delta by exact I; reflexivity|].
    intros b B. rewrite sumn_scal_r. rewrite (proj1 (H' i b I B)). reflexivity.
  - intros a A. rewrite <- (proj2 (H a j A J)). rewrite (sumn_ext n (fun b => K' i a * G' a b * K b j) (fun b => K' i a * (G' a b * K b j))) by (intros; ring).
    rewrite sumn_scal, <- Rmult_minus_distr_l, <- sumn_minus. f_equal. apply sumn_ext. intros; ring.
Qed.
Lemma inverse_close n K G : inverse_of n K G -> forall eps, 0 < eps -> exists d, 0 < d /\
  forall K' G', (forall i j, (i < n)%nat -> (j < n)%nat -> Rabs (G' i j - G i j) < d) -> inverse_of n K' G' ->
  forall i j, (i < n)%nat -> (j < n)%nat -> Rabs (K' i j - K i j) < eps.
Proof.
  intros H eps He. set (k := mass n n K). assert (K0 : 0 <= k) by apply mass_nonneg. set (c := INR n * INR n). assert (C0 : 0 <= c) by (unfold c; pose proof (pos_INR n); nra).
  set (d := Rmin (/ (2 * (c * k + 1))) (eps / (2 * (c * k * k + 1)))).
  assert (D0 : 0 < d). { apply Rmin_glb_lt; [apply Rinv_0_lt_compat; nra|apply Rdiv_lt_0_compat; [lra|]]. assert (0 <= c * k * k) by (apply Rmult_le_pos; [apply Rmult_le_pos|]; assumption). lra. }
  exists d. split; [exact D0|]. intros K' G' HG H'.
  assert (G1 : mass n n (fun a b => G a b - G' a b) <= c * d).
  { unfold c. rewrite Rmult_assoc. apply mass_le. intros i j I J. rewrite Rabs_minus_sym. left. apply HG; assumption. }
  set (k' := mass n n K'). assert (K0' : 0 <= k') by apply mass_nonneg.
  assert (G2 : mass n n (fun i j => K' i j - K i j) <= k' * (c * d * k)).
  { rewrite (mass_ext n n _ _ (inverse_difference n K G K' G' H H')). eapply Rle_trans; [apply mass_product|]. apply Rmult_le_compat_l; [exact K0'|].
    eapply Rle_trans; [apply mass_product|]. apply Rmult_le_compat_r; assumption. }
  assert (G3 : k' <= k' * (c * d * k) + k) by (pose proof (mass_triangle n n K' K); unfold k' at 1; unfold k at 2; lra).
  assert (D1 : d * (2 * (c * k + 1)) <= 1).
  { assert (P : 0 < 2 * (c * k + 1)) by nra. apply Rle_trans with (/ (2 * (c * k + 1)) * (2 * (c * k + 1))); [apply Rmult_le_compat_r; [lra|apply Rmin_l]|]. right. field. lra. }
  assert (D2 : d * (2 * (c * k * k + 1)) <= eps).
  { assert (P : 0 <= c * k * k) by (apply Rmult_le_pos; [apply Rmult_le_pos|]; assumption). replace eps with (eps / (2 * (c * k * k + 1)) * (2 * (c * k * k + 1))) by (field; lra). apply Rmult_le_compat_r; [lra|]. apply Rmin_r. }
  assert (H1 : c * d * k <= 1 / 2) by nra. assert (H2 : k' <= 2 * k) by nra.
  intros i j I J. pose proof (mass_entry n n (fun i j => K' i j - K i j) i j I J) as E. cbv beta in E.
  assert (H3 : k' * (c * d * k) <= 2 * k * (c * d * k)). { apply Rmult_le_compat_r; [|exact H2]. apply Rmult_le_pos; [apply Rmult_le_pos|]; lra. }
  replace (2 * k * (c * d * k)) with (d * (2 * (c * k * k + 1)) - 2 * d) in H3 by ring. lra.
Qed.

(** ** J^T J and the condition depend continuously on J *)
Definition near (m n : nat) (d : R) (J J' : list (list R)) : Prop := forall i j, (i < m)%nat -> (j < n)%nat -> Rabs (entry J' i j - entry J i j) < d.
Lemma product_close a b a' b' B d : Rabs a <= B -> Rabs b <= B -> Rabs (a' - a) <= d -> Rabs (b' - b) <= d -> d <= 1 -> Rabs (a' * b' - a * b) <= d * (2 * B + 1).
Proof.
  intros HA HB DA DB D1. replace (a' * b' - a * b) with (a * (b' - b) + (a' - a) * b + (a' - a) * (b' - b)) by ring.
  pose proof (Rabs_pos a). pose proof (Rabs_pos b). pose proof (Rabs_pos (a' - a)). pose proof (Rabs_pos (b' - b)).
  eapply Rle_trans; [apply Rabs_triang|]. eapply Rle_trans; [apply Rplus_le_compat_r, Rabs_triang|]. rewrite !Rabs_mult. nra.
Qed.
Lemma gram_close m n J : forall eps, 0 < eps -> exists d, 0 < d /\ forall J', near m n d J J' -> forall i j, (i < n)%nat -> (j < n)%nat -> Rabs (gram m J' i j - gram m J i j) < eps.
Proof.
  intros eps He. set (B := mass m n (entry J)). assert (B0 : 0 <= B) by apply mass_nonneg. set (q := INR m * (2 * B + 1)). assert (Q0 : 0 <= q) by (unfold q; pose proof (pos_INR m); nra).
  set (d := Rmin 1 (eps / (q + 1))). assert (D0 : 0 < d) by (apply Rmin_glb_lt; [lra|apply Rdiv_lt_0_compat; lra]). exists d. split; [exact D0|]. intros J' N i j I Jn.
  assert (D1 : d <= 1) by apply Rmin_l. assert (D2 : d * (q + 1) <= eps).
  { replace eps with (eps / (q + 1) * (q + 1)) by (field; lra). apply Rmult_le_compat_r; [lra|apply Rmin_r]. }
  unfold gram. rewrite <- sumn_minus. eapply Rle_lt_trans; [apply sumn_abs|]. apply Rle_lt_trans with (INR m * (d * (2 * B + 1))).
  - rewrite <- sumn_const. apply sumn_le. intros k Hk. apply product_close; [apply (mass_entry m n (entry J)); assumption|apply (mass_entry m n (entry J)); assumption|left; apply N; assumption|left; apply N; assumption|exact D1].
  - replace (INR m * (d * (2 * B + 1))) with (d * q) by (unfold q; ring). lra.
Qed.

Lemma frobenius_gram m n J : frobenius2 m n J = sumn n (fun j => gram m J j j).
Proof. unfold frobenius2, gram. rewrite sumn_swap. apply sumn_ext. intros j _. apply sumn_ext. intros; ring. Qed.
Lemma norm_gram m n J x : norm2 m (apply n J x) = sumn n (fun i => sumn n (fun j => x i * x j * gram m J i j)).
Proof.
  unfold norm2, apply, gram. transitivity (sumn m (fun a => sumn n (fun i => sumn n (fun j => x i * x j * (entry J a i * entry J a j))))).
  - apply sumn_ext. intros a _. cbn [pow]. rewrite Rmult_1_r, <- sumn_scal_r. apply sumn_ext. intros i _. rewrite <- sumn_scal. apply sumn_ext. intros; ring.
  - rewrite sumn_swap. apply sumn_ext. intros i _. rewrite sumn_swap. apply sumn_ext. intros j _. rewrite sumn_scal. reflexivity.
Qed.
Lemma cross_bound n x : sumn n (fun i => sumn n (fun j => Rabs (x i) * Rabs (x j))) <= INR n * norm2 n x.
Proof.
  assert (L : sumn n (fun i => sumn n (fun j => Rabs (x i) * Rabs (x j))) <= sumn n (fun i => sumn n (fun j => 1 / 2 * x i ^ 2 + 1 / 2 * x j ^ 2))).
  { apply sumn_le. intros i _. apply sumn_le. intros j _. rewrite <- (pow2_abs (x i)), <- (pow2_abs (x j)). pose proof (pow2_ge_0 (Rabs (x i) - Rabs (x j))). nra. }
  eapply Rle_trans; [exact L|]. right. unfold norm2.
  rewrite (sumn_ext n _ (fun i => INR n * (1 / 2 * x i ^ 2) + 1 / 2 * sumn n (fun j => x j ^ 2))) by (intros; rewrite sumn_plus, sumn_const, sumn_scal; reflexivity).
  rewrite sumn_plus, sumn_scal, sumn_scal, sumn_const. field.
Qed.

Lemma condition_margin m n J s VT : is_svd m n J s VT -> (0 < n <= m)%nat -> well_conditioned m n J -> exists k, 0 < k /\
  forall x, ((unit_roundoff * INR (Nat.max m n)) ^ 2 * frobenius2 m n J + k) * norm2 n x <= norm2 m (apply n J x).
Proof.
  intros D N W. set (u := (unit_roundoff * INR (Nat.max m n)) ^ 2) in *. assert (Q : Nat.min m n = n) by lia.
  assert (Ro : forall k l, (k < n)%nat -> (l < n)%nat -> sumn n (fun j => entry VT k j * entry VT l j) = delta k l) by (intros; apply (svd_rows m n J s VT D); lia).
  pose proof (orthonormal_columns n (entry VT) Ro) as Co. pose (z := nth (n - 1) s 0).
  assert (Z : u * frobenius2 m n J < z ^ 2).
  { specialize (W (fun j => entry VT (n - 1) j)). assert (O : norm2 n (fun j => entry VT (n - 1) j) = 1).
    { unfold norm2. rewrite <- (delta_eq (n - 1)), <- (Ro (n - 1)%nat (n - 1)%nat ltac:(lia) ltac:(lia)). apply sumn_ext. intros; ring. }
    rewrite O in W. specialize (W ltac:(lra)). rewrite (apply_svd m n J s VT D), Q in W.
    rewrite (sumn_ext n _ (fun l => delta (n - 1) l * (nth l s 0) ^ 2)) in W; [rewrite sumn_delta in W by lia; fold u in W; unfold z; lra|].
    intros l L. rewrite (sumn_ext n _ (fun j => entry VT (n - 1) j * entry VT l j)) by (intros; ring). rewrite Ro by lia. unfold delta. destruct (Nat.eqb (n - 1) l); ring. }
  exists (z ^ 2 - u * frobenius2 m n J). split; [lra|]. intros x. replace (u * frobenius2 m n J + (z ^ 2 - u * frobenius2 m n J)) with (z ^ 2) by ring.
  rewrite (apply_svd m n J s VT D), Q.
  assert (PN : norm2 n x = sumn n (fun k => (sumn n (fun j => entry VT k j * x j)) ^ 2)).
  { symmetry. transitivity (sumn n (fun k => sumn n (fun i => sumn n (fun j => x i * x j * (entry VT k i * entry VT k j))))).
    - apply sumn_ext. intros k _. cbn [pow]. rewrite Rmult_1_r, <- sumn_scal_r. apply sumn_ext. intros i _. rewrite <- sumn_scal. apply sumn_ext. intros; ring.
    - rewrite sumn_swap. unfold norm2. apply sumn_ext. intros i Hi. rewrite sumn_swap.
      rewrite (sumn_ext n _ (fun j => delta i j * (x i * x j))); [rewrite sumn_delta by exact Hi; ring|]. intros j Hj. rewrite sumn_scal, (Co i j Hi Hj). ring. }
  rewrite PN, <- sumn_scal. apply sumn_le. intros k Hk. apply Rmult_le_compat_r; [apply pow2_ge_0|]. apply pow_incr. destruct D as (_ & _ & S & _). unfold z. rewrite Q in S. apply (S k (n - 1)%nat); lia.
Qed.

Lemma conditioned_open m n J s VT : is_svd m n J s VT -> (0 < n <= m)%nat -> well_conditioned m n J -> exists d, 0 < d /\ forall J', near m n d J J' -> well_conditioned m n J'.
Proof.
  intros D N W. destruct (condition_margin m n J s VT D N W) as (k & K0 & HK). set (u := (unit_roundoff * INR (Nat.max m n)) ^ 2) in *.
  assert (U0 : 0 <= u) by apply pow2_ge_0. pose proof (pos_INR n) as Nn. set (e := k / (2 * (u * INR n + INR n + 1))).
  assert (E0 : 0 < e) by (apply Rdiv_lt_0_compat; nra).
  assert (E1 : e * (u * INR n + INR n) < k).
  { assert (X : e * (2 * (u * INR n + INR n + 1)) = k) by (unfold e; field; nra). assert (0 <= u * INR n) by nra. nra. }
  destruct (gram_close m n J e E0) as (d & D0 & HD). exists d. split; [exact D0|]. intros J' NJ x X. fold u. pose proof (HD J' NJ) as G.
  assert (F : frobenius2 m n J' <= frobenius2 m n J + INR n * e).
  { rewrite !frobenius_gram, <- sumn_const, <- sumn_plus. apply sumn_le. intros j Hj. pose proof (Rabs_def2 _ _ (G j j Hj Hj)). lra. }
  assert (A : norm2 m (apply n J x) - e * (INR n * norm2 n x) <= norm2 m (apply n J' x)).
  { assert (Y : norm2 m (apply n J x) - norm2 m (apply n J' x) <= e * sumn n (fun i => sumn n (fun j => Rabs (x i) * Rabs (x j)))).
    { rewrite !norm_gram, <- sumn_minus, <- sumn_scal. apply sumn_le. intros i Hi. rewrite <- sumn_minus, <- sumn_scal. apply sumn_le. intros j Hj.
      rewrite <- Rmult_minus_distr_l. eapply Rle_trans; [apply Rle_abs|]. rewrite !Rabs_mult, (Rabs_minus_sym (gram m J i j)). rewrite (Rmult_comm e).
      apply Rmult_le_compat_l; [apply Rmult_le_pos; apply Rabs_pos|]. left. apply G; assumption. }
    pose proof (cross_bound n x) as CB. assert (e * sumn n (fun i => sumn n (fun j => Rabs (x i) * Rabs (x j))) <= e * (INR n * norm2 n x)) by (apply Rmult_le_compat_l; lra). lra. }
  specialize (HK x). set (f := frobenius2 m n J) in *. set (f' := frobenius2 m n J') in *. set (y := norm2 n x) in *.
  assert (u * f' * y <= (u * f + u * (INR n * e)) * y). { apply Rmult_le_compat_r; [lra|]. rewrite <- Rmult_plus_distr_l. apply Rmult_le_compat_l; assumption. }
  assert ((e * (u * INR n + INR n)) * y < k * y) by (apply Rmult_lt_compat_r; assumption). nra.
Qed.

(** ** covar *)
Lemma sum_inverse_bound n (p : nat -> R) j : (j < n)%nat -> Rabs (/ p j) <= sumn n (fun j => Rabs (/ p j)).
Proof. intros J. apply (sumn_term n (fun j => Rabs (/ p j))); [intros; apply Rabs_pos|exact J]. Qed.

Theorem covariance_converges sy o svd st m n c J Js : well_formed sy -> n = List.length (present sy o st) -> (0 < n <= m)%nat ->
  partials m (fun v => fst (residuals sy o (Some v) st)) (present sy o st) J ->
  (List.Forall (fun x => x <> 0) (present sy o st) -> columns_scaled m n J (present sy o st) Js) ->
  (List.Exists (fun x => x = 0) (present sy o st) -> Js = J) ->
  svd_correct svd -> (forall A, is_matrix m n A -> exists s VT, svd A = Ok (s, VT)) ->
  well_conditioned m n Js -> variance_scale sy o st m n c ->
  exists K, inverse_of n K (gram m J) /\
  forall eps, 0 < eps -> exists eta, 0 < eta /\ forall e1 e2 h1 h2, (forall x j, 0 < Rabs (h1 x j) < eta) -> (forall x j, 0 < Rabs (h2 x j) < eta) ->
  exists C, fst (covariance sy o (central_differences e1 h1) (central_differences e2 h2) svd st) = Ok C /\ is_matrix n n C /\
    forall i j, (i < n)%nat -> (j < n)%nat -> Rabs (entry C i j - c * K i j) < eps.
Proof.
  intros WF En N PJ SC1 SC0 SV ST WC VS. set (p := present sy o st) in *.
  assert (NZ : List.Forall (fun x => x <> 0) p \/ List.Exists (fun x => x = 0) p).
  { destruct (Exists_dec (fun x => x = 0) p (fun x => Req_EM_T x 0)) as [X|X]; [right; exact X|left]. apply List.Forall_forall. intros y Hy Z. apply X. apply Exists_exists. exists y. auto. }
  pose proof (proj1 PJ) as MJ. rewrite <- En in MJ.
  (* the factors of the columns *)
  assert (F : exists f : nat -> R, (forall j, (j < n)%nat -> f j <> 0) /\ is_matrix m n Js /\ (forall i j, (i < m)%nat -> (j < n)%nat -> entry Js i j = entry J i j * f j) /\
    forall used : bool, (used = true <-> List.Forall (fun x => x <> 0) p) -> forall j, (j < n)%nat -> f j = if used then nth j p 0 else 1).
  { destruct NZ as [X|X].
    - exists (fun j => nth j p 0). destruct (SC1 X) as (A & B). split; [|split; [exact A|split; [exact B|]]].
      + intros j Hj. apply (proj1 (List.Forall_forall _ _) X). apply nth_In. rewrite <- En. exact Hj.
      + intros [] U j _; [reflexivity|]. exfalso. destruct U as [_ U]. specialize (U X). discriminate.
    - exists (fun _ => 1). rewrite (SC0 X). split; [intros; lra|]. split; [exact MJ|]. split; [intros; ring|].
      intros [] U j _; [|reflexivity]. exfalso. destruct U as [U _]. specialize (U eq_refl). apply Exists_exists in X as (y & Y1 & Y2). exact (proj1 (List.Forall_forall _ _) U y Y1 Y2). }
  destruct F as (f & F0 & MJs & FE & FU). destruct (ST Js MJs) as (s & VT & ES). pose proof (SV m n Js s VT MJs ES) as D.
  assert (GE : forall i j, (i < n)%nat -> (j < n)%nat -> gram m Js i j = gram m J i j * (f i * f j)).
  { intros i j Hi Hj. unfold gram. rewrite <- sumn_scal_r. apply sumn_ext. intros k Hk. rewrite !FE by assumption. ring. }
  pose proof (inverse_unscale n _ (gram m J) (gram m Js) f F0 GE (full_rank m n Js s VT D ltac:(lia) ltac:(lia) WC)) as HK.
  match type of HK with inverse_of n ?k _ => set (K := k) in * end. exists K. split; [exact HK|].
  intros eps He. assert (Ec : 0 < eps / (Rabs c + 1)) by (apply Rdiv_lt_0_compat; [exact He|pose proof (Rabs_pos c); lra]).
  destruct (inverse_close n K (gram m J) HK _ Ec) as (d1 & D1 & H1). destruct (gram_close m n J d1 D1) as (d2 & D2 & H2).
  destruct (conditioned_open m n Js s VT D N WC) as (d3 & D3 & H3).
  set (q := sumn n (fun j => Rabs (/ f j))). assert (Q0 : 0 <= q) by (apply sumn_nonneg; intros; apply Rabs_pos).
  set (d := Rmin d3 (d2 / (q + 1))). assert (D0 : 0 < d) by (apply Rmin_glb_lt; [exact D3|apply Rdiv_lt_0_compat; lra]).
  destruct (jacobian_converges sy o st m J WF ltac:(fold p; lia) PJ d D0) as (eta & E0 & HE). exists eta. split; [exact E0|].
  intros e1 e2 h1 h2 B1 B2. destruct (HE e1 e2 h1 h2 B1 B2) as (used & jac & X1 & X2 & X3 & X4). fold p in X1, X2, X3, X4. rewrite <- En in X2, X4.
  specialize (FU used X3).
  assert (X5 : forall i j, (i < m)%nat -> (j < n)%nat -> Rabs (entry jac i j - entry Js i j) < d) by (intros i j Hi Hj; rewrite FE, FU by assumption; apply X4; assumption).
  assert (WJ : well_conditioned m n jac). { apply H3. intros i j Hi Hj. eapply Rlt_le_trans; [apply X5; assumption|apply Rmin_l]. }
  destruct (ST jac X2) as (s' & VT' & ES'). pose (J' := matrix m n (fun i j => entry jac i j * / f j)).
  assert (EJ : if used then columns_scaled m n J' p jac else entry J' = entry J') by (destruct used; [|reflexivity]; split; [exact X2|]; intros i j Hi Hj; unfold J'; rewrite entry_matrix by assumption; rewrite <- (FU j Hj); field; auto).
  assert (NJ : near m n d2 J J').
  { intros i j Hi Hj. unfold J'. rewrite entry_matrix by assumption. pose proof (X5 i j Hi Hj) as X. rewrite FE in X by assumption.
    replace (entry jac i j * / f j - entry J i j) with ((entry jac i j - entry J i j * f j) * / f j) by (field; auto). rewrite Rabs_mult.
    pose proof (sum_inverse_bound n f j Hj) as SB. fold q in SB. assert (Dq : d * (q + 1) <= d2).
    { replace d2 with (d2 / (q + 1) * (q + 1)) by (field; lra). apply Rmult_le_compat_r; [lra|apply Rmin_r]. }
    pose proof (Rabs_pos (entry jac i j - entry J i j * f j)). pose proof (Rabs_pos (/ f j)). nra. }
  pose proof (H2 J' NJ) as GC.
  destruct (inverse_of_returned sy o (central_differences e1 h1) (central_differences e2 h2) svd st m n c (if used then J' else jac) jac used s' VT' WF (central_visits_all e1 h1 e2 h2) En N X1 (proj1 X2)) as (C & K' & C1 & C2 & C3 & C4).
  { destruct used; [exact EJ|reflexivity]. }
  { exact ES'. } { apply SV; assumption. } { exact WJ. } { exact VS. }
  exists C. split; [exact C1|]. split; [exact C2|]. intros i j Hi Hj. rewrite C4 by assumption.
  assert (GI : inverse_of n K' (gram m J')).
  { destruct used; [exact C3|]. eapply inverse_ext_r; [|exact C3]. intros a b Ha Hb. unfold gram. apply sumn_ext. intros k Hk. unfold J'. rewrite !entry_matrix by assumption. rewrite !FU by assumption. field. }
  pose proof (H1 K' (gram m J') GC GI i j Hi Hj) as Z.
  rewrite <- Rmult_minus_distr_l, Rabs_mult. assert (Zc : eps / (Rabs c + 1) * (Rabs c + 1) = eps) by (field; pose proof (Rabs_pos c); lra).
  pose proof (Rabs_pos c). pose proof (Rabs_pos (K' i j - K i j)). nra.
Qed.

Lemma case_1 : well_formed sys_g /\ present sys_g ob_1 (st_g 0 3 None) = [3] /\
  partials 2 (fun v => fst (residuals sys_g ob_1 (Some v) (st_g 0 3 None))) [3] [[0]; [1]] /\ columns_scaled 2 1 [[0]; [1]] [3] [[0]; [3]] /\
  svd_correct svd_ex /\ (forall A, is_matrix 2 1 A -> exists s VT, svd_ex A = Ok (s, VT)) /\
  well_conditioned 2 1 [[0]; [3]] /\ variance_scale sys_g ob_1 (st_g 0 3 None) 2 1 4.
Proof.
  split; [apply wf_ex|]. split; [reflexivity|]. split; [exact partials_1|]. split.
  { split; [split; [reflexivity|repeat constructor]|]. intros i j Hi Hj. destruct j; [|lia]. destruct i as [|[|i]]; try lia; unfold entry; cbn; ring. }
  split; [exact svd_ex_correct|]. split; [|split; [exact conditioned_1|exact scale_1]].
  intros A [L1 L2]. destruct A as [|a [|b [|]]]; try discriminate. inversion L2 as [|? ? La L3]; subst. inversion L3 as [|? ? Lb _]; subst.
  destruct a as [|x [|]]; try discriminate. destruct b as [|y [|]]; try discriminate. eexists. eexists. reflexivity.
Qed.
