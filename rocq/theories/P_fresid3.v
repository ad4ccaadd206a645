(** * Proofs about the double precision chi-squared: residuals *)

Require Import Reals ZArith Bool List Permutation Lra Lia Psatz.
From Flocq Require Import Core.
From Flocq.IEEE754 Require Import BinarySingleNaN.
From Verif Require Import Base P_struct Spec_objective M_float Spec_float P_float P_float2 P_anyfit2 M_fresid Spec_fresid P_fresid P_fresid2.
Import ListNotations.
Open Scope R_scope.

(** ** Any list of residuals *)
Lemma no_nan_spec res : Forall (fun r => ~ nan r) res -> no_nan res.
Proof. intros H. eapply Forall_impl; [|exact H]. intros a. unfold nan. destruct (is_nan a); congruence. Qed.
Lemma finite_no_nan res : Forall finite res -> no_nan res.
Proof. intros H. eapply Forall_impl; [|exact H]. intros a. apply finite_not_nan. Qed.

Theorem chi_sign res p : Forall (fun r => ~ nan r) res -> at_least_zero (run res p).
Proof. intros H. apply nn_spec, run_nn, no_nan_spec, H. Qed.

Theorem chi_nan res p : covers (length res) p -> Exists nan res -> nan (run res p).
Proof.
  intros C H. apply Exists_exists in H. destruct H as (r & I0 & N). apply (In_nth _ _ fzero) in I0.
  destruct I0 as (i & L & E). apply (run_nan res p i).
  - apply (Permutation_in _ (Permutation_sym C)). apply in_seq. lia.
  - rewrite E. exact N.
Qed.

Theorem chi_error res p : Forall finite res -> covers (length res) p -> finite (run res p) ->
  Rabs (val (run res p) - squares res) <=
    ((1 + u) ^ length res - 1) * squares res + (1 + u) ^ length res * (INR (length res) * tiny).
Proof.
  intros F C G. pose proof (run_within res p (finite_no_nan _ F) G) as W. unfold within in W.
  rewrite (weight_covers _ _ C), (used_covers _ _ C) in W. exact W.
Qed.

Theorem chi_finite res p : Forall finite res -> covers (length res) p ->
  (1 + u) ^ length res * (squares res + INR (length res) * tiny) <= bpow radix2 1000 -> finite (run res p).
Proof.
  intros F C G. apply run_finite; auto. unfold limit. rewrite (weight_covers _ _ C), (used_covers _ _ C). exact G.
Qed.

Theorem chi_two_orders res p q : Forall finite res -> covers (length res) p -> covers (length res) q ->
  finite (run res p) -> finite (run res q) ->
  Rabs (val (run res p) - val (run res q)) <=
    2 * (((1 + u) ^ length res - 1) * squares res + (1 + u) ^ length res * (INR (length res) * tiny)).
Proof.
  intros F C D G H. pose proof (chi_error res p F C G) as A. pose proof (chi_error res q F D H) as B.
  replace (val (run res p) - val (run res q)) with ((val (run res p) - squares res) - (val (run res q) - squares res)) by ring.
  eapply Rle_trans; [apply Rabs_triang|]. rewrite Rabs_Ropp. lra.
Qed.

Lemma used_all res p P : covers (length res) p -> (Forall (fun i => P (nth i res fzero)) (used p) <-> Forall P res).
Proof.
  intros C. split; intros H.
  - apply Forall_forall. intros r I0. apply (In_nth _ _ fzero) in I0. destruct I0 as (i & L & <-).
    rewrite Forall_forall in H. apply H. apply (Permutation_in _ (Permutation_sym C)). apply in_seq. lia.
  - apply Forall_forall. intros i I0. apply (Permutation_in _ C) in I0. apply in_seq in I0.
    rewrite Forall_forall in H. apply H. apply nth_In. lia.
Qed.

Theorem chi_zero res p : Forall finite res -> covers (length res) p -> finite (run res p) ->
  (val (run res p) = 0 <-> Forall (fun r => val r * val r <= tiny) res).
Proof.
  intros F C G. rewrite (run_zero res p (finite_no_nan _ F) G). exact (used_all res p (fun r => val r * val r <= tiny) C).
Qed.

Theorem chi_monotone res res' p : Forall2 (fun r r' => finite r /\ ~ nan r' /\ Rabs (val r) <= Rabs (val r')) res res' ->
  covers (length res) p -> finite (run res' p) -> finite (run res p) /\ val (run res p) <= val (run res' p).
Proof.
  intros H C G. apply run_mono; auto.
  - clear C G p. induction H; constructor; intuition.
  - apply no_nan_spec. clear C G p. induction H; constructor; intuition.
  - apply Forall_forall. intros i I0. apply (Permutation_in _ C) in I0. apply in_seq in I0. destruct I0 as [_ I0]. cbn in I0.
    clear C G p. unfold term. revert i I0. induction H as [|r r' l l' (A & B & L) H IH]; intros i I0; [cbn in I0; lia|].
    destruct i as [|i]; cbn [nth].
    + apply Rsqr_le_abs_1 in L. exact L.
    + apply IH. cbn in I0. lia.
Qed.

(** ** The differences *)
Theorem psi_residual a b : finite a -> finite b -> Rabs (val a - val b) <= 360 ->
  let r := fsub a b in
  finite r /\ (val r = 0 <-> val a = val b) /\ (val b < val a -> 0 < val r) /\ (val a < val b -> val r < 0) /\
  Rabs (val r - (val a - val b)) <= u * Rabs (val a - val b).
Proof.
  intros A B H r. assert (H60 : Rabs (val a - val b) <= IZR (2 ^ 60)) by (eapply Rle_trans; [exact H|]; apply IZR_le; lia).
  destruct (fsub_val a b A B (small _ H60)) as [V F]. fold r in V, F. split; [auto|].
  assert (K : exists e, Rabs e <= u /\ val r = (val a - val b) * (1 + e)).
  { destruct (rnd_sum (val a) (- val b)) as (e & E & K); auto using val_fmt. apply generic_format_opp, val_fmt.
    exists e. split; auto. rewrite V. exact K. }
  destruct K as (e & E & K). pose proof u_pos as U. pose proof (Rabs_le_inv _ _ E) as E'.
  assert (P : 0 < 1 + e) by lra.
  split; [|split; [|split]].
  - rewrite K. split; [|intros ->; ring]. intros Z. apply Rmult_integral in Z. destruct Z; lra.
  - intros L. rewrite K. apply Rmult_lt_0_compat; lra.
  - intros L. rewrite K. nra.
  - rewrite K. replace ((val a - val b) * (1 + e) - (val a - val b)) with (e * (val a - val b)) by ring.
    rewrite Rabs_mult. apply Rmult_le_compat_r; [apply Rabs_pos|auto].
Qed.

Lemma psi_abs a b : finite a -> finite b -> Rabs (val a - val b) <= 360 ->
  Rabs (val (fsub a b) - (val a - val b)) <= / 2 ^ 45.
Proof.
  intros A B H. assert (H60 : Rabs (val a - val b) <= IZR (2 ^ 60)) by (eapply Rle_trans; [exact H|]; apply IZR_le; lia).
  destruct (fsub_val a b A B (small _ H60)) as [V F]. rewrite V. apply rnd_err. auto.
Qed.
Lemma delta_abs a b d : finite a -> finite b -> Rabs (val a - val b) <= 360 -> circle_distance 360 (val a) (val b) d ->
  Rabs (val (fl_circular_distance a b (fZ 360)) - d) <= / 2 ^ 45.
Proof.
  intros A B H C. destruct (cd_float a b A B H) as (_ & _ & _ & (d' & C' & E) & _).
  rewrite (circle_fun _ _ _ _ _ C C'). exact E.
Qed.

Lemma map2_length {A B C} (f : A -> B -> C) l m : length l = length m -> length (map2 f l m) = length l.
Proof. revert m. induction l as [|a l IH]; intros [|b m]; cbn; intros E; try discriminate; auto. Qed.

Lemma residual_parts psi delta psi_d delta_d ds : comparable psi psi_d -> comparable delta delta_d ->
  exact_residuals psi delta psi_d delta_d ds ->
  Forall2 (fun r d => finite r /\ Rabs (val r - d) <= / 2 ^ 45 /\ Rabs d <= 360) (fl_residuals psi delta psi_d delta_d) ds.
Proof.
  intros P D (ps & cs & -> & HP & HC). unfold fl_residuals. apply Forall2_app.
  - clear D HC cs. revert ps HP. induction P as [|a b l m (A & B & L) P IH]; intros ps HP; cbn [combine] in HP; inversion HP as [|q d ql ps' E HP']; subst; cbn [map2].
    + constructor.
    + constructor; [|apply IH; auto]. cbn [fst snd]. split; [apply psi_residual; auto|]. split; [apply psi_abs; auto|exact L].
  - clear P HP ps. revert cs HC. induction D as [|a b l m (A & B & L) D IH]; intros cs HC; cbn [combine] in HC; inversion HC as [|q d ql cs' E HC']; subst; cbn [map2].
    + constructor.
    + constructor; [|apply IH; auto]. cbn [fst snd] in E. split; [apply cd_float; auto|]. split; [apply delta_abs; auto|].
      destruct (cd_float a b A B L) as (_ & R0 & _ & (d' & C' & K) & _). cbv zeta in *.
      rewrite (circle_fun _ _ _ _ _ E C'). pose proof (circle_min _ _ L) as CM. rewrite (circle_fun _ _ _ _ _ C' CM).
      pose proof (Rabs_pos (val a - val b)). unfold Rmin. destruct Rle_dec; rewrite Rabs_pos_eq; lra.
Qed.

Theorem residuals_close psi delta psi_d delta_d ds : comparable psi psi_d -> comparable delta delta_d ->
  exact_residuals psi delta psi_d delta_d ds ->
  Forall2 (fun r d => finite r /\ Rabs (val r - d) <= / 2 ^ 45) (fl_residuals psi delta psi_d delta_d) ds.
Proof. intros A B C. eapply F2_impl; [|exact (residual_parts _ _ _ _ _ A B C)]. cbn. intuition. Qed.

Theorem exact_exists psi delta psi_d delta_d : comparable psi psi_d -> comparable delta delta_d ->
  exists ds, exact_residuals psi delta psi_d delta_d ds /\
    forall ds', exact_residuals psi delta psi_d delta_d ds' -> ds' = ds.
Proof.
  intros P D.
  assert (HP : exists ps, Forall2 (fun q d => d = val (fst q) - val (snd q)) (combine psi psi_d) ps /\
     forall ps', Forall2 (fun q d => d = val (fst q) - val (snd q)) (combine psi psi_d) ps' -> ps' = ps).
  { induction P as [|a b l m _ P (ps & IH & U)]; cbn [combine].
    - exists []. split; [constructor|]. intros ps' H. inversion H; auto.
    - exists ((val a - val b) :: ps). split; [constructor; auto|]. intros ps' H. inversion H; subst. cbn. f_equal. auto. }
  assert (HC : exists cs, Forall2 (fun q d => circle_distance 360 (val (fst q)) (val (snd q)) d) (combine delta delta_d) cs /\
     forall cs', Forall2 (fun q d => circle_distance 360 (val (fst q)) (val (snd q)) d) (combine delta delta_d) cs' -> cs' = cs).
  { induction D as [|a b l m (A & B & L) D (cs & IH & U)]; cbn [combine].
    - exists []. split; [constructor|]. intros cs' H. inversion H; auto.
    - eexists (_ :: cs). split; [constructor; [|exact IH]; exact (circle_min _ _ L)|].
      intros cs' H. inversion H as [|q d ql cs0 E H']; subst. f_equal; [|auto]. eapply circle_fun; [exact E|]. exact (circle_min _ _ L). }
  destruct HP as (ps & HP & UP). destruct HC as (cs & HC & UC). exists (ps ++ cs). split; [exists ps, cs; auto|].
  intros ds' (ps' & cs' & -> & A & B). rewrite (UP _ A), (UC _ B). reflexivity.
Qed.

(** ** chi-squared *)
Lemma squares_close (rs : list f64) ds : Forall2 (fun r d => finite r /\ Rabs (val r - d) <= / 2 ^ 45 /\ Rabs d <= 360) rs ds ->
  Rabs (squares rs - total (map (fun d => d * d) ds)) <= INR (length ds) * (721 * / 2 ^ 45) /\
  squares rs <= INR (length ds) * 130321.
Proof.
  unfold squares. induction 1 as [|r d rs ds (F & E & L) H [IH1 IH2]]; cbn [map total length].
  - cbn [INR]. rewrite Rminus_0_r, Rabs_R0. lra.
  - rewrite S_INR.
    assert (T : 0 < / 2 ^ 45 <= 1). { rewrite pow2_45. cbn. lra. }
    assert (K : Rabs (val r * val r - d * d) <= 721 * / 2 ^ 45).
    { replace (val r * val r - d * d) with ((val r - d) * ((val r - d) + 2 * d)) by ring. rewrite Rabs_mult.
      assert (Rabs (val r - d + 2 * d) <= 721). { eapply Rle_trans; [apply Rabs_triang|]. rewrite Rabs_mult, (Rabs_pos_eq 2) by lra. lra. }
      rewrite (Rmult_comm 721). apply Rmult_le_compat; auto using Rabs_pos. }
    assert (Q : val r * val r <= 130321).
    { apply Rabs_le_inv in E. apply Rabs_le_inv in L. assert (-361 <= val r <= 361) by lra. nra. }
    split; [|lra].
    replace (val r * val r + total (map (fun r0 : f64 => val r0 * val r0) rs) - (d * d + total (map (fun d0 => d0 * d0) ds)))
      with ((val r * val r - d * d) + (total (map (fun r0 : f64 => val r0 * val r0) rs) - total (map (fun d0 => d0 * d0) ds))) by ring.
    eapply Rle_trans; [apply Rabs_triang|]. lra.
Qed.

Lemma pow_le_3 n : INR n <= 2 ^ 53 -> (1 + u) ^ n <= 3.
Proof.
  intros H. pose proof u_pos as U.
  assert (E : (1 + u) ^ n <= exp (INR n * u)).
  { clear H. induction n as [|n IH]; [cbn [pow INR]; rewrite Rmult_0_l, exp_0; lra|]. rewrite S_INR. cbn [pow].
    replace ((INR n + 1) * u) with (u + INR n * u) by ring. rewrite exp_plus. pose proof (exp_ineq1_le u).
    pose proof (pow_ge1 n). apply Rmult_le_compat; lra. }
  eapply Rle_trans; [exact E|]. eapply Rle_trans; [|exact exp_le_3].
  assert (K : INR n * u <= 1). { unfold u. assert (0 < 2 ^ 53) by (apply pow_lt; lra). apply Rmult_le_reg_r with (2 ^ 53); [auto|]. rewrite Rmult_assoc, Rinv_l; lra. }
  destruct (Rle_lt_or_eq_dec _ _ K) as [K'|K']; [left; apply exp_increasing; auto|rewrite K'; lra].
Qed.

Lemma tiny_small : tiny <= / 2 ^ 45.
Proof. rewrite pow2_45. change (/ IZR (2 ^ 45)) with (bpow radix2 (-45)). apply bpow_le. lia. Qed.

Theorem chisqr_close psi delta psi_d delta_d ds p : comparable psi psi_d -> comparable delta delta_d ->
  exact_residuals psi delta psi_d delta_d ds -> covers (length ds) p -> INR (length ds) <= 2 ^ 53 ->
  let c := fl_chisqr p psi delta psi_d delta_d in
  let X := total (map (fun d => d * d) ds) in let e := INR (length ds) * / 2 ^ 35 in
  finite c /\ 0 <= val c /\ Rabs (val c - X) <= ((1 + u) ^ length ds - 1) * (X + e) + e.
Proof.
  intros P D E C L c X e. pose proof (residual_parts _ _ _ _ _ P D E) as RP.
  set (rs := fl_residuals psi delta psi_d delta_d) in *.
  assert (LN : length rs = length ds) by (apply (F2_length _ _ _ RP)).
  assert (F : Forall finite rs). { clear - RP. induction RP; constructor; intuition. }
  destruct (squares_close rs ds RP) as [SC SB].
  set (n := length ds) in *. pose proof (pos_INR n) as N0.
  pose proof tiny_pos as T0. pose proof tiny_small as T1.
  assert (T2 : 0 < / 2 ^ 45 <= / 1000000). { rewrite pow2_45. cbn. lra. }
  assert (T3 : / 2 ^ 35 = 1024 * / 2 ^ 45). { rewrite pow2_45, (pow_IZR 2 35). cbn. lra. }
  assert (SP : 0 <= squares rs). { apply total_pos, Forall_forall. intros x I0. apply in_map_iff in I0. destruct I0 as (r & <- & _). nra. }
  assert (FC : finite c).
  { apply (chi_finite rs p); [exact F|rewrite LN; exact C|]. rewrite LN.
    apply Rle_trans with (3 * (2 ^ 53 * 130322)).
    - apply Rmult_le_compat; [pose proof (pow_ge1 n); lra|nra|apply pow_le_3; auto|]. nra.
    - rewrite pow2_53. apply Rle_trans with (IZR (2 ^ 100)); [rewrite <- !mult_IZR; apply IZR_le; lia|].
      change (IZR (2 ^ 100)) with (bpow radix2 100). apply bpow_le. lia. }
  split; [auto|]. split; [apply nn_val, run_nn, finite_no_nan, F|].
  pose proof (chi_error rs p F ltac:(rewrite LN; exact C) FC) as CE. rewrite LN in CE. fold c in CE.
  change (run rs p) with c in CE. pose proof (pow_ge1 n) as G. set (A := (1 + u) ^ n) in *.
  replace (val c - X) with ((val c - squares rs) + (squares rs - X)) by ring.
  eapply Rle_trans; [apply Rabs_triang|].
  assert (SX : squares rs <= X + INR n * (721 * / 2 ^ 45)). { apply Rabs_le_inv in SC. unfold X. lra. }
  unfold e. rewrite T3.
  assert (Y1 : INR n * tiny <= INR n * / 2 ^ 45) by (apply Rmult_le_compat_l; auto).
  assert (Y0 : 0 <= INR n * / 2 ^ 45) by nra.
  assert (Y2 : squares rs + INR n * tiny <= X + INR n * (1024 * / 2 ^ 45)) by lra.
  assert (Y3 : (A - 1) * (squares rs + INR n * tiny) <= (A - 1) * (X + INR n * (1024 * / 2 ^ 45))) by (apply Rmult_le_compat_l; lra).
  assert (Y4 : INR n * tiny + INR n * (721 * / 2 ^ 45) <= INR n * (1024 * / 2 ^ 45)) by lra.
  fold X in SC. lra.
Qed.

(** ** A perfect fit *)
Lemma fsub_same a b : finite a -> finite b -> val a = val b -> finite (fsub a b) /\ val (fsub a b) = 0.
Proof.
  intros A B E. assert (H : Rabs (val a - val b) <= 360) by (rewrite E, Rminus_eq_0, Rabs_R0; lra).
  destruct (psi_residual a b A B H) as (F & Z & _). split; [auto|]. apply Z, E.
Qed.
Lemma cd_same a b : finite a -> finite b -> val a = val b ->
  finite (fl_circular_distance a b (fZ 360)) /\ val (fl_circular_distance a b (fZ 360)) = 0.
Proof.
  intros A B E. assert (H : Rabs (val a - val b) <= 360) by (rewrite E, Rminus_eq_0, Rabs_R0; lra).
  destruct (cd_val a b A B H) as (F & _ & V). split; [exact F|]. rewrite V, E, Rminus_eq_0, Rabs_R0, (rnd_id 0 fmt0).
  unfold Rmin. destruct Rle_dec; lra.
Qed.

Lemma limit_zero (res : list f64) p : Forall (fun r => val r = 0) res -> weight res p = 0.
Proof.
  intros H. unfold weight. assert (T : forall i, term res i = 0).
  { intros i. unfold term. destruct (nth_in_or_default i res fzero) as [I0| ->]; [|cbn; ring].
    rewrite Forall_forall in H. rewrite (H _ I0). ring. }
  induction (used p) as [|i l IH]; cbn [map total]; [auto|]. rewrite T, IH. ring.
Qed.

(** from residuals 0, by any plan *)
Lemma run_all_zero res p : Forall (fun r => finite r /\ val r = 0) res -> finite (run res p) /\ val (run res p) = 0.
Proof.
  intros H. assert (FN : forall i, finite (nth i res fzero) /\ val (nth i res fzero) = 0).
  { intros i. destruct (nth_in_or_default i res fzero) as [I0| ->]; [|split; reflexivity]. rewrite Forall_forall in H. auto. }
  assert (Z : Rabs (rnd 0) < bpow radix2 1024) by (rewrite (rnd_id 0 fmt0), Rabs_R0; apply bpow_gt_0).
  induction p as [|i|i p [IH0 IH1]|p [IHp0 IHp1] q [IHq0 IHq1]]; cbn [run].
  - split; reflexivity.
  - destruct (FN i) as [A B]. destruct (mul_ok (nth i res fzero) A) as [C D]; rewrite ?B in *; rewrite ?Rmult_0_l in *; auto.
    split; [auto|]. rewrite D. apply rnd_id, fmt0.
  - destruct (FN i) as [A B]. destruct (fma_ok (nth i res fzero) (run res p) A IH0) as [C D]; rewrite ?B, ?IH1 in *; rewrite ?Rmult_0_l, ?Rplus_0_l in *; auto.
    split; [auto|]. rewrite D. apply rnd_id, fmt0.
  - destruct (add_ok (run res p) (run res q) IHp0 IHq0) as [C D]; rewrite ?IHp1, ?IHq1 in *; rewrite ?Rplus_0_l in *; auto.
    split; [auto|]. rewrite D. apply rnd_id, fmt0.
Qed.

Theorem perfect_fit psi delta psi_d delta_d p :
  Forall2 (fun a b => finite a /\ finite b /\ val a = val b) psi psi_d ->
  Forall2 (fun a b => finite a /\ finite b /\ val a = val b) delta delta_d ->
  finite (fl_chisqr p psi delta psi_d delta_d) /\ val (fl_chisqr p psi delta psi_d delta_d) = 0.
Proof.
  intros P D. apply run_all_zero. unfold fl_residuals. apply Forall_app. split.
  - induction P as [|a b l m (A & B & E) P IH]; cbn [map2]; constructor; auto using fsub_same.
  - induction D as [|a b l m (A & B & E) D IH]; cbn [map2]; constructor; auto using cd_same.
Qed.

(** small squares *)
Lemma small_root r : r * r <= tiny -> Rabs r <= 8 / 10 * bpow radix2 (-537).
Proof.
  intros H. assert (T : tiny <= (8 / 10 * bpow radix2 (-537)) * (8 / 10 * bpow radix2 (-537))).
  { replace (8 / 10 * bpow radix2 (-537) * (8 / 10 * bpow radix2 (-537))) with (64 / 100 * (bpow radix2 (-537) * bpow radix2 (-537))) by (generalize (bpow radix2 (-537)); intros; field).
    rewrite <- bpow_plus. change (-537 + -537)%Z with (-1074)%Z. unfold tiny. change (-1075)%Z with (-1 + -1074)%Z. rewrite bpow_plus.
    change (bpow radix2 (-1)) with (/ 2). pose proof (bpow_gt_0 radix2 (-1074)). lra. }
  pose proof (bpow_gt_0 radix2 (-537)) as B.
  rewrite <- (Rabs_pos_eq (8 / 10 * bpow radix2 (-537))) by lra. apply Rsqr_le_abs_0. unfold Rsqr. lra.
Qed.

Lemma psi_tiny a b : finite a -> finite b -> Rabs (val a - val b) <= 360 -> val (fsub a b) * val (fsub a b) <= tiny ->
  Rabs (val a - val b) <= bpow radix2 (-537).
Proof.
  intros A B H T. destruct (psi_residual a b A B H) as (_ & _ & _ & _ & E). cbv zeta in E. apply small_root in T.
  pose proof u_pos as U. pose proof (bpow_gt_0 radix2 (-537)) as P.
  pose proof (Rabs_triang_inv (val a - val b) (val (fsub a b))) as K. rewrite (Rabs_minus_sym (val a - val b)) in K.
  pose proof (Rabs_pos (val a - val b)). nra.
Qed.

Lemma delta_tiny a b : finite a -> finite b -> Rabs (val a - val b) <= 360 ->
  val (fl_circular_distance a b (fZ 360)) * val (fl_circular_distance a b (fZ 360)) <= tiny ->
  Rabs (val a - val b) <= bpow radix2 (-537) \/ Rabs (360 - Rabs (val a - val b)) <= / 2 ^ 44.
Proof.
  intros A B H T. destruct (cd_val a b A B H) as (_ & D0 & V). cbv zeta in *. rewrite V in T. clear V.
  set (x := Rabs (val a - val b)) in *. set (D := rnd x) in *.
  assert (X0 : 0 <= x) by apply Rabs_pos.
  assert (ER : Rabs (D - x) <= / 2 ^ 45). { apply rnd_err. rewrite Rabs_pos_eq; auto. }
  apply small_root in T. pose proof (bpow_gt_0 radix2 (-537)) as P. unfold Rmin in T. destruct Rle_dec as [L|L].
  - left. destruct (psi_residual a b A B H) as (_ & _ & _ & _ & E). cbv zeta in E.
    assert (H60 : Rabs (val a - val b) <= IZR (2 ^ 60)) by (eapply Rle_trans; [exact H|]; apply IZR_le; lia).
    destruct (fsub_val a b A B (small _ H60)) as [V F].
    assert (DE : D = Rabs (val (fsub a b))). { unfold D, x. rewrite V. symmetry. apply rnd_abs. }
    rewrite DE, Rabs_Rabsolu in T. fold x in E. pose proof u_pos as U.
    assert (K : x <= Rabs (val (fsub a b)) + u * x).
    { pose proof (Rabs_triang_inv (val a - val b) (val (fsub a b))) as K. rewrite (Rabs_minus_sym (val a - val b)) in K.
      fold x in K. lra. }
    nra.
  - right. assert (Q : bpow radix2 (-537) <= / 2 ^ 45).
    { rewrite pow2_45. change (/ IZR (2 ^ 45)) with (bpow radix2 (-45)). apply bpow_le. lia. }
    assert (T3 : / 2 ^ 44 = 2 * / 2 ^ 45). { rewrite pow2_45, (pow_IZR 2 44). cbn. lra. }
    replace (360 - x) with ((360 - D) + (D - x)) by ring. eapply Rle_trans; [apply Rabs_triang|]. lra.
Qed.

Theorem zero_means psi delta psi_d delta_d p : comparable psi psi_d -> comparable delta delta_d ->
  covers (length (fl_residuals psi delta psi_d delta_d)) p -> finite (fl_chisqr p psi delta psi_d delta_d) ->
  val (fl_chisqr p psi delta psi_d delta_d) = 0 ->
  Forall2 (fun a b => Rabs (val a - val b) <= bpow radix2 (-537)) psi psi_d /\
  Forall2 (fun a b => Rabs (val a - val b) <= bpow radix2 (-537) \/ Rabs (360 - Rabs (val a - val b)) <= / 2 ^ 44) delta delta_d.
Proof.
  intros P D C F Z.
  assert (FR : Forall finite (fl_residuals psi delta psi_d delta_d)).
  { destruct (exact_exists _ _ _ _ P D) as (ds & E & _). pose proof (residual_parts _ _ _ _ _ P D E) as RP.
    clear - RP. induction RP; constructor; intuition. }
  apply (chi_zero _ p FR C F) in Z. unfold fl_residuals in Z. apply Forall_app in Z. destruct Z as [Z1 Z2]. split.
  - clear - P Z1. induction P as [|a b l m (A & B & L) P IH]; cbn [map2] in Z1; constructor; inversion Z1; subst; auto using psi_tiny.
  - clear - D Z2. induction D as [|a b l m (A & B & L) D IH]; cbn [map2] in Z2; constructor; inversion Z2; subst; auto using delta_tiny.
Qed.

(** the smallest double *)
Definition least : f64 := @B754_finite 53 1024 false 1 (-1074) eq_refl.
Lemma least_val : val least = bpow radix2 (-1074).
Proof. unfold val, least, B2R. cbn [SpecFloat.cond_Zopp]. unfold F2R. cbn [Fnum Fexp]. ring. Qed.

Theorem zero_refuted : exists psi psi_d delta delta_d, forall p,
  val (fl_chisqr p [psi] [delta] [psi_d] [delta_d]) = 0 /\ finite (fl_chisqr p [psi] [delta] [psi_d] [delta_d]) /\
  finite psi /\ finite psi_d /\ val psi <> val psi_d.
Proof.
  exists least, fzero, fzero, fzero. intros p.
  assert (E : fl_residuals [least] [fzero] [fzero] [fzero] = [least; fzero]) by (vm_compute; reflexivity).
  unfold fl_chisqr. rewrite E.
  assert (N : no_nan [least; fzero]) by (repeat constructor).
  assert (FF : Forall finite [least; fzero]) by (repeat constructor).
  assert (TL : forall i, term [least; fzero] i <= tiny).
  { intros i. unfold term. destruct i as [|[|i]]; cbn [nth].
    - rewrite least_val, <- bpow_plus. apply bpow_le. lia.
    - change (val fzero) with 0. pose proof tiny_pos. lra.
    - destruct i; change (val fzero) with 0; pose proof tiny_pos; lra. }
  assert (G : finite (run [least; fzero] p) /\ val (run [least; fzero] p) = 0).
  { assert (FN : forall i, finite (nth i [least; fzero] fzero)).
    { intros [|[|[|i]]]; reflexivity. }
    induction p as [|i|i p [IH0 IH1]|p [IHp0 IHp1] q [IHq0 IHq1]]; cbn [run].
    - split; reflexivity.
    - assert (Z : rnd (term [least; fzero] i) = 0) by (apply rnd_zero; auto using term_pos).
      destruct (mul_ok _ (FN i)) as [C D]; [unfold term in Z; rewrite Z, Rabs_R0; apply bpow_gt_0|].
      split; [auto|]. rewrite D. exact Z.
    - assert (Z : rnd (term [least; fzero] i + val (run [least; fzero] p)) = 0).
      { rewrite IH1, Rplus_0_r. apply rnd_zero; auto using term_pos. }
      destruct (fma_ok _ _ (FN i) IH0) as [C D]; [unfold term in Z; rewrite Z, Rabs_R0; apply bpow_gt_0|].
      split; [auto|]. rewrite D. exact Z.
    - assert (Z : rnd (val (run [least; fzero] p) + val (run [least; fzero] q)) = 0).
      { rewrite IHp1, IHq1, Rplus_0_r. apply rnd_id, fmt0. }
      destruct (add_ok _ _ IHp0 IHq0) as [C D]; [rewrite Z, Rabs_R0; apply bpow_gt_0|].
      split; [auto|]. rewrite D. exact Z. }
  destruct G as [G1 G2]. split; [auto|]. split; [auto|]. split; [reflexivity|]. split; [reflexivity|].
  rewrite least_val. change (val fzero) with 0. pose proof (bpow_gt_0 radix2 (-1074)). lra.
Qed.

(** ** nan in the data or the model *)
Theorem chisqr_nan psi delta psi_d delta_d p : length psi = length psi_d -> length delta = length delta_d ->
  covers (length (fl_residuals psi delta psi_d delta_d)) p ->
  Exists nan psi \/ Exists nan psi_d \/ Exists nan delta \/ Exists nan delta_d -> nan (fl_chisqr p psi delta psi_d delta_d).
Proof.
  intros LP LD C H. apply chi_nan; [exact C|]. unfold fl_residuals. apply Exists_app.
  assert (S1 : forall a b : f64, nan a \/ nan b -> nan (fsub a b)).
  { intros a b [K|K]; destruct a, b; try discriminate; reflexivity. }
  assert (S2 : forall a b : f64, nan a \/ nan b -> nan (fl_circular_distance a b (fZ 360))).
  { intros a b K. apply cd_nan. tauto. }
  assert (X : forall (f : f64 -> f64 -> f64) l m, (forall a b, nan a \/ nan b -> nan (f a b)) -> length l = length m ->
     Exists nan l \/ Exists nan m -> Exists nan (map2 f l m)).
  { intros f l. induction l as [|a l IH]; intros [|b m] Hf L K; cbn in L; try discriminate.
    - destruct K as [K|K]; inversion K.
    - cbn [map2]. destruct K as [K|K]; inversion K; subst; auto. }
  destruct H as [H|[H|[H|H]]]; [left|left|right|right]; apply X; auto.
Qed.

(** example *)
Definition plan2 : plan := Plus (Fused 0 Nothing) (Square 1).
Lemma plan2_covers : covers 2 plan2.
Proof. unfold covers. cbn. apply Permutation_refl. Qed.
Lemma example2 : comparable [fZ 30] [fZ 27] /\ comparable [fZ 358] [fZ 2] /\
  covers (length (fl_residuals [fZ 30] [fZ 358] [fZ 27] [fZ 2])) plan2 /\
  finite (fl_chisqr plan2 [fZ 30] [fZ 358] [fZ 27] [fZ 2]) /\ val (fl_chisqr plan2 [fZ 30] [fZ 358] [fZ 27] [fZ 2]) = 25.
Proof.
  split; [|split; [|split; [|split]]].
  - constructor; [|constructor]. destruct (fZ_val 30) as [V F]; [lia|]. destruct (fZ_val 27) as [V' F']; [lia|].
    split; [auto|]. split; [auto|]. rewrite V, V', Rabs_pos_eq; lra.
  - constructor; [|constructor]. destruct (fZ_val 358) as [V F]; [lia|]. destruct (fZ_val 2) as [V' F']; [lia|].
    split; [auto|]. split; [auto|]. rewrite V, V', Rabs_pos_eq; lra.
  - exact plan2_covers.
  - vm_compute. reflexivity.
  - apply (val_Z _ 25); [lia|vm_compute; reflexivity..].
Qed.
