(** * Proofs about the double precision chi-squared: rounding errors, zeros, monotonicity *)

Require Import Reals ZArith Bool List Permutation Lra Lia Psatz.
From Flocq Require Import Core.
From Flocq.IEEE754 Require Import BinarySingleNaN.
From Flocq.Prop Require Import Relative Plus_error.
From Verif Require Import Base P_struct Spec_objective M_float Spec_float P_float P_float2 M_fresid Spec_fresid P_fresid.
Import ListNotations.
Open Scope R_scope.

(** ** Roundings *)
Lemma tiny_pos : 0 < tiny.
Proof. apply bpow_gt_0. Qed.
Lemma rnd_any x : exists e t, Rabs e <= u /\ Rabs t <= tiny /\ rnd x = x * (1 + e) + t.
Proof.
  destruct (error_N_FLT radix2 (-1074) 53 eq_refl (fun z => negb (Z.even z)) x) as (e & t & E & T & _ & H).
  exists e, t. change (Rabs e <= / 2 * bpow radix2 (- 53 + 1)) in E. rewrite <- u_bpow. split; [exact E|]. split; [|exact H].
  replace tiny with (/ 2 * bpow radix2 (-1074)); [exact T|].
  unfold tiny. change (-1075)%Z with (-1 + -1074)%Z. rewrite bpow_plus. reflexivity.
Qed.
Lemma u_ro_le : u_ro radix2 53 / (1 + u_ro radix2 53) <= u.
Proof.
  unfold u_ro. rewrite <- u_bpow. change (- (53) + 1)%Z with (-53 + 1)%Z. rewrite u_bpow. pose proof u_pos as U.
  apply Rmult_le_reg_r with (1 + u); [lra|]. unfold Rdiv. rewrite Rmult_assoc, Rinv_l by lra. nra.
Qed.
Lemma rnd_sum x y : fmt x -> fmt y -> exists e, Rabs e <= u /\ rnd (x + y) = (x + y) * (1 + e).
Proof.
  intros X Y. destruct (@FLT_plus_error_N_ex radix2 (-1074) 53 prec_ok (fun z => negb (Z.even z)) x y X Y) as (e & E & H).
  exists e. split; [|exact H]. eapply Rle_trans; [exact E|exact u_ro_le].
Qed.

(** ** Sums over a plan *)
Definition term (res : list f64) (i : nat) : R := val (nth i res fzero) * val (nth i res fzero).
Definition weight (res : list f64) (p : plan) : R := total (map (term res) (used p)).

Lemma total_app l m : total (l ++ m) = total l + total m.
Proof. induction l as [|x l IH]; cbn [total app]; [lra|]. rewrite IH. ring. Qed.
Lemma total_perm l m : Permutation l m -> total l = total m.
Proof. induction 1; cbn [total]; lra. Qed.
Lemma term_pos res i : 0 <= term res i.
Proof. unfold term. nra. Qed.
Lemma total_pos l : Forall (fun x => 0 <= x) l -> 0 <= total l.
Proof. induction 1; cbn [total]; lra. Qed.
Lemma weight_pos res p : 0 <= weight res p.
Proof. apply total_pos, Forall_forall. intros x I0. apply in_map_iff in I0. destruct I0 as (i & <- & _). apply term_pos. Qed.
Lemma weight_plus res p q : weight res (Plus p q) = weight res p + weight res q.
Proof. unfold weight. cbn [used]. rewrite map_app. apply total_app. Qed.
Lemma weight_fused res i p : weight res (Fused i p) = term res i + weight res p.
Proof. reflexivity. Qed.

Lemma nth_total (res : list f64) : map (fun i => term res i) (seq 0 (length res)) = map (fun r => val r * val r) res.
Proof.
  induction res as [|r res IH]; cbn [length seq map]; [reflexivity|]. f_equal.
  rewrite <- IH, <- seq_shift, map_map. reflexivity.
Qed.
Lemma weight_covers res p : covers (length res) p -> weight res p = squares res.
Proof.
  intros C. unfold weight, squares. rewrite <- nth_total. apply total_perm. apply Permutation_map. exact C.
Qed.
Lemma used_covers n p : covers n p -> length (used p) = n.
Proof. intros C. rewrite (Permutation_length C). apply seq_length. Qed.

Lemma run_empty res p : used p = [] -> run res p = fzero.
Proof.
  induction p as [|i|i p IH|p IHp q IHq]; cbn [used run]; intros E; try discriminate; auto.
  apply app_eq_nil in E. destruct E as [E1 E2]. rewrite IHp, IHq by auto. reflexivity.
Qed.

(** ** Errors *)
Definition within (res : list f64) (p : plan) (v : R) : Prop :=
  Rabs (v - weight res p) <= ((1 + u) ^ length (used p) - 1) * weight res p
                             + (1 + u) ^ length (used p) * (INR (length (used p)) * tiny).

Lemma pow_ge1 k : 1 <= (1 + u) ^ k.
Proof. apply pow_R1_Rle. pose proof u_pos. lra. Qed.
Lemma pow_step k n : (k < n)%nat -> (1 + u) * (1 + u) ^ k <= (1 + u) ^ n.
Proof. intros H. change ((1 + u) ^ S k <= (1 + u) ^ n). apply Rle_pow; [pose proof u_pos; lra|lia]. Qed.
Lemma pow_mono k n : (k <= n)%nat -> (1 + u) ^ k <= (1 + u) ^ n.
Proof. intros H. apply Rle_pow; [pose proof u_pos; lra|lia]. Qed.

(** v = (x + y) (1 + e) + t where x and y have errors e1 and e2 *)
Lemma combine_error x y S1 S2 e t E1 E2 :
  Rabs e <= u -> Rabs t <= tiny -> Rabs (x - S1) <= E1 -> Rabs (y - S2) <= E2 -> 0 <= S1 + S2 ->
  Rabs ((x + y) * (1 + e) + t - (S1 + S2)) <= (1 + u) * (E1 + E2) + u * (S1 + S2) + tiny.
Proof.
  intros He Ht HX HY HS.
  replace ((x + y) * (1 + e) + t - (S1 + S2)) with (((x - S1) + (y - S2)) * (1 + e) + (S1 + S2) * e + t) by ring.
  assert (A : Rabs ((x - S1) + (y - S2)) <= E1 + E2) by (eapply Rle_trans; [apply Rabs_triang|lra]).
  assert (B : Rabs (1 + e) <= 1 + u). { eapply Rle_trans; [apply Rabs_triang|]. rewrite Rabs_R1. lra. }
  eapply Rle_trans; [apply Rabs_triang|]. apply Rplus_le_compat; [|exact Ht].
  eapply Rle_trans; [apply Rabs_triang|]. rewrite !Rabs_mult, (Rabs_pos_eq (S1 + S2)) by auto.
  pose proof (Rabs_pos (x - S1 + (y - S2))). pose proof (Rabs_pos (1 + e)). pose proof (Rabs_pos e).
  apply Rplus_le_compat; [|nra]. rewrite (Rmult_comm (1 + u)). apply Rmult_le_compat; auto.
Qed.

Lemma square_within res i : let v := rnd (term res i) in within res (Square i) v.
Proof.
  cbv zeta. unfold within. cbn [used length pow INR]. unfold weight. cbn [used map total].
  destruct (rnd_any (term res i)) as (e & t & E & T & ->).
  pose proof (combine_error (term res i) 0 (term res i) 0 e t 0 0 E T) as H.
  rewrite !Rminus_eq_0, Rabs_R0 in H. pose proof (term_pos res i) as P. pose proof tiny_pos. pose proof u_pos.
  specialize (H ltac:(lra) ltac:(lra) ltac:(lra)).
  rewrite !Rplus_0_r in H. rewrite Rplus_0_r. eapply Rle_trans; [exact H|]. nra.
Qed.

Lemma fused_within res i p s : within res p s -> within res (Fused i p) (rnd (term res i + s)).
Proof.
  intros W. unfold within in *. rewrite weight_fused. cbn [used length].
  destruct (rnd_any (term res i + s)) as (e & t & E & T & ->).
  pose proof (term_pos res i) as P. pose proof (weight_pos res p) as Q. pose proof tiny_pos as T0. pose proof u_pos as U.
  assert (Z0 : Rabs (term res i - term res i) <= 0) by (rewrite Rminus_eq_0, Rabs_R0; lra).
  assert (NN : 0 <= term res i + weight res p) by lra.
  pose proof (combine_error _ _ _ _ e t 0 _ E T Z0 W NN) as H.
  eapply Rle_trans; [exact H|]. rewrite S_INR. cbn [pow].
  pose proof (pow_ge1 (length (used p))) as G. set (A := (1 + u) ^ length (used p)) in *.
  pose proof (pos_INR (length (used p))) as K. set (k := INR (length (used p))) in *.
  assert (X1 : 0 <= (A - 1) * term res i) by nra.
  assert (X2 : tiny <= (1 + u) * A * tiny). { assert (1 <= (1 + u) * A) by nra. nra. }
  assert (X3 : 0 <= u * (A - 1) * term res i) by nra.
  ring_simplify. ring_simplify in X2. nra.
Qed.

Lemma plus_within res p q a b : within res p a -> within res q b -> used p <> [] -> used q <> [] -> fmt a -> fmt b ->
  within res (Plus p q) (rnd (a + b)).
Proof.
  intros WA WB NA NB FA FB. unfold within in *. rewrite weight_plus. cbn [used]. rewrite app_length.
  assert (LA : (1 <= length (used p))%nat) by (destruct (used p); [congruence|cbn; lia]).
  assert (LB : (1 <= length (used q))%nat) by (destruct (used q); [congruence|cbn; lia]).
  destruct (rnd_sum a b FA FB) as (e & E & ->).
  pose proof (weight_pos res p) as P. pose proof (weight_pos res q) as Q. pose proof tiny_pos as T0. pose proof u_pos as U.
  assert (H : Rabs ((a + b) * (1 + e) - (weight res p + weight res q)) <=
     (1 + u) * ((((1 + u) ^ length (used p) - 1) * weight res p
                             + (1 + u) ^ length (used p) * (INR (length (used p)) * tiny)) +
                (((1 + u) ^ length (used q) - 1) * weight res q
                             + (1 + u) ^ length (used q) * (INR (length (used q)) * tiny))) + u * (weight res p + weight res q)).
  { replace ((a + b) * (1 + e) - (weight res p + weight res q))
      with (((a - weight res p) + (b - weight res q)) * (1 + e) + (weight res p + weight res q) * e) by ring.
    eapply Rle_trans; [apply Rabs_triang|]. rewrite !Rabs_mult, (Rabs_pos_eq (weight res p + weight res q)) by lra.
    apply Rplus_le_compat; [|pose proof (Rabs_pos e); nra]. rewrite (Rmult_comm (1 + u)).
    apply Rmult_le_compat; try apply Rabs_pos.
    - eapply Rle_trans; [apply Rabs_triang|lra].
    - eapply Rle_trans; [apply Rabs_triang|]. rewrite Rabs_R1. lra. }
  eapply Rle_trans; [exact H|]. rewrite plus_INR.
  pose proof (pow_step (length (used p)) (length (used p) + length (used q)) ltac:(lia)) as GA.
  pose proof (pow_step (length (used q)) (length (used p) + length (used q)) ltac:(lia)) as GB.
  set (M := (1 + u) ^ (length (used p) + length (used q))) in *.
  set (A := (1 + u) ^ length (used p)) in *. set (B := (1 + u) ^ length (used q)) in *.
  pose proof (pos_INR (length (used p))) as KA. set (ka := INR (length (used p))) in *.
  pose proof (pos_INR (length (used q))) as KB. set (kb := INR (length (used q))) in *.
  set (wp := weight res p) in *. set (wq := weight res q) in *.
  assert (X1 : (1 + u) * A * wp <= M * wp) by (apply Rmult_le_compat_r; auto).
  assert (X2 : (1 + u) * B * wq <= M * wq) by (apply Rmult_le_compat_r; auto).
  assert (X3 : (1 + u) * A * (ka * tiny) <= M * (ka * tiny)) by (apply Rmult_le_compat_r; [nra|auto]).
  assert (X4 : (1 + u) * B * (kb * tiny) <= M * (kb * tiny)) by (apply Rmult_le_compat_r; [nra|auto]).
  lra.
Qed.

Lemma within_nil res p v : used p = [] -> within res p v <-> v = 0.
Proof.
  intros E. unfold within, weight. rewrite E. cbn [map total length pow INR]. split.
  - intros H. assert (K : Rabs (v - 0) <= 0) by lra. destruct (Req_dec (v - 0) 0) as [Z|Z]; [lra|].
    apply Rabs_pos_lt in Z. lra.
  - intros ->. rewrite Rminus_0_r, Rabs_R0. lra.
Qed.
Lemma within_empty_l res p q v : used p = [] -> within res q v -> within res (Plus p q) v.
Proof. intros E. unfold within. rewrite weight_plus. cbn [used]. rewrite E. cbn [app].
  assert (Z : weight res p = 0) by (unfold weight; rewrite E; reflexivity). rewrite Z, Rplus_0_l. auto. Qed.
Lemma within_empty_r res p q v : used q = [] -> within res p v -> within res (Plus p q) v.
Proof. intros E. unfold within. rewrite weight_plus. cbn [used]. rewrite E, app_nil_r.
  assert (Z : weight res q = 0) by (unfold weight; rewrite E; reflexivity). rewrite Z, Rplus_0_r. auto. Qed.

Lemma fzero_add_l x : fmt x -> rnd (0 + x) = x.
Proof. intros F. rewrite Rplus_0_l. apply rnd_id; auto. Qed.
Lemma fzero_add_r x : fmt x -> rnd (x + 0) = x.
Proof. intros F. rewrite Rplus_0_r. apply rnd_id; auto. Qed.

Lemma plus_any res p q : within res p (val (run res p)) -> within res q (val (run res q)) ->
  within res (Plus p q) (rnd (val (run res p) + val (run res q))).
Proof.
  intros WA WB. destruct (used p) as [|i ip] eqn:EP.
  - rewrite (run_empty res p EP). change (val fzero) with 0. rewrite fzero_add_l by apply val_fmt.
    apply within_empty_l; auto.
  - destruct (used q) as [|j jq] eqn:EQ.
    + rewrite (run_empty res q EQ). change (val fzero) with 0. rewrite fzero_add_r by apply val_fmt.
      apply within_empty_r; auto.
    + apply plus_within; auto using val_fmt; rewrite ?EP, ?EQ; discriminate.
Qed.

Lemma run_within res p : no_nan res -> finite (run res p) -> within res p (val (run res p)).
Proof.
  intros N. induction p as [|i|i p IH|p IHp q IHq]; cbn [run]; intros F.
  - apply within_nil; reflexivity.
  - destruct (mul_fin _ (nth_no_nan _ _ N) F) as (_ & E & _). rewrite E. apply square_within.
  - destruct (fma_fin _ _ (nth_no_nan _ _ N) (run_nn _ p N) F) as (_ & FP & E & _). rewrite E.
    apply fused_within; auto.
  - destruct (add_fin _ _ (run_nn _ p N) (run_nn _ q N) F) as (FP & FQ & E & _). rewrite E.
    apply plus_any; auto.
Qed.

(** ** No overflow *)
Definition limit (res : list f64) (p : plan) : R :=
  (1 + u) ^ length (used p) * (weight res p + INR (length (used p)) * tiny).

Lemma within_limit res p v : within res p v -> Rabs v <= limit res p.
Proof.
  unfold within, limit. intros H. pose proof (weight_pos res p) as P.
  replace v with ((v - weight res p) + weight res p) by ring.
  eapply Rle_trans; [apply Rabs_triang|]. rewrite (Rabs_pos_eq (weight res p)) by auto. lra.
Qed.
Lemma limit_mono res p q : (length (used p) <= length (used q))%nat -> weight res p <= weight res q ->
  limit res p <= limit res q.
Proof.
  intros L W. unfold limit. pose proof (weight_pos res p) as P. pose proof tiny_pos as T. pose proof (pow_ge1 (length (used p))).
  apply Rmult_le_compat; [lra| |apply pow_mono; auto|].
  - pose proof (pos_INR (length (used p))). nra.
  - apply le_INR in L. nra.
Qed.

Lemma big_flt x : Rabs x <= bpow radix2 1000 -> Rabs x < bpow radix2 1024.
Proof. intros H. eapply Rle_lt_trans; [exact H|exact big]. Qed.

Lemma run_finite res p : Forall finite res -> limit res p <= bpow radix2 1000 -> finite (run res p).
Proof.
  intros F. assert (N : no_nan res). { eapply Forall_impl; [|exact F]. intros a. apply finite_not_nan. }
  assert (FN : forall i, finite (nth i res fzero)).
  { intros i. destruct (nth_in_or_default i res fzero) as [I0| ->]; [|reflexivity]. rewrite Forall_forall in F. auto. }
  induction p as [|i|i p IH|p IHp q IHq]; intros L; cbn [run].
  - reflexivity.
  - apply mul_ok; auto. apply big_flt. eapply Rle_trans; [|exact L]. exact (within_limit _ _ _ (square_within res i)).
  - assert (LP : limit res p <= bpow radix2 1000).
    { eapply Rle_trans; [|exact L]. apply limit_mono; [cbn; lia|]. rewrite weight_fused. pose proof (term_pos res i). lra. }
    specialize (IH LP). apply fma_ok; auto. apply big_flt. eapply Rle_trans; [|exact L].
    apply within_limit. apply fused_within. apply run_within; auto.
  - assert (LP : limit res p <= bpow radix2 1000).
    { eapply Rle_trans; [|exact L]. apply limit_mono; [cbn; rewrite app_length; lia|]. rewrite weight_plus. pose proof (weight_pos res q). lra. }
    assert (LQ : limit res q <= bpow radix2 1000).
    { eapply Rle_trans; [|exact L]. apply limit_mono; [cbn; rewrite app_length; lia|]. rewrite weight_plus. pose proof (weight_pos res p). lra. }
    specialize (IHp LP). specialize (IHq LQ). apply add_ok; auto. apply big_flt. eapply Rle_trans; [|exact L].
    apply within_limit. apply plus_any; apply run_within; auto.
Qed.

(** ** Zero *)
Lemma rnd_tiny : rnd tiny = 0.
Proof.
  unfold round, scaled_mantissa, cexp, tiny. rewrite mag_bpow. change (FLT_exp (-1074) 53 (-1075 + 1)) with (-1074)%Z.
  rewrite <- bpow_plus. change (-1075 + - -1074)%Z with (-1)%Z. change (bpow radix2 (-1)) with (/ 2).
  assert (Z0 : ZnearestE (/ 2) = 0%Z).
  { unfold Znearest. assert (Fl : Zfloor (/ 2) = 0%Z) by (apply Zfloor_imp; cbn; lra). rewrite Fl.
    rewrite Rcompare_Eq by lra. reflexivity. }
  rewrite Z0. unfold F2R. cbn. ring.
Qed.
Lemma rnd_pos x : 0 <= x -> 0 <= rnd x.
Proof. intros H. rewrite <- (rnd_id 0) by apply fmt0. apply rnd_le; auto. Qed.
Lemma rnd_zero x : 0 <= x -> (rnd x = 0 <-> x <= tiny).
Proof.
  intros P. split.
  - intros E. destruct (Rle_or_lt x tiny) as [H|H]; [auto|exfalso].
    destruct (Rle_or_lt (bpow radix2 (-1074)) x) as [G|G].
    + assert (K : rnd (bpow radix2 (-1074)) <= rnd x) by (apply rnd_le; auto).
      rewrite rnd_id in K by (apply generic_format_bpow; unfold FLT_exp; lia).
      pose proof (bpow_gt_0 radix2 (-1074)). lra.
    + assert (K : Rabs (rnd x - x) <= / 2 * ulp radix2 (FLT_exp (-1074) 53) x) by (apply error_le_half_ulp; typeclasses eauto).
      rewrite (@ulp_FLT_small radix2 (-1074) 53 prec_ok) in K.
      2: { rewrite Rabs_pos_eq by auto. eapply Rlt_trans; [exact G|]. apply bpow_lt. lia. }
      replace (/ 2 * bpow radix2 (-1074)) with tiny in K.
      2: { unfold tiny. change (-1075)%Z with (-1 + -1074)%Z. rewrite bpow_plus. reflexivity. }
      rewrite E, Rminus_0_l, Rabs_Ropp, Rabs_pos_eq in K by auto. lra.
  - intros H. apply Rle_antisym; [|apply rnd_pos; auto]. rewrite <- rnd_tiny. apply rnd_le; auto.
Qed.

Lemma sum_zero x y : fmt x -> fmt y -> 0 <= x -> 0 <= y -> (rnd (x + y) = 0 <-> x = 0 /\ y = 0).
Proof.
  intros X Y P Q. split.
  - intros E. destruct (rnd_sum x y X Y) as (e & He & K). rewrite K in E. pose proof u_pos as U.
    apply Rabs_le_inv in He. apply Rmult_integral in E. destruct E as [E|E]; [split; lra|lra].
  - intros [-> ->]. rewrite Rplus_0_r. apply rnd_id, fmt0.
Qed.
Lemma fused_zero x y : fmt y -> 0 <= x -> 0 <= y -> (rnd (x + y) = 0 <-> x <= tiny /\ y = 0).
Proof.
  intros Y P Q. split.
  - intros E. assert (K : rnd y <= rnd (x + y)) by (apply rnd_le; lra). rewrite E, (rnd_id y Y) in K.
    assert (y = 0) by lra. subst y. rewrite Rplus_0_r in E. split; [|auto]. apply rnd_zero; auto.
  - intros [H ->]. rewrite Rplus_0_r. apply rnd_zero; auto.
Qed.

Lemma run_zero res p : no_nan res -> finite (run res p) ->
  (val (run res p) = 0 <-> Forall (fun i => term res i <= tiny) (used p)).
Proof.
  intros N. induction p as [|i|i p IH|p IHp q IHq]; cbn [run used]; intros F.
  - split; [constructor|reflexivity].
  - destruct (mul_fin _ (nth_no_nan _ _ N) F) as (_ & E & _). rewrite E. change (_ * _) with (term res i).
    rewrite rnd_zero by apply term_pos. split; [intros; constructor; auto; constructor|]. intros H. inversion H; auto.
  - destruct (fma_fin _ _ (nth_no_nan _ _ N) (run_nn _ p N) F) as (_ & FP & E & _). rewrite E. change (_ * _) with (term res i).
    rewrite fused_zero by auto using val_fmt, term_pos, nn_val, run_nn. rewrite IH by auto. split.
    + intros [A B]. constructor; auto.
    + intros H. inversion H; auto.
  - destruct (add_fin _ _ (run_nn _ p N) (run_nn _ q N) F) as (FP & FQ & E & _). rewrite E.
    rewrite sum_zero by auto using val_fmt, nn_val, run_nn. rewrite IHp, IHq by auto. rewrite Forall_app. reflexivity.
Qed.

(** ** Monotonicity *)
Lemma flt_le x y : 0 <= x -> x <= y -> Rabs (rnd y) < bpow radix2 1024 -> Rabs (rnd x) < bpow radix2 1024.
Proof.
  intros P L H. eapply Rle_lt_trans; [|exact H]. pose proof (rnd_pos x P). pose proof (rnd_pos y ltac:(lra)).
  rewrite !Rabs_pos_eq by auto. apply rnd_le; auto.
Qed.
Lemma run_mono res res' p : Forall finite res -> no_nan res' ->
  Forall (fun i => term res i <= term res' i) (used p) ->
  finite (run res' p) -> finite (run res p) /\ val (run res p) <= val (run res' p).
Proof.
  intros F N'. assert (N : no_nan res). { eapply Forall_impl; [|exact F]. intros a. apply finite_not_nan. }
  assert (FN : forall i, finite (nth i res fzero)).
  { intros i. destruct (nth_in_or_default i res fzero) as [I0| ->]; [|reflexivity]. rewrite Forall_forall in F. auto. }
  induction p as [|i|i p IH|p IHp q IHq]; cbn [run used]; intros L F'.
  - split; [reflexivity|lra].
  - destruct (mul_fin _ (nth_no_nan _ _ N') F') as (_ & E' & B). rewrite E'. inversion L as [|? ? L0 _]; subst.
    destruct (mul_ok (nth i res fzero)) as [G E]; auto.
    + eapply flt_le; [|exact L0|exact B]. apply term_pos.
    + split; [auto|]. rewrite E. apply rnd_le. exact L0.
  - destruct (fma_fin _ _ (nth_no_nan _ _ N') (run_nn _ p N') F') as (_ & FP & E' & B). rewrite E'.
    inversion L as [|? ? L0 L1]; subst. destruct (IH L1 FP) as [G V].
    assert (K : term res i + val (run res p) <= term res' i + val (run res' p)) by lra.
    destruct (fma_ok (nth i res fzero) (run res p)) as [G' E]; auto.
    + eapply flt_le; [|exact K|exact B]. pose proof (term_pos res i). pose proof (nn_val _ (run_nn res p N)).
      unfold term in *. lra.
    + split; [auto|]. rewrite E. apply rnd_le. exact K.
  - destruct (add_fin _ _ (run_nn _ p N') (run_nn _ q N') F') as (FP & FQ & E' & B). rewrite E'.
    apply Forall_app in L. destruct L as [L0 L1]. destruct (IHp L0 FP) as [G0 V0]. destruct (IHq L1 FQ) as [G1 V1].
    assert (K : val (run res p) + val (run res q) <= val (run res' p) + val (run res' q)) by lra.
    destruct (add_ok (run res p) (run res q)) as [G' E]; auto.
    + eapply flt_le; [|exact K|exact B]. pose proof (nn_val _ (run_nn res p N)). pose proof (nn_val _ (run_nn res q N)). lra.
    + split; [auto|]. rewrite E. apply rnd_le. exact K.
Qed.
