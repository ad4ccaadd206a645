(** * Proofs about the double precision chi-squared *)

Require Import Reals ZArith Bool List Permutation Lra Lia Psatz.
From Flocq Require Import Core.
From Flocq.IEEE754 Require Import BinarySingleNaN.
From Flocq.Prop Require Import Relative Plus_error.
From Verif Require Import Base P_struct Spec_objective M_float Spec_float P_float P_float2 M_fresid Spec_fresid.
Import ListNotations.
Open Scope R_scope.

(** ** Sign *)
Definition nn (x : f64) : Prop := is_nan x = false /\ Bsign x = false.

Lemma nn_spec x : nn x -> at_least_zero x.
Proof.
  intros [A B]. destruct x as [s|s| |s m e b]; cbn in A, B; try discriminate; subst s.
  - left. split; [reflexivity|]. cbn. lra.
  - right. reflexivity.
  - left. split; [reflexivity|]. unfold val. cbn. apply F2R_ge_0. cbn. lia.
Qed.
Lemma nn_val x : nn x -> 0 <= val x.
Proof. intros N. destruct (nn_spec x N) as [[_ H]| ->]; [auto|]. cbn. lra. Qed.

Lemma inf_SF (x : f64) s : B2SF x = SpecFloat.S754_infinity s -> x = B754_infinity s.
Proof. destruct x; cbn; intros E; inversion E; reflexivity. Qed.
Lemma not_nan_fin (x : f64) : is_finite x = true -> is_nan x = false.
Proof. destruct x; auto; discriminate. Qed.

Lemma nn_mul x : is_nan x = false -> nn (fmul x x).
Proof.
  intros N. destruct x as [s|s| |s m e b] eqn:E; try discriminate.
  - cbn. split; cbn; auto. destruct s; reflexivity.
  - cbn. split; cbn; auto. destruct s; reflexivity.
  - rewrite <- E in *. assert (F : is_finite x = true) by (subst x; reflexivity). clear E.
    pose proof (Bmult_correct 53 1024 prec_ok emax_ok mode_NE x x) as H.
    destruct (Rlt_bool _ _).
    + destruct H as (_ & H & S0). rewrite F in H. cbn in H. apply not_nan_fin in H.
      split; [exact H|]. unfold fmul. rewrite (S0 H). destruct (Bsign x); reflexivity.
    + rewrite xorb_nilpotent in H. apply inf_SF in H. unfold fmul. rewrite H. split; reflexivity.
Qed.

Lemma nn_add x y : nn x -> nn y -> nn (fadd x y).
Proof.
  intros X Y. destruct (nn_spec x X) as [[Fx Vx]| ->].
  2: { destruct y as [s|s| |s m e b]; destruct Y as [Y1 Y2]; cbn in Y1, Y2; try discriminate; subst; split; reflexivity. }
  destruct (nn_spec y Y) as [[Fy Vy]| ->].
  2: { destruct x as [s|s| |s m e b]; destruct X as [X1 X2]; cbn in X1, X2; try discriminate; subst; split; reflexivity. }
  pose proof (Bplus_correct 53 1024 prec_ok emax_ok mode_NE x y Fx Fy) as H.
  destruct (Rlt_bool _ _).
  - destruct H as (_ & H & S0). split; [exact (not_nan_fin _ H)|]. unfold fadd. rewrite S0.
    destruct (Rcompare_spec (B2R x + B2R y) 0) as [K|K|K]; auto.
    + unfold val in *. lra.
    + destruct X as [_ ->]. reflexivity.
  - destruct H as [H _]. destruct X as [_ X]. rewrite X in H. apply inf_SF in H. unfold fadd. rewrite H. split; reflexivity.
Qed.

Lemma nn_fma x z : is_nan x = false -> nn z -> nn (ffma x x z).
Proof.
  intros N Z. destruct (is_finite x) eqn:F.
  - destruct (nn_spec z Z) as [[Fz Vz]| ->].
    + pose proof (Bfma_correct 53 1024 prec_ok emax_ok mode_NE x x z F F Fz) as H. cbv zeta in H.
      destruct (Rlt_bool (Rabs _) _).
      * destruct H as (_ & H & S0). split; [exact (not_nan_fin _ H)|]. unfold ffma. rewrite S0.
        destruct (Rcompare_spec (B2R x * B2R x + B2R z) 0) as [K|K|K]; auto.
        -- unfold val in *. nra.
        -- unfold Bfma_szero. rewrite xorb_nilpotent. destruct Z as [_ ->]. reflexivity.
      * assert (K : Rlt_bool (B2R x * B2R x + B2R z) 0 = false) by (apply Rlt_bool_false; unfold val in *; nra).
        rewrite K in H. apply inf_SF in H. unfold ffma. rewrite H. split; reflexivity.
    + destruct x; try discriminate; split; reflexivity.
  - destruct x as [s|s| |s m e b]; try discriminate.
    destruct z as [t|t| |t m e b]; destruct Z as [Z1 Z2]; cbn in Z1, Z2; try discriminate; subst;
      destruct s; split; reflexivity.
Qed.

Definition no_nan (res : list f64) : Prop := Forall (fun r => is_nan r = false) res.
Lemma nth_no_nan res i : no_nan res -> is_nan (nth i res fzero) = false.
Proof.
  intros H. destruct (nth_in_or_default i res fzero) as [I0| ->]; [|reflexivity].
  unfold no_nan in H. rewrite Forall_forall in H. auto.
Qed.
Lemma run_nn res p : no_nan res -> nn (run res p).
Proof.
  intros H. induction p; cbn [run].
  - split; reflexivity.
  - apply nn_mul, nth_no_nan; auto.
  - apply nn_fma; auto using nth_no_nan.
  - apply nn_add; auto.
Qed.

(** ** nan *)
Lemma run_nan res p i : In i (used p) -> is_nan (nth i res fzero) = true -> is_nan (run res p) = true.
Proof.
  intros U N. induction p as [|j|j p IH|p IHp q IHq]; cbn [run used] in *.
  - contradiction.
  - destruct U as [->|[]]. destruct (nth i res fzero); try discriminate. reflexivity.
  - destruct U as [->|U].
    + destruct (nth i res fzero); try discriminate. reflexivity.
    + specialize (IH U). destruct (run res p); try discriminate.
      destruct (nth j res fzero); reflexivity.
  - apply in_app_or in U. destruct U as [U|U].
    + specialize (IHp U). destruct (run res p); try discriminate. reflexivity.
    + specialize (IHq U). destruct (run res q); try discriminate. destruct (run res p); reflexivity.
Qed.

(** ** Values of finite results *)
Lemma rnd_flt x : Rabs x <= bpow radix2 1000 ->
  Rlt_bool (Rabs (round radix2 (SpecFloat.fexp 53 1024) (round_mode mode_NE) x)) (bpow radix2 1024) = true.
Proof. exact (rnd_big x). Qed.

Lemma mul_fin x : is_nan x = false -> finite (fmul x x) -> finite x /\ val (fmul x x) = rnd (val x * val x) /\
  Rabs (rnd (val x * val x)) < bpow radix2 1024.
Proof.
  intros N F. assert (X : finite x).
  { destruct x; try reflexivity; try discriminate. }
  split; [auto|]. pose proof (Bmult_correct 53 1024 prec_ok emax_ok mode_NE x x) as H.
  match type of H with context [Rlt_bool (Rabs ?a) ?b] => destruct (Rlt_bool_spec (Rabs a) b) as [H0|H0] end.
  - destruct H as (H & _). split; [exact H|exact H0].
  - rewrite xorb_nilpotent in H. apply inf_SF in H. unfold finite, fmul in F. rewrite H in F. discriminate.
Qed.
Lemma mul_ok x : finite x -> Rabs (rnd (val x * val x)) < bpow radix2 1024 ->
  finite (fmul x x) /\ val (fmul x x) = rnd (val x * val x).
Proof.
  intros X B. pose proof (Bmult_correct 53 1024 prec_ok emax_ok mode_NE x x) as H.
  change (Rabs (round radix2 (SpecFloat.fexp 53 1024) (round_mode mode_NE) (val x * val x)) < bpow radix2 1024) in B.
  apply Rlt_bool_true in B. unfold val in B. rewrite B in H. destruct H as (H & F & _). split; [|exact H].
  unfold finite in *. unfold fmul. rewrite F, X. reflexivity.
Qed.

Lemma add_fin x y : nn x -> nn y -> finite (fadd x y) -> finite x /\ finite y /\
  val (fadd x y) = rnd (val x + val y) /\ Rabs (rnd (val x + val y)) < bpow radix2 1024.
Proof.
  intros X Y F. assert (Fx : finite x).
  { destruct (nn_spec x X) as [[H _]| ->]; [auto|]. destruct Y as [Y1 Y2]. destruct y as [s|s| |s m e b]; cbn in Y1, Y2; try discriminate; subst; discriminate. }
  assert (Fy : finite y).
  { destruct (nn_spec y Y) as [[H _]| ->]; [auto|]. destruct X as [Y1 Y2]. destruct x as [s|s| |s m e b]; cbn in Y1, Y2; try discriminate; subst; discriminate. }
  split; [auto|]. split; [auto|].
  pose proof (Bplus_correct 53 1024 prec_ok emax_ok mode_NE x y Fx Fy) as H.
  match type of H with context [Rlt_bool (Rabs ?a) ?b] => destruct (Rlt_bool_spec (Rabs a) b) as [H0|H0] end.
  - destruct H as (H & _). split; [exact H|exact H0].
  - destruct H as [H _]. apply inf_SF in H. unfold finite, fadd in F. rewrite H in F. discriminate.
Qed.
Lemma add_ok x y : finite x -> finite y -> Rabs (rnd (val x + val y)) < bpow radix2 1024 ->
  finite (fadd x y) /\ val (fadd x y) = rnd (val x + val y).
Proof.
  intros X Y B. pose proof (Bplus_correct 53 1024 prec_ok emax_ok mode_NE x y X Y) as H.
  change (Rabs (round radix2 (SpecFloat.fexp 53 1024) (round_mode mode_NE) (val x + val y)) < bpow radix2 1024) in B.
  apply Rlt_bool_true in B. unfold val in B. rewrite B in H. destruct H as (H & F & _). split; [exact F|exact H].
Qed.

Lemma fma_fin x z : is_nan x = false -> nn z -> finite (ffma x x z) -> finite x /\ finite z /\
  val (ffma x x z) = rnd (val x * val x + val z) /\ Rabs (rnd (val x * val x + val z)) < bpow radix2 1024.
Proof.
  intros N Z F. assert (Fx : finite x).
  { destruct x as [s|s| |s m e b]; try reflexivity; try discriminate.
    destruct z as [t|t| |t m e b]; destruct Z as [Y1 Y2]; cbn in Y1, Y2; try discriminate; subst; destruct s; discriminate. }
  assert (Fz : finite z).
  { destruct (nn_spec z Z) as [[H _]| ->]; [auto|]. destruct x; discriminate. }
  split; [auto|]. split; [auto|].
  pose proof (Bfma_correct 53 1024 prec_ok emax_ok mode_NE x x z Fx Fx Fz) as H. cbv zeta in H.
  match type of H with context [Rlt_bool (Rabs ?a) ?b] => destruct (Rlt_bool_spec (Rabs a) b) as [H0|H0] end.
  - destruct H as (H & _). split; [exact H|exact H0].
  - assert (K : B2SF (ffma x x z) = SpecFloat.S754_infinity (Rlt_bool (B2R x * B2R x + B2R z) 0)) by exact H.
    apply inf_SF in K. unfold finite in F. rewrite K in F. discriminate.
Qed.
Lemma fma_ok x z : finite x -> finite z -> Rabs (rnd (val x * val x + val z)) < bpow radix2 1024 ->
  finite (ffma x x z) /\ val (ffma x x z) = rnd (val x * val x + val z).
Proof.
  intros X Z B. pose proof (Bfma_correct 53 1024 prec_ok emax_ok mode_NE x x z X X Z) as H. cbv zeta in H.
  change (Rabs (round radix2 (SpecFloat.fexp 53 1024) (round_mode mode_NE) (val x * val x + val z)) < bpow radix2 1024) in B.
  apply Rlt_bool_true in B. unfold val in B. rewrite B in H. destruct H as (H & F & _). split; [exact F|exact H].
Qed.
