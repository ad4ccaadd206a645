(** * Lemmas: the admittance method *)

Require Import Reals Lra Lia Psatz List.
From Coquelicot Require Import Coquelicot.
Require Import List.
From Verif Require Import Cplx M_tmm Spec_optics Spec_admit P_tmm2 P_tmm3.
Import ListNotations.
Open Scope R_scope.
Open Scope C_scope.

Lemma cexp_euler (z : C) : cexp (Ci * z) = ccos z + Ci * csin z.
Proof.
  destruct z as [x y]. unfold cexp, ccos, csin, cosh, sinh.
  apply C_eq; cbn [Re Im fst snd Ci Cmult Cplus];
  replace (0 * x - 1 * y)%R with (- y)%R by ring;
  replace (0 * y + 1 * x)%R with x by ring; field.
Qed.
Lemma cexp_euler_opp (z : C) : cexp (- (Ci * z)) = ccos z - Ci * csin z.
Proof.
  destruct z as [x y]. unfold cexp, ccos, csin, cosh, sinh.
  apply C_eq; cbn [Re Im fst snd Ci Cmult Cplus Copp Cminus];
  replace (- (0 * x - 1 * y))%R with y by ring;
  replace (- (0 * y + 1 * x))%R with (- x)%R by ring; rewrite ?cos_neg, ?sin_neg; field.
Qed.

Lemma Ci2 : Ci * Ci = - (1).
Proof. apply C_eq; simpl; ring. Qed.

Definition regular_medium (m : medium) : Prop := idx m <> 0 /\ cosine m <> 0.

Lemma near_far p m f b : regular_medium m ->
  (tangential_1 p m f b, tangential_2 p m f b) =
  through p m (tangential_1 p m (f * cexp (Ci * phase m)) (b * cexp (- (Ci * phase m))),
               tangential_2 p m (f * cexp (Ci * phase m)) (b * cexp (- (Ci * phase m)))).
Proof.
  intros [N1 N2]. rewrite cexp_euler, cexp_euler_opp. unfold through.
  pose proof (csin2_ccos2 (phase m)) as K. pose proof Ci2 as J.
  set (S := csin (phase m)) in *. set (D := ccos (phase m)) in *. clearbody S D.
  revert J. generalize Ci. intros i J.
  assert (X1 : D * D - i * i * (S * S) = 1) by (rewrite J; refine (eq_trans _ K); ring).
  destruct p; unfold tangential_1, tangential_2, admittance; f_equal.
  - transitivity ((f + b) * (D * D - i * i * (S * S))); [rewrite X1; ring|]. field. auto.
  - transitivity (idx m * cosine m * (f - b) * (D * D - i * i * (S * S))); [rewrite X1; ring|]. ring.
  - transitivity (idx m * (f + b) * (D * D - i * i * (S * S))); [rewrite X1; ring|]. field. auto.
  - transitivity (cosine m * (f - b) * (D * D - i * i * (S * S))); [rewrite X1; ring|]. field. auto.
Qed.

Definition times (k : C) (BC : C * C) : C * C := (k * fst BC, k * snd BC).

Lemma through_times p m k BC : through p m (times k BC) = times k (through p m BC).
Proof. destruct BC as [B D]. unfold through, times. cbn [fst snd]. f_equal; unfold Cdiv; ring. Qed.

Lemma waves_loaded p ms : forall m f b back t, idx back <> 0 -> Forall regular_medium ms ->
  waves p m f b (ms ++ [back]) t ->
  (tangential_1 p m f b, tangential_2 p m f b) = times (t * unit_field p back) (loaded p ms back).
Proof.
  induction ms as [|m' ms IH]; intros m f b back t NB RM W.
  - destruct W as [W1 W2]. rewrite W1, W2. unfold times, loaded. cbn [fold_right fst snd].
    destruct p; unfold tangential_1, tangential_2, admittance, unit_field; f_equal; try ring. field. auto.
  - inversion RM as [|? ? R1 R2]; subst.
    assert (W' : exists f' b', continuity p m f b m' f' b' /\
      waves p m' (f' * cexp (Ci * phase m')) (b' * cexp (- (Ci * phase m'))) (ms ++ [back]) t).
    { destruct ms; exact W. }
    destruct W' as (f' & b' & [W1 W2] & W3).
    rewrite W1, W2, (near_far p m' f' b' R1), (IH _ _ _ _ _ NB R2 W3). apply through_times.
Qed.

Lemma admittance_neq p m : regular_medium m -> admittance p m <> 0.
Proof.
  intros [N1 N2]. destruct p; unfold admittance; [apply Cmult_neq_0; auto|].
  intros E. apply N2. replace (cosine m) with (cosine m / idx m * idx m) by (field; auto). rewrite E. ring.
Qed.
Lemma unit_field_neq p m : idx m <> 0 -> unit_field p m <> 0.
Proof. intros N. destruct p; unfold unit_field; auto. intros E. apply RtoC_inj in E. lra. Qed.

(** the layers have determinant one: a nonzero load stays nonzero *)
Lemma through_0 p m BC : regular_medium m -> through p m BC = (RtoC 0, RtoC 0) -> BC = (RtoC 0, RtoC 0).
Proof.
  intros RM. pose proof (admittance_neq p m RM) as NA. destruct BC as [B D]. unfold through. intros E.
  pose proof (f_equal fst E) as E1. pose proof (f_equal snd E) as E2. cbn [fst snd] in E1, E2. clear E.
  pose proof (csin2_ccos2 (phase m)) as K. pose proof Ci2 as J.
  set (S := csin (phase m)) in *. set (c := ccos (phase m)) in *. set (y := admittance p m) in *.
  clearbody S c y. revert E1 E2 J. generalize Ci. intros i E1 E2 J.
  assert (X1 : c * c - i * i * (S * S) = 1) by (rewrite J; refine (eq_trans _ K); ring).
  f_equal.
  - replace B with (B * 1) by ring. rewrite <- X1.
    transitivity (c * (c * B - i * S / y * D) + i * S / y * (c * D - i * y * S * B)); [field; auto|].
    rewrite E1, E2. ring.
  - replace D with (D * 1) by ring. rewrite <- X1.
    transitivity (c * (c * D - i * y * S * B) + i * S * y * (c * B - i * S / y * D)); [field; auto|].
    rewrite E1, E2. ring.
Qed.
Lemma loaded_not_0 p ms back : Forall regular_medium ms -> loaded p ms back <> (RtoC 0, RtoC 0).
Proof.
  induction 1 as [|m ms H F IH]; unfold loaded; cbn [fold_right].
  - intros E. apply (f_equal fst) in E. cbn [fst] in E. apply RtoC_inj in E. lra.
  - intros E. apply IH. exact (through_0 p m _ H E).
Qed.

Theorem waves_admittance p front ms back r t :
  regular_medium front -> idx back <> 0 -> Forall regular_medium ms ->
  reflection_problem p front (ms ++ [back]) r t ->
  let B := fst (loaded p ms back) in
  let D := snd (loaded p ms back) in
  let y0 := admittance p front in
  y0 * B + D <> 0 /\
  r = (y0 * B - D) / (y0 * B + D) /\
  t = 2 * y0 * unit_field p front / (unit_field p back * (y0 * B + D)).
Proof.
  intros RF NB RM W B D y0.
  pose proof (waves_loaded p ms front 1 r back t NB RM W) as E.
  pose proof (loaded_not_0 p ms back RM) as N0.
  destruct (loaded p ms back) as [B' D'] eqn:L. cbn [fst snd] in B, D. subst B D. rename B' into B, D' into D.
  unfold times in E. cbn [fst snd] in E.
  pose proof (admittance_neq p front RF) as NY. fold y0 in NY.
  pose proof (unit_field_neq p front (proj1 RF)) as NU. pose proof (unit_field_neq p back NB) as NV.
  assert (E1 : unit_field p front * (1 + r) = t * unit_field p back * B /\
               unit_field p front * y0 * (1 - r) = t * unit_field p back * D).
  { pose proof (f_equal fst E) as E1. pose proof (f_equal snd E) as E2. cbn [fst snd] in E1, E2.
    rewrite <- E1, <- E2. unfold y0. destruct RF as [N1 N2].
    destruct p; unfold tangential_1, tangential_2, admittance, unit_field; split; try ring. field. auto. }
  clear E W. destruct E1 as [E1 E2].
  set (u := unit_field p front) in *. set (v := unit_field p back) in *. clearbody u v y0.
  assert (S1 : t * v * (y0 * B + D) = 2 * y0 * u).
  { transitivity (y0 * (t * v * B) + t * v * D); [ring|]. rewrite <- E1, <- E2. ring. }
  assert (NS : y0 * B + D <> 0).
  { intros Z. rewrite Z in S1. assert (X : y0 * u = 0).
    { transitivity (2 * y0 * u / 2); [field|rewrite <- S1; field]. }
    exact (Cmult_neq_0 _ _ NY NU X). }
  split; auto.
  assert (S2 : t * v * (y0 * B - D) = 2 * y0 * u * r).
  { transitivity (y0 * (t * v * B) - t * v * D); [ring|]. rewrite <- E1, <- E2. ring. }
  assert (T : t = 2 * y0 * u / (v * (y0 * B + D))).
  { rewrite <- S1. field. auto. }
  split; auto.
  transitivity (2 * y0 * u * r / (2 * y0 * u)).
  { field. repeat split; auto. }
  rewrite <- S2, T. field. repeat split; auto.
Qed.

(** ** Half-wave and quarter-wave layers *)
Lemma half_through p m BC : half_wave m -> through p m BC = times (ccos (phase m)) BC.
Proof.
  intros H. unfold through, times. destruct BC as [B D]. rewrite H. cbn [fst snd].
  f_equal; unfold Cdiv; ring.
Qed.
Lemma loaded_times p ms k BC : fold_right (through p) (times k BC) ms = times k (fold_right (through p) BC ms).
Proof. induction ms as [|m ms IH]; cbn [fold_right]; auto. rewrite IH. apply through_times. Qed.

Lemma half_ccos m : half_wave m -> ccos (phase m) * ccos (phase m) = 1.
Proof. intros H. pose proof (csin2_ccos2 (phase m)) as K. rewrite H in K. rewrite <- K. ring. Qed.
Lemma quarter_csin m : quarter_wave m -> csin (phase m) * csin (phase m) = 1.
Proof. intros H. pose proof (csin2_ccos2 (phase m)) as K. rewrite H in K. rewrite <- K. ring. Qed.

Lemma loaded_half p ms1 m ms2 back : half_wave m ->
  loaded p (ms1 ++ m :: ms2) back = times (ccos (phase m)) (loaded p (ms1 ++ ms2) back).
Proof.
  intros H. unfold loaded. rewrite !fold_right_app. cbn [fold_right].
  rewrite half_through by auto. apply loaded_times.
Qed.

Lemma times_ratio (k y0 B D : C) : k <> 0 -> y0 * B + D <> 0 ->
  (y0 * (k * B) - k * D) / (y0 * (k * B) + k * D) = (y0 * B - D) / (y0 * B + D).
Proof.
  intros N1 N2. replace (y0 * (k * B) + k * D) with (k * (y0 * B + D)) by ring.
  replace (y0 * (k * B) - k * D) with (k * (y0 * B - D)) by ring. field. auto.
Qed.

Theorem waves_absentee p front ms1 m ms2 back r t r' t' :
  regular_medium front -> idx back <> 0 -> Forall regular_medium (ms1 ++ m :: ms2) -> half_wave m ->
  reflection_problem p front ((ms1 ++ m :: ms2) ++ [back]) r t ->
  reflection_problem p front ((ms1 ++ ms2) ++ [back]) r' t' ->
  r = r' /\ (t = t' \/ t = - t').
Proof.
  intros RF NB RM H W W'.
  assert (RM' : Forall regular_medium (ms1 ++ ms2)).
  { apply Forall_app in RM as [A1 A2]. inversion A2; subst. apply Forall_app; auto. }
  destruct (waves_admittance p front _ back r t RF NB RM W) as (N & Er & Et).
  destruct (waves_admittance p front _ back r' t' RF NB RM' W') as (N' & Er' & Et').
  rewrite (loaded_half p ms1 m ms2 back H) in *. unfold times in *. cbn [fst snd] in *.
  pose proof (half_ccos m H) as K.
  assert (NK : ccos (phase m) <> 0).
  { intros Z. rewrite Z in K. assert (X : RtoC 0 = RtoC 1) by (rewrite <- K; ring). apply RtoC_inj in X. lra. }
  set (k := ccos (phase m)) in *. clearbody k.
  set (B := fst (loaded p (ms1 ++ ms2) back)) in *. set (D := snd (loaded p (ms1 ++ ms2) back)) in *.
  clearbody B D.
  split.
  - rewrite Er, Er'. apply times_ratio; auto.
  - assert (Et2 : t = k * t').
    { rewrite Et, Et'. pose proof (unit_field_neq p back NB) as NV.
      replace (admittance p front * (k * B) + k * D) with (k * (admittance p front * B + D)) by ring.
      transitivity (k * k * (2 * admittance p front * unit_field p front) /
                    (k * (unit_field p back * (admittance p front * B + D)))).
      - rewrite K. field. auto.
      - field. auto. }
    assert (F : (k - 1) * (k + 1) = 0) by (transitivity (k * k - 1); [ring|rewrite K; ring]).
    destruct (Ceq_dec (k - 1) 0) as [Z|Z].
    + left. rewrite Et2. replace k with (1 + (k - 1)) by ring. rewrite Z. ring.
    + right. destruct (Ceq_dec (k + 1) 0) as [Z'|Z']; [|exfalso; exact (Cmult_neq_0 _ _ Z Z' F)].
      rewrite Et2. replace k with ((k + 1) - 1) by ring. rewrite Z'. ring.
Qed.

(** ** Periods of two quarter-wave layers *)
Lemma pair_through p H L BC : regular_medium H -> regular_medium L -> quarter_wave H -> quarter_wave L ->
  exists k : C, k <> 0 /\
  through p H (through p L BC) =
  times k (fst BC, admittance p H * admittance p H / (admittance p L * admittance p L) * snd BC).
Proof.
  intros RH RL QH QL. destruct BC as [B D].
  pose proof (admittance_neq p H RH) as NH. pose proof (admittance_neq p L RL) as NL.
  pose proof (quarter_csin H QH) as KH. pose proof (quarter_csin L QL) as KL.
  unfold through. unfold quarter_wave in QH, QL. rewrite QH, QL. pose proof Ci2 as J.
  set (SH := csin (phase H)) in *. set (SL := csin (phase L)) in *.
  set (yH := admittance p H) in *. set (yL := admittance p L) in *. clearbody SH SL yH yL.
  exists (- (SH * SL * yL / yH)).
  split.
  - intros Z. assert (X : (SH * SL * yL / yH) * (SH * SL * yL / yH) = 0).
    { transitivity ((- (SH * SL * yL / yH)) * (- (SH * SL * yL / yH))); [ring|]. rewrite Z. ring. }
    assert (Y : yL / yH * (yL / yH) = 0).
    { rewrite <- X. transitivity ((SH * SH) * (SL * SL) * (yL / yH * (yL / yH))); [rewrite KH, KL; ring|field; auto]. }
    assert (NQ : yL / yH <> 0).
    { intros Q. apply NL. replace yL with (yL / yH * yH) by (field; auto). rewrite Q. ring. }
    exact (Cmult_neq_0 _ _ NQ NQ Y).
  - revert J. generalize Ci. intros i J. unfold times. cbn [fst snd]. f_equal.
    + transitivity ((i * i) * (SH * SL * yL / yH) * B); [field; auto|rewrite J; ring].
    + transitivity ((i * i) * (SH * SL * yH / yL) * D); [field; auto|rewrite J; field; auto].
Qed.

Fixpoint cpow (z : C) (n : nat) : C := match n with O => 1 | S n => z * cpow z n end.

Lemma times_times j k BC : times j (times k BC) = times (j * k) BC.
Proof. unfold times. cbn [fst snd]. f_equal; ring. Qed.

Lemma loaded_periods p H L back N :
  regular_medium H -> regular_medium L -> quarter_wave H -> quarter_wave L ->
  exists k : C, k <> 0 /\
  loaded p (concat (repeat [H; L] N)) back =
  times k (RtoC 1, cpow (admittance p H * admittance p H / (admittance p L * admittance p L)) N * admittance p back).
Proof.
  intros RH RL QH QL. induction N as [|N (k & NK & E)].
  - exists (RtoC 1). split; [intros Z; apply RtoC_inj in Z; lra|]. unfold loaded, times. cbn [repeat concat fold_right cpow fst snd].
    f_equal; ring.
  - unfold loaded in *. cbn [repeat concat]. cbn [app fold_right]. rewrite E, !through_times.
    destruct (pair_through p H L (RtoC 1, cpow (admittance p H * admittance p H / (admittance p L * admittance p L)) N * admittance p back) RH RL QH QL)
      as (k' & NK' & E'). rewrite E'. cbn [fst snd].
    exists (k * k'). split; [apply Cmult_neq_0; auto|]. rewrite times_times. unfold times. cbn [fst snd cpow]. f_equal; ring.
Qed.

Theorem waves_mirror p front H L back N r t :
  regular_medium front -> idx back <> 0 ->
  regular_medium H -> regular_medium L -> quarter_wave H -> quarter_wave L ->
  reflection_problem p front (concat (repeat [H; L] N) ++ [back]) r t ->
  let Y := cpow (admittance p H * admittance p H / (admittance p L * admittance p L)) N * admittance p back in
  admittance p front + Y <> 0 /\ r = (admittance p front - Y) / (admittance p front + Y).
Proof.
  intros RF NB RH RL QH QL W Y.
  assert (RM : Forall regular_medium (concat (repeat [H; L] N))).
  { clear W. induction N as [|N IH]; cbn [repeat concat app]; auto. }
  destruct (waves_admittance p front _ back r t RF NB RM W) as (N0 & Er & _).
  destruct (loaded_periods p H L back N RH RL QH QL) as (k & NK & E).
  rewrite E in *. fold Y in N0, Er. unfold times in *. cbn [fst snd] in *. clearbody Y.
  assert (NS : admittance p front * 1 + Y <> 0).
  { intros Z. apply N0. transitivity (k * (admittance p front * 1 + Y)); [ring|rewrite Z; ring]. }
  split; [intros Z; apply NS; rewrite <- Z; ring|].
  rewrite Er, times_ratio by auto. replace (admittance p front * 1) with (admittance p front) by ring. reflexivity.
Qed.
