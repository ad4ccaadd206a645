(** * The dispersion formulas in double precision: connection with the real formulas, cases *)

Require Import Reals ZArith Bool Lra Lia Psatz.
From Coquelicot Require Import Complex.
From Flocq Require Import Core.
From Flocq.IEEE754 Require Import BinarySingleNaN.
From Verif Require Import Base M_disp M_float Spec_float P_float P_float2 M_float2 Spec_float2 P_float3 P_float4.
Open Scope R_scope.

Lemma cauchy_real A B Cc w : w <> 0 -> cauchy_complex A B Cc w = Some (A + B * 1000 ^ 2 / w ^ 2 + Cc * 1000 ^ 4 / w ^ 4, 0).
Proof.
  intros N. unfold cauchy_complex, odiv.
  destruct (Req_EM_T (w ^ 2) 0) as [Z|_]; [destruct (pow_nonzero _ 2 N Z)|].
  destruct (Req_EM_T (w ^ 4) 0) as [Z|_]; [destruct (pow_nonzero _ 4 N Z)|]. reflexivity.
Qed.
Lemma sellmeier_real_value Am En P Einf w : (w / 1000) ^ 2 - En ^ 2 <> 0 ->
  sellmeier_real Am En P Einf w = Some (Einf + Am * (w / 1000) ^ 2 / ((w / 1000) ^ 2 - En ^ 2) - P * (w / 1000) ^ 2).
Proof.
  intros N. unfold sellmeier_real, odiv. destruct (Req_EM_T ((w / 1000) ^ 2 - En ^ 2) 0) as [Z|_]; [contradiction|reflexivity].
Qed.

Theorem cauchy_float_model sq p4 A B Cc w :
  powers 2 sq -> powers 4 p4 -> finite A -> finite B -> finite Cc -> finite w ->
  moderate (val A) -> moderate (val B) -> moderate (val Cc) -> moderate (val w) -> val w <> 0 ->
  finite (fl_cauchy sq p4 A B Cc w) /\
  exists x, cauchy_complex (val A) (val B) (val Cc) (val w) = Some (x, 0) /\
    Rabs (val (fl_cauchy sq p4 A B Cc w) - x) <=
    13 * u * (Rabs (val A) + Rabs (val B * 1000 ^ 2 / val w ^ 2) + Rabs (val Cc * 1000 ^ 4 / val w ^ 4)).
Proof.
  intros. destruct (cauchy_float sq p4 A B Cc w) as [F E]; auto. split; [exact F|].
  eexists. split; [apply cauchy_real; assumption|exact E].
Qed.

Theorem sellmeier_float_model sq Am En P Einf w K :
  powers 2 sq -> finite Am -> finite En -> finite P -> finite Einf -> finite w ->
  moderate (val Am) -> moderate (val En) -> moderate (val P) -> moderate (val Einf) ->
  bpow radix2 (-80) <= Rabs (val w) <= bpow radix2 80 ->
  (val w / 1000) ^ 2 + val En ^ 2 <= K * Rabs ((val w / 1000) ^ 2 - val En ^ 2) -> 60 * u * K <= 1 ->
  let W2 := (val w / 1000) ^ 2 in
  let size := Rabs (val Einf) + Rabs (val Am * W2 / (W2 - val En ^ 2)) + Rabs (val P * W2) in
  finite (fl_sellmeier_epsilon sq Am En P Einf w) /\
  exists x, sellmeier_epsilon (val Am) (val En) (val P) (val Einf) (val w) = Some (RtoC x) /\
    Rabs (val (fl_sellmeier_epsilon sq Am En P Einf w) - x) <= 60 * K * u * size /\
    (0 < x -> 60 * K * u * size <= x / 2 ->
     finite (fl_sellmeier sq Am En P Einf w) /\
     exists n, sellmeier_complex (val Am) (val En) (val P) (val Einf) (val w) = Some (RtoC n) /\ n ^ 2 = x /\
       Rabs (val (fl_sellmeier sq Am En P Einf w) - n) <= 66 * K * u * size / n).
Proof.
  intros Sq FA FE FP FI Fw MA ME MP MI Mw Aw SK W2 size.
  assert (N : val w <> 0).
  { intros Z. rewrite Z, Rabs_R0 in Mw. pose proof (bpow_gt_0 radix2 (-80)). lra. }
  assert (Sw : sized 80 (val w)) by (right; exact Mw).
  destruct (sellmeier_eps_float sq Am En P Einf w K Sq FA FE FP FI Fw MA ME MP MI Sw N Aw SK) as [F E].
  pose proof (D_nz En w K N Aw) as D. pose proof (K_ge1 En w K N Aw) as K1.
  split; [exact F|]. set (x := val Einf + val Am * W2 / (W2 - val En ^ 2) - val P * W2).
  exists x. split; [unfold sellmeier_epsilon; rewrite sellmeier_real_value by exact D; reflexivity|].
  split; [exact E|]. intros Px Sm.
  destruct (sqrt_float _ x (60 * K * u * size) F Px E Sm) as [G H]. split; [exact G|]. exists (sqrt x).
  split; [|split].
  - unfold sellmeier_complex. rewrite sellmeier_real_value by exact D. cbn [obind]. fold W2 x.
    unfold osqrt. destruct (Rle_dec 0 x) as [_|Z]; [reflexivity|destruct Z; lra].
  - apply pow2_sqrt. lra.
  - apply Rle_trans with (1 := H). apply Rmult_le_compat_r; [apply Rlt_le, Rinv_0_lt_compat, sqrt_lt_R0; auto|].
    assert (x <= size).
    { unfold x, size. pose proof (Rle_abs (val Einf)). pose proof (Rle_abs (val Am * W2 / (W2 - val En ^ 2))).
      pose proof (Rle_abs (- (val P * W2))) as A. rewrite Rabs_Ropp in A. lra. }
    pose proof u_pos as U. assert (S0 : 0 <= size) by lra. clearbody size x W2.
    assert (u * x <= u * size) by (apply Rmult_le_compat_l; lra).
    assert (u * size <= K * (u * size)).
    { rewrite <- (Rmult_1_l (u * size)) at 1. apply Rmult_le_compat_r; [apply Rmult_le_pos; lra|lra]. }
    lra.
Qed.

(** ** squares and fourth powers that meet the requirement *)
Definition rounded_power (k : positive) (x : f64) : f64 :=
  match x with
  | B754_finite s m e _ => binary_normalize 53 1024 prec_ok emax_ok mode_NE (cond_Zopp s (Zpos m) ^ Zpos k) (e * Zpos k) false
  | _ => x
  end.
Lemma rounded_power_ok k : (k <= 4)%positive -> powers (Pos.to_nat k) (rounded_power k).
Proof.
  intros K x F Mo. destruct x as [s|s| |s m e B]; try discriminate F.
  - split; [reflexivity|]. cbn [rounded_power]. change (val (B754_zero s)) with 0. rewrite pow_i by lia.
    rewrite Rminus_0_r, Rabs_R0. lra.
  - set (x := B754_finite s m e B) in *. cbn [rounded_power].
    pose proof (binary_normalize_correct 53 1024 prec_ok emax_ok mode_NE (cond_Zopp s (Zpos m) ^ Zpos k) (e * Zpos k) false) as Q.
    assert (V : F2R (Float radix2 (cond_Zopp s (Zpos m) ^ Zpos k) (e * Zpos k)) = val x ^ Pos.to_nat k).
    { unfold val, x, B2R, F2R. cbn [Fnum Fexp]. rewrite Rpow_mult_distr, pow_IZR, positive_nat_Z. f_equal.
      generalize (Pos.to_nat k) (positive_nat_Z k). intros n <-. induction n as [|n IH].
      - rewrite Z.mul_0_r. reflexivity.
      - rewrite Nat2Z.inj_succ, Z.mul_succ_r, bpow_plus, IH. cbn [pow]. ring. }
    rewrite V in Q. cbv zeta in Q.
    assert (Sz : sized 1000 (val x ^ Pos.to_nat k)).
    { apply (sized_mono (100 * Z.of_nat (Pos.to_nat k))); [lia|]. apply sized_pow; [lia|exact Mo]. }
    pose proof (rnd_big _ (sized_abs 1000 _ ltac:(lia) Sz)) as Bg.
    change (rnd (val x ^ Pos.to_nat k)) with (round radix2 (SpecFloat.fexp 53 1024) (round_mode mode_NE) (val x ^ Pos.to_nat k)) in Bg.
    rewrite Bg in Q. destruct Q as (E & G & _). split; [exact G|].
    destruct Sz as [Z|[L _]].
    + exfalso. assert (val x <> 0).
      { unfold val, x, B2R. intros Z'. apply eq_0_F2R in Z'. destruct s; discriminate Z'. }
      now apply (pow_nonzero (val x) (Pos.to_nat k)).
    + destruct (rnd_rel (val x ^ Pos.to_nat k)) as (d & Bd & Ed); [apply Rle_trans with (2 := L); apply bpow_le; lia|].
      assert (E' : val (binary_normalize 53 1024 prec_ok emax_ok mode_NE (cond_Zopp s (Zpos m) ^ Zpos k) (e * Zpos k) false) =
                   rnd (val x ^ Pos.to_nat k)) by exact E.
      change (rounded_power k x) with (binary_normalize 53 1024 prec_ok emax_ok mode_NE (cond_Zopp s (Zpos m) ^ Zpos k) (e * Zpos k) false).
      rewrite E', Ed. replace (val x ^ Pos.to_nat k * (1 + d) - val x ^ Pos.to_nat k) with (d * val x ^ Pos.to_nat k) by ring.
      rewrite Rabs_mult. apply Rmult_le_compat_r; [apply Rabs_pos|]. pose proof u_pos. lra.
Qed.
(** np.square *)
Lemma square_ok : powers 2 (fun x => fmul x x).
Proof.
  intros x F Mo. destruct (fmul_rel x x F F) as [G (e & E & V)].
  { apply (sized_mono (100 + 100)); [lia|]. now apply sized_mult. }
  split; [exact G|]. rewrite V. replace (val x ^ 2) with (val x * val x) by ring.
  pose proof (weigh 1 (val x * val x) e ltac:(lia) E) as W.
  destruct (fmul_val x x F F) as [Vr _].
  { apply sized_abs; [lia|]. apply (sized_mono (100 + 100)); [lia|]. now apply sized_mult. }
  rewrite <- V, Vr. destruct Mo as [Z|[L _]].
  - rewrite Z, Rmult_0_l, round_0 by typeclasses eauto. rewrite Rminus_0_r, Rabs_R0. lra.
  - destruct (rnd_rel (val x * val x)) as (d & Bd & Ed).
    { rewrite Rabs_mult. apply Rle_trans with (bpow radix2 (-100) * bpow radix2 (-100)).
      - rewrite <- bpow_plus. apply bpow_le. lia.
      - pose proof (bpow_gt_0 radix2 (-100)). apply Rmult_le_compat; lra. }
    rewrite Ed. replace (val x * val x * (1 + d) - val x * val x) with (d * (val x * val x)) by ring.
    rewrite Rabs_mult. apply Rmult_le_compat_r; [apply Rabs_pos|]. pose proof u_pos. lra.
Qed.

(** at 200 nm with a resonance at 0.2 um: the double nearest to 0.2 is not 0.2 *)
Definition fifth : f64 := fdiv (fZ 1) (fZ 5).
Lemma fifth_not : finite fifth /\ val fifth <> 1 / 5 /\ 0 < val fifth.
Proof.
  assert (V : val fifth = IZR 3602879701896397 * / IZR (2 ^ 54)).
  { unfold val, fifth. match goal with |- B2R ?t = _ => let r := eval vm_compute in t in
      match r with B754_finite ?s ?m ?e _ => replace (B2R t) with (F2R (Float radix2 (cond_Zopp s (Zpos m)) e)) by (vm_compute; reflexivity) end end.
    unfold F2R. cbn. lra. }
  split; [vm_compute; reflexivity|]. rewrite V. cbn. split; [intros H; lra|lra].
Qed.
Lemma resonance : exists Am En P Einf w : f64, finite Am /\ finite En /\ finite P /\ finite Einf /\ finite w /\ val w = 200 /\
  (exists x, sellmeier_epsilon (val Am) (val En) (val P) (val Einf) (val w) = Some (RtoC x)) /\
  fl_sellmeier_epsilon (fun x => fmul x x) Am En P Einf w = B754_infinity false.
Proof.
  exists (fZ 1), fifth, (fZ 0), (fZ 1), (fZ 200).
  destruct (finite_Z 200 ltac:(lia)) as [F V]. destruct fifth_not as (F5 & N5 & P5).
  repeat (split; [first [exact F5|exact F|vm_compute; reflexivity]|]). split; [exact V|]. split.
  - eexists. unfold sellmeier_epsilon. rewrite sellmeier_real_value; [reflexivity|]. rewrite V.
    intros Z. apply N5. assert (Q : (val fifth - 1 / 5) * (val fifth + 1 / 5) = 0) by (replace (200 / 1000) with (1 / 5) in Z by lra; lra).
    apply Rmult_integral in Q. destruct Q; lra.
  - vm_compute. reflexivity.
Qed.

Lemma moderate_Z z : (1 <= Z.abs z <= 2 ^ 53)%Z -> moderate (val (fZ z)).
Proof.
  intros H. destruct (finite_Z z ltac:(lia)) as [_ ->]. right. rewrite <- abs_IZR. split.
  - apply Rle_trans with (bpow radix2 0); [apply bpow_le; lia|]. apply IZR_le. lia.
  - apply Rle_trans with (bpow radix2 53); [|apply bpow_le; lia]. change (bpow radix2 53) with (IZR (2 ^ 53)). apply IZR_le. lia.
Qed.
Lemma moderate_quarter : moderate (val quarter).
Proof.
  destruct quarter_val as [-> _]. right. rewrite Rabs_pos_eq by lra. split.
  - apply Rle_trans with (bpow radix2 (-2)); [apply bpow_le; lia|cbn; lra].
  - apply Rle_trans with (bpow radix2 0); [cbn; lra|apply bpow_le; lia].
Qed.
Lemma away_case : (val (fZ 633) / 1000) ^ 2 + val quarter ^ 2 <= 2 * Rabs ((val (fZ 633) / 1000) ^ 2 - val quarter ^ 2) /\ 60 * u * 2 <= 1.
Proof.
  destruct (finite_Z 633 ltac:(lia)) as [_ ->]. destruct quarter_val as [-> _]. split.
  - rewrite Rabs_pos_eq by lra. lra.
  - unfold u. rewrite pow2_53. cbn. lra.
Qed.
Lemma index_case : let W2 := (val (fZ 633) / 1000) ^ 2 in
  let x := val (fZ 1) + val (fZ 1) * W2 / (W2 - val quarter ^ 2) - val (fZ 0) * W2 in
  let size := Rabs (val (fZ 1)) + Rabs (val (fZ 1) * W2 / (W2 - val quarter ^ 2)) + Rabs (val (fZ 0) * W2) in
  moderate (val (fZ 0)) /\ 0 < x /\ 60 * 2 * u * size <= x / 2.
Proof.
  destruct (finite_Z 633 ltac:(lia)) as [_ ->]. destruct (finite_Z 1 ltac:(lia)) as [_ ->].
  destruct (finite_Z 0 ltac:(lia)) as [_ ->]. destruct quarter_val as [-> _]. cbv zeta. split; [left; reflexivity|].
  rewrite Rabs_R1, Rmult_0_l, Rabs_R0. set (t := 1 * (633 / 1000) ^ 2 / ((633 / 1000) ^ 2 - (1 / 4) ^ 2)).
  assert (T : 1 <= t <= 2) by (unfold t; split; lra). rewrite (Rabs_pos_eq t) by lra.
  assert (u <= / 10000) by (unfold u; rewrite pow2_53; cbn; lra). pose proof u_pos. split; [lra|]. nra.
Qed.
