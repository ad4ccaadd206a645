(** * The square root of a square in double precision *)

Require Import Reals ZArith Bool Lra Lia Psatz.
From Flocq Require Import Core.
From Flocq.IEEE754 Require Import BinarySingleNaN.
From Flocq.Prop Require Import Relative.
From Verif Require Import M_float Spec_float P_float P_float2 M_float2 Spec_float2 P_float3 P_float4.
Open Scope R_scope.

Lemma mag_range x : bpow radix2 (-500) <= x <= bpow radix2 500 -> (-499 <= mag radix2 x <= 501)%Z.
Proof.
  intros [A B]. pose proof (bpow_gt_0 radix2 (-500)). split.
  - apply mag_ge_bpow. rewrite Rabs_pos_eq by lra. exact A.
  - apply mag_le_bpow; [lra|]. rewrite Rabs_pos_eq by lra. apply Rle_lt_trans with (1 := B). apply bpow_lt. lia.
Qed.

Lemma two_u : 2 * u = bpow radix2 (-52).
Proof. rewrite <- u_bpow. change (- 53 + 1)%Z with (-52)%Z. lra. Qed.

Lemma ulp_of x k : x <> 0 -> mag radix2 x = k :> Z -> (-1000 <= k)%Z ->
  ulp radix2 (FLT_exp (-1074) 53) x = u * bpow radix2 k.
Proof.
  intros N M K. rewrite ulp_neq_0 by exact N. unfold cexp, FLT_exp. rewrite M, Z.max_l by lia.
  replace (k - 53)%Z with (-52 + (k - 1))%Z by lia. rewrite bpow_plus, <- two_u.
  replace k with (1 + (k - 1))%Z at 2 by lia. rewrite bpow_plus. change (bpow radix2 1) with 2. ring.
Qed.

Theorem sqrt_square x : fmt x -> bpow radix2 (-500) <= x <= bpow radix2 500 -> rnd (sqrt (rnd (x * x))) = x.
Proof.
  intros F Rg. pose proof (mag_range x Rg) as M. pose proof (bpow_gt_0 radix2 (-500)).
  assert (P : 0 < x) by lra. remember (mag_val radix2 x (mag radix2 x)) as e eqn:Ee. symmetry in Ee.
  assert (Be : bpow radix2 (e - 1) <= x < bpow radix2 e).
  { pose proof (bpow_mag_le radix2 x ltac:(lra)) as L. pose proof (bpow_mag_gt radix2 x) as G.
    rewrite Ee in L, G. rewrite Rabs_pos_eq in L, G by lra. split; assumption. }
  set (B := bpow radix2 (e - 1)) in *. assert (B0 : 0 < B) by apply bpow_gt_0.
  assert (E2 : bpow radix2 e = 2 * B).
  { unfold B. replace e with (1 + (e - 1))%Z at 1 by lia. rewrite bpow_plus. reflexivity. }
  assert (BB : bpow radix2 (2 * e - 2) = B * B) by (unfold B; rewrite <- bpow_plus; f_equal; lia).
  assert (BB2 : bpow radix2 (2 * e - 1) = 2 * (B * B)).
  { rewrite <- BB. replace (2 * e - 1)%Z with (1 + (2 * e - 2))%Z by lia. rewrite bpow_plus. reflexivity. }
  assert (BB4 : bpow radix2 (2 * e) = 4 * (B * B)).
  { rewrite <- BB. replace (2 * e)%Z with (2 + (2 * e - 2))%Z at 1 by lia. rewrite bpow_plus. reflexivity. }
  destruct (Rle_lt_or_eq_dec B x (proj1 Be)) as [G|<-].
  2:{ rewrite <- BB. rewrite (rnd_id (bpow radix2 (2 * e - 2))).
      - rewrite BB. rewrite sqrt_square by lra. now apply rnd_id.
      - apply generic_format_bpow. unfold FLT_exp. lia. }
  pose proof u_pos as U. assert (Ux : ulp radix2 (FLT_exp (-1074) 53) x = 2 * (u * B)).
  { rewrite (ulp_of x e) by (try lia; lra). rewrite E2. ring. }
  assert (Bx : B * B < x * x) by nra. assert (Bx4 : x * x < 4 * (B * B)) by nra.
  assert (x2 : x * x <> 0) by nra.
  pose proof (error_le_half_ulp radix2 (FLT_exp (-1074) 53) (fun x => negb (Z.even x)) (x * x)) as Er.
  set (y := rnd (x * x)) in *.
  assert (Yd : B * B <= y).
  { rewrite <- BB. rewrite <- (rnd_id (bpow radix2 (2 * e - 2))).
    - apply rnd_le. rewrite BB. lra.
    - apply generic_format_bpow. unfold FLT_exp. lia. }
  assert (Y0 : 0 <= y) by nra. pose proof (sqrt_pos y) as S0. pose proof (sqrt_sqrt y Y0) as SS.
  set (s := sqrt y) in *.
  assert (Cl : Rabs (s - x) < u * B).
  { assert (Ab : Rabs (s - x) * (s + x) = Rabs (y - x * x)).
    { rewrite <- (Rabs_pos_eq (s + x)) at 1 by lra. rewrite <- Rabs_mult. f_equal. rewrite <- SS. ring. }
    pose proof (Rabs_pos (s - x)) as A0.
    destruct (Rlt_le_dec (x * x) (2 * (B * B))) as [L|L].
    - assert (Mg : mag radix2 (x * x) = (2 * e - 1)%Z :> Z).
      { apply mag_unique. rewrite Rabs_pos_eq by nra. rewrite BB2. replace (2 * e - 1 - 1)%Z with (2 * e - 2)%Z by lia. rewrite BB. lra. }
      rewrite (ulp_of _ _ x2 Mg) in Er by lia. rewrite BB2 in Er. rewrite <- Ab in Er.
      assert (Sb : B <= s). { apply Rnot_lt_le. intros Q. assert (s * s < B * B) by nra. lra. }
      assert (Rabs (s - x) * (2 * B) <= u * (B * B)).
      { apply Rle_trans with (Rabs (s - x) * (s + x)); [apply Rmult_le_compat_l; lra|]. lra. }
      assert (Rabs (s - x) * 2 <= u * B).
      { apply Rmult_le_reg_r with B; [exact B0|]. lra. }
      assert (0 < u * B) by (apply Rmult_lt_0_compat; lra). lra.
    - assert (Mg : mag radix2 (x * x) = (2 * e)%Z :> Z).
      { apply mag_unique. rewrite Rabs_pos_eq by nra. rewrite BB4, BB2. lra. }
      rewrite (ulp_of _ _ x2 Mg) in Er by lia. rewrite BB4 in Er. rewrite <- Ab in Er.
      assert (Yd2 : 2 * (B * B) <= y).
      { rewrite <- BB2. rewrite <- (rnd_id (bpow radix2 (2 * e - 1))).
        - apply rnd_le. rewrite BB2. lra.
        - apply generic_format_bpow. unfold FLT_exp. lia. }
      assert (Sb : 14 / 10 * B <= s). { apply Rnot_lt_le. intros Q. assert (s * s < 14 / 10 * B * (14 / 10 * B)) by nra. nra. }
      assert (Xb : 14 / 10 * B <= x). { apply Rnot_lt_le. intros Q. assert (x * x < 14 / 10 * B * (14 / 10 * B)) by nra. nra. }
      assert (Rabs (s - x) * (28 / 10 * B) <= 2 * (u * (B * B))).
      { apply Rle_trans with (Rabs (s - x) * (s + x)); [apply Rmult_le_compat_l; lra|]. lra. }
      assert (Rabs (s - x) * (28 / 10) <= 2 * (u * B)).
      { apply Rmult_le_reg_r with B; [exact B0|]. lra. }
      assert (0 < u * B) by (apply Rmult_lt_0_compat; lra). lra. }
  apply Rabs_lt_inv in Cl. apply Rle_antisym.
  - apply round_N_le_midp; auto; try typeclasses eauto. rewrite succ_eq_pos by lra. rewrite Ux. lra.
  - apply round_N_ge_midp; auto; try typeclasses eauto. rewrite pred_eq_pos by lra. unfold pred_pos.
    rewrite Ee. fold B. rewrite Req_bool_false by lra. rewrite Ux. lra.
Qed.
