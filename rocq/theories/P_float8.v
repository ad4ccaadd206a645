(** * Double precision mixing of absorbing media: the dielectric function *)

Require Import Reals ZArith Bool Lra Lia Psatz.
From Flocq Require Import Core.
From Flocq.IEEE754 Require Import BinarySingleNaN.
From Flocq.Prop Require Import Relative.
From Verif Require Import M_float Spec_float P_float P_float2 M_float2 Spec_float2 P_float3 P_float4 M_float3 P_float6 P_float7.
Open Scope R_scope.

Lemma u_tiny : u <= / 1000000.
Proof. unfold u. rewrite pow2_53. apply Rinv_le; [lra|]. apply IZR_le. lia. Qed.
Lemma u_pow : u = bpow radix2 (-53).
Proof. pose proof two_u. replace (bpow radix2 (-53)) with (/ 2 * bpow radix2 (-52)); [lra|]. change (-53)%Z with (-1 + -52)%Z. rewrite bpow_plus. reflexivity. Qed.

(** one rounding, measured against a scale that is not tiny *)
Lemma rnd_in M x : sized 400 M -> 0 <= M -> Rabs x <= 3 / 2 * M -> Rabs (rnd x - x) <= 2 * u * M.
Proof.
  intros S P H. destruct S as [->|[L _]].
  - assert (x = 0). { destruct (Req_dec x 0) as [|N]; auto. apply Rabs_pos_lt in N. lra. }
    subst. rewrite rnd_00, Rminus_0_r, Rabs_R0. lra.
  - rewrite Rabs_pos_eq in L by exact P.
    pose proof (error_le_half_ulp radix2 (FLT_exp (-1074) 53) (fun x => negb (Z.even x)) x) as E.
    destruct (Req_dec x 0) as [->|N]; [rewrite rnd_00, Rminus_0_r, Rabs_R0; pose proof u_pos; nra|].
    rewrite ulp_neq_0 in E by exact N. unfold cexp, FLT_exp in E.
    destruct (Z.max_spec (mag radix2 x - 53) (-1074)) as [[Lt Q]|[Lt Q]]; rewrite Q in E.
    + apply Rle_trans with (1 := E). assert (u * M >= bpow radix2 (-453)).
      { rewrite u_pow. change (-453)%Z with (-53 + -400)%Z. rewrite bpow_plus. apply Rle_ge. apply Rmult_le_compat_l; [apply bpow_ge_0|exact L]. }
      assert (bpow radix2 (-1074) <= bpow radix2 (-453)) by (apply bpow_le; lia). pose proof (bpow_gt_0 radix2 (-453)). lra.
    + apply Rle_trans with (1 := E). pose proof (bpow_mag_le radix2 x N) as B.
      replace (mag radix2 x - 53)%Z with (-52 + (mag radix2 x - 1))%Z by lia. rewrite bpow_plus, <- two_u.
      pose proof u_pos. assert (u * bpow radix2 (mag radix2 x - 1) <= u * (3 / 2 * M)) by (apply Rmult_le_compat_l; lra).
      assert (0 <= u * M) by (apply Rmult_le_pos; lra). lra.
Qed.

Lemma big_of M x : sized 400 M -> 0 <= M -> Rabs x <= 3 * M -> Rabs x <= bpow radix2 999.
Proof.
  intros S P H. apply Rle_trans with (1 := H). pose proof (sized_abs 400 M ltac:(lia) S) as B. rewrite Rabs_pos_eq in B by exact P.
  apply Rle_trans with (bpow radix2 2 * bpow radix2 400); [change (bpow radix2 2) with 4; lra|].
  rewrite <- bpow_plus. apply bpow_le. lia.
Qed.
Lemma thousand x : Rabs x <= bpow radix2 999 -> Rabs x <= bpow radix2 1000.
Proof. intros H. apply Rle_trans with (1 := H). apply bpow_le. lia. Qed.

(** ** scales *)
Lemma sized_plus k x y : (0 <= k)%Z -> 0 <= x -> 0 <= y -> sized k x -> sized k y -> sized (k + 1) (x + y).
Proof.
  intros K X Y Sx Sy. pose proof (bpow_gt_0 radix2 k) as P. pose proof (bpow_gt_0 radix2 (-k)) as P'.
  assert (L : bpow radix2 (- (k + 1)) <= bpow radix2 (- k)) by (apply bpow_le; lia).
  assert (U : bpow radix2 (k + 1) = 2 * bpow radix2 k) by (rewrite Z.add_comm, bpow_plus; reflexivity).
  destruct Sx as [->|[A B]]; [rewrite Rplus_0_l; apply (sized_mono k); [lia|exact Sy]|].
  destruct Sy as [->|[A' B']]; [rewrite Rplus_0_r; apply (sized_mono k); [lia|right; auto]|].
  right. rewrite Rabs_pos_eq in * by lra. rewrite U. lra.
Qed.

(** the square of a complex number *)
Definition sqmod (x y : R) : R := x * x + y * y.
Lemma sqmod_pos x y : 0 <= sqmod x y.
Proof. unfold sqmod. nra. Qed.
Lemma sqmod_sized x y : moderate x -> moderate y -> sized 201 (sqmod x y).
Proof. intros X Y. apply (sized_plus 200); try lia; try nra; now apply mod_square. Qed.

Lemma prod_abs x y : Rabs (x * y) <= / 2 * sqmod x y.
Proof. unfold sqmod. pose proof (Rle_0_sqr x). pose proof (Rle_0_sqr y). pose proof (Rle_0_sqr (x + y)). pose proof (Rle_0_sqr (x - y)). unfold Rsqr in *. apply Rabs_le. split; lra. Qed.

Lemma square_parts (z : fc) : finite (fst z) -> finite (snd z) -> moderate (val (fst z)) -> moderate (val (snd z)) ->
  let M := sqmod (val (fst z)) (val (snd z)) in
  finite (fst (fc_mul z z)) /\ finite (snd (fc_mul z z)) /\
  Rabs (val (fst (fc_mul z z)) - (val (fst z) * val (fst z) - val (snd z) * val (snd z))) <= 4 * u * M /\
  Rabs (val (snd (fc_mul z z)) - 2 * (val (fst z) * val (snd z))) <= 4 * u * M.
Proof.
  destruct z as [fx fy]. cbn [fst snd]. intros F G Mx My. set (x := val fx) in *. set (y := val fy) in *. cbv zeta.
  pose proof (sqmod_sized x y Mx My) as S. pose proof (sqmod_pos x y) as P. pose proof u_pos as U. pose proof u_tiny as Ut.
  set (M := sqmod x y) in *.
  assert (S4 : sized 400 M) by (apply (sized_mono 201); [lia|exact S]).
  assert (X2 : sized 400 (x * x)) by (apply (sized_mono 200); [lia|now apply mod_square]).
  assert (Y2 : sized 400 (y * y)) by (apply (sized_mono 200); [lia|now apply mod_square]).
  assert (Px : 0 <= x * x) by nra. assert (Py : 0 <= y * y) by nra.
  assert (Ax : Rabs (x * x) = x * x) by (apply Rabs_pos_eq; auto). assert (Ay : Rabs (y * y) = y * y) by (apply Rabs_pos_eq; auto).
  assert (EM : M = x * x + y * y) by reflexivity.
  assert (uM : 0 <= u * M) by (apply Rmult_le_pos; lra). assert (uMs : u * M <= / 1000000 * M) by (apply Rmult_le_compat_r; lra).
  destruct (fmul_val fx fx F F) as [V1 F1]; [fold x; apply thousand, (big_of (x * x)); auto; lra|].
  destruct (fmul_val fy fy G G) as [V2 F2]; [fold y; apply thousand, (big_of (y * y)); auto; lra|].
  assert (Hxy : Rabs (x * y) <= / 2 * M) by apply prod_abs.
  assert (Hyx : Rabs (y * x) <= / 2 * M) by (rewrite Rmult_comm; exact Hxy).
  destruct (fmul_val fx fy F G) as [V3 F3]; [fold x y; apply thousand, (big_of M); auto; lra|].
  destruct (fmul_val fy fx G F) as [V4 F4]; [fold x y; apply thousand, (big_of M); auto; lra|].
  fold x y in V1, V2, V3, V4.
  pose proof (rnd_in (x * x) (x * x) X2 Px ltac:(lra)) as R1.
  pose proof (rnd_in (y * y) (y * y) Y2 Py ltac:(lra)) as R2.
  assert (SH : sized 400 (/ 2 * M)).
  { apply (sized_mono (1 + 201)); [lia|]. apply sized_mult; [|exact S]. right. rewrite Rabs_pos_eq by lra.
    change (bpow radix2 (-(1))) with (/ 2). change (bpow radix2 1) with 2. lra. }
  pose proof (rnd_in (/ 2 * M) (x * y) SH ltac:(lra) ltac:(lra)) as R3.
  pose proof (rnd_in (/ 2 * M) (y * x) SH ltac:(lra) ltac:(lra)) as R4.
  apply Rabs_le_inv in R1, R2, R3, R4. pose proof (Rabs_le_inv _ _ Hxy) as Hxy'. pose proof (Rabs_le_inv _ _ Hyx) as Hyx'.
  assert (u * (x * x) <= u * M) by (apply Rmult_le_compat_l; lra). assert (u * (y * y) <= u * M) by (apply Rmult_le_compat_l; lra).
  assert (u * M = u * (x * x) + u * (y * y)) by (rewrite EM; ring).
  assert (D : Rabs (val (fmul fx fx) - val (fmul fy fy)) <= 3 / 2 * M).
  { rewrite V1, V2. apply Rabs_le. lra. }
  assert (Su : Rabs (val (fmul fx fy) + val (fmul fy fx)) <= 3 / 2 * M).
  { rewrite V3, V4. apply Rabs_le. lra. }
  destruct (fsub_val _ _ F1 F2) as [V5 F5]; [apply thousand, (big_of M); auto; lra|].
  destruct (fadd_val _ _ F3 F4) as [V6 F6]; [apply thousand, (big_of M); auto; lra|].
  pose proof (rnd_in M _ S4 P D) as R5. pose proof (rnd_in M _ S4 P Su) as R6. apply Rabs_le_inv in R5, R6.
  split; [exact F5|split; [exact F6|]]. cbn [fc_mul fst snd]. rewrite V5, V6. rewrite V1, V2 in R5 |- *. rewrite V3, V4 in R6 |- *.
  split; apply Rabs_le; lra.
Qed.

(** multiplication by a real number *)
Lemma scale_parts (k : f64) (E : fc) (r : R) (x y M : R) :
  finite k -> finite (fst E) -> finite (snd E) -> 0 <= r -> 0 <= M -> sized 400 (r * M) ->
  Rabs (val k - r) <= 2 * u * r ->
  Rabs x <= M -> Rabs y <= M ->
  Rabs (val (fst E) - x) <= 4 * u * M -> Rabs (val (snd E) - y) <= 4 * u * M ->
  finite (fst (fc_mul (fc_real k) E)) /\ finite (snd (fc_mul (fc_real k) E)) /\
  Rabs (val (fst (fc_mul (fc_real k) E)) - r * x) <= 9 * u * (r * M) /\
  Rabs (val (snd (fc_mul (fc_real k) E)) - r * y) <= 9 * u * (r * M).
Proof.
  destruct E as [fx fy]. cbn [fst snd fc_mul fc_real]. intros K F G Pr PM S Hk Hx Hy Ex Ey.
  pose proof u_pos as U. pose proof u_tiny as Ut.
  assert (Z : finite fzero /\ val fzero = 0) by (split; reflexivity). destruct Z as [Fz Vz].
  destruct (fmul_zero_l fzero fy Fz G Vz) as [F2 V2]. destruct (fmul_zero_l fzero fx Fz F Vz) as [F4 V4].
  assert (PrM : 0 <= r * M) by (apply Rmult_le_pos; auto).
  assert (One : forall f t, finite f -> Rabs t <= M -> Rabs (val f - t) <= 4 * u * M ->
    finite (fmul k f) /\ Rabs (val (fmul k f) - r * t) <= 9 * u * (r * M)).
  { intros f t Ff Ht Et.
    assert (Hd : Rabs (val k * val f - r * t) <= 7 * u * (r * M)).
    { replace (val k * val f - r * t) with ((val k - r) * val f + r * (val f - t)) by ring.
      eapply Rle_trans; [apply Rabs_triang|]. rewrite !Rabs_mult, (Rabs_pos_eq r) by exact Pr.
      assert (Hf : Rabs (val f) <= 3 / 2 * M).
      { replace (val f) with (t + (val f - t)) by ring. eapply Rle_trans; [apply Rabs_triang|].
        assert (u * M <= / 1000000 * M) by (apply Rmult_le_compat_r; lra). lra. }
      assert (Rabs (val k - r) * Rabs (val f) <= 2 * u * r * (3 / 2 * M)) by (apply Rmult_le_compat; auto using Rabs_pos).
      assert (r * Rabs (val f - t) <= r * (4 * u * M)) by (apply Rmult_le_compat_l; auto).
      lra. }
    assert (Ht' : Rabs (r * t) <= r * M) by (rewrite Rabs_mult, (Rabs_pos_eq r) by exact Pr; apply Rmult_le_compat_l; auto).
    assert (Hu : u * (r * M) <= / 1000000 * (r * M)) by (apply Rmult_le_compat_r; lra).
    assert (Hp : Rabs (val k * val f) <= 3 / 2 * (r * M)).
    { replace (val k * val f) with (r * t + (val k * val f - r * t)) by ring. eapply Rle_trans; [apply Rabs_triang|]. lra. }
    destruct (fmul_val k f K Ff) as [V Fm]; [apply thousand, (big_of (r * M)); auto; lra|].
    split; [exact Fm|]. rewrite V. pose proof (rnd_in (r * M) _ S PrM Hp) as R.
    apply Rabs_le_inv in R, Hd. apply Rabs_le. lra. }
  destruct (One fx x F Hx Ex) as [F1 E1]. destruct (One fy y G Hy Ey) as [F3 E3].
  assert (Sm : forall f t, Rabs t <= M -> Rabs (val (fmul k f) - r * t) <= 9 * u * (r * M) -> Rabs (val (fmul k f)) <= bpow radix2 1000).
  { intros f t Ht H. apply thousand, (big_of (r * M)); auto.
    assert (Rabs (r * t) <= r * M) by (rewrite Rabs_mult, (Rabs_pos_eq r) by exact Pr; apply Rmult_le_compat_l; auto).
    assert (Hu : u * (r * M) <= / 1000000 * (r * M)) by (apply Rmult_le_compat_r; lra).
    replace (val (fmul k f)) with (r * t + (val (fmul k f) - r * t)) by ring. eapply Rle_trans; [apply Rabs_triang|]. lra. }
  destruct (fsub_val _ _ F1 F2) as [V5 F5]; [rewrite V2, Rminus_0_r; exact (Sm fx x Hx E1)|].
  destruct (fadd_val _ _ F3 F4) as [V6 F6]; [rewrite V4, Rplus_0_r; exact (Sm fy y Hy E3)|].
  rewrite V2, Rminus_0_r, (rnd_id _ (val_fmt _)) in V5. rewrite V4, Rplus_0_r, (rnd_id _ (val_fmt _)) in V6.
  rewrite V5, V6. repeat split; assumption.
Qed.

Lemma re_abs x y : Rabs (x * x - y * y) <= sqmod x y.
Proof. unfold sqmod. pose proof (Rle_0_sqr x). pose proof (Rle_0_sqr y). pose proof (Rle_0_sqr (x + y)). pose proof (Rle_0_sqr (x - y)). unfold Rsqr in *. apply Rabs_le. split; lra. Qed.
Lemma im_abs x y : Rabs (2 * (x * y)) <= sqmod x y.
Proof. unfold sqmod. pose proof (Rle_0_sqr x). pose proof (Rle_0_sqr y). pose proof (Rle_0_sqr (x + y)). pose proof (Rle_0_sqr (x - y)). unfold Rsqr in *. apply Rabs_le. split; lra. Qed.

Theorem epsilon_float A B v (Fa : finite (fst A)) (Fa' : finite (snd A)) (Fb : finite (fst B)) (Fb' : finite (snd B))
    (Fv : finite v) (Ma : moderate (val (fst A))) (Ma' : moderate (val (snd A)))
    (Mb : moderate (val (fst B))) (Mb' : moderate (val (snd B))) (Mv : moderate (val v)) (R01 : 0 <= val v <= 1) :
  let a1 := val (fst A) in let a2 := val (snd A) in let b1 := val (fst B) in let b2 := val (snd B) in
  let E := fl_linear_epsilon A B v in
  let scale := (1 - val v) * sqmod a1 a2 + val v * sqmod b1 b2 in
  finite (fst E) /\ finite (snd E) /\
  Rabs (val (fst E) - ((1 - val v) * (a1 * a1 - a2 * a2) + val v * (b1 * b1 - b2 * b2))) <= 11 * u * scale /\
  Rabs (val (snd E) - ((1 - val v) * (2 * (a1 * a2)) + val v * (2 * (b1 * b2)))) <= 11 * u * scale.
Proof.
  cbv zeta. pose proof u_pos as U. pose proof u_tiny as Ut.
  destruct (square_parts A Fa Fa' Ma Ma') as (Ga & Ga' & Ea & Ea'). destruct (square_parts B Fb Fb' Mb Mb') as (Gb & Gb' & Eb & Eb').
  set (a1 := val (fst A)) in *. set (a2 := val (snd A)) in *. set (b1 := val (fst B)) in *. set (b2 := val (snd B)) in *.
  pose proof (sqmod_pos a1 a2) as Pa. pose proof (sqmod_pos b1 b2) as Pb.
  pose proof (sqmod_sized a1 a2 Ma Ma') as Sa. pose proof (sqmod_sized b1 b2 Mb Mb') as Sb.
  pose proof (rest_sized (val v) (val_fmt v) R01) as Sr.
  assert (Sra : sized 254 ((1 - val v) * sqmod a1 a2)) by exact (sized_mult 53 201 _ _ Sr Sa).
  assert (Svb : sized 301 (val v * sqmod b1 b2)) by exact (sized_mult 100 201 _ _ Mv Sb).
  assert (Pra : 0 <= (1 - val v) * sqmod a1 a2) by (apply Rmult_le_pos; lra).
  assert (Pvb : 0 <= val v * sqmod b1 b2) by (apply Rmult_le_pos; lra).
  destruct (rest_val v Fv R01) as [Fr Vr].
  assert (Hr : Rabs (val (fsub (fZ 1) v) - (1 - val v)) <= 2 * u * (1 - val v)).
  { rewrite Vr. apply rnd_in; [apply (sized_mono 53); [lia|exact Sr]|lra|]. rewrite Rabs_pos_eq; lra. }
  destruct (scale_parts (fsub (fZ 1) v) (fc_mul A A) (1 - val v) (a1 * a1 - a2 * a2) (2 * (a1 * a2)) (sqmod a1 a2)
    Fr Ga Ga' ltac:(lra) Pa ltac:(apply (sized_mono 254); [lia|exact Sra]) Hr (re_abs _ _) (im_abs _ _) Ea Ea') as (H1 & H2 & H3 & H4).
  assert (Hv : Rabs (val v - val v) <= 2 * u * val v).
  { rewrite Rminus_diag_eq, Rabs_R0 by reflexivity. apply Rmult_le_pos; lra. }
  destruct (scale_parts v (fc_mul B B) (val v) (b1 * b1 - b2 * b2) (2 * (b1 * b2)) (sqmod b1 b2)
    Fv Gb Gb' ltac:(lra) Pb ltac:(apply (sized_mono 301); [lia|exact Svb]) Hv (re_abs _ _) (im_abs _ _) Eb Eb') as (K1 & K2 & K3 & K4).
  unfold fl_linear_epsilon. set (T1 := fc_mul (fc_real (fsub (fZ 1) v)) (fc_mul A A)) in *. set (T2 := fc_mul (fc_real v) (fc_mul B B)) in *.
  clearbody T1 T2.
  assert (SS : sized 400 ((1 - val v) * sqmod a1 a2 + val v * sqmod b1 b2)).
  { apply (sized_mono 302); [lia|]. apply (sized_plus 301); auto; try lia. apply (sized_mono 254); [lia|exact Sra]. }
  assert (X1 : Rabs ((1 - val v) * (a1 * a1 - a2 * a2)) <= (1 - val v) * sqmod a1 a2).
  { rewrite Rabs_mult, (Rabs_pos_eq (1 - val v)) by lra. apply Rmult_le_compat_l; [lra|apply re_abs]. }
  assert (X2 : Rabs ((1 - val v) * (2 * (a1 * a2))) <= (1 - val v) * sqmod a1 a2).
  { rewrite Rabs_mult, (Rabs_pos_eq (1 - val v)) by lra. apply Rmult_le_compat_l; [lra|apply im_abs]. }
  assert (Y1 : Rabs (val v * (b1 * b1 - b2 * b2)) <= val v * sqmod b1 b2).
  { rewrite Rabs_mult, (Rabs_pos_eq (val v)) by lra. apply Rmult_le_compat_l; [lra|apply re_abs]. }
  assert (Y2 : Rabs (val v * (2 * (b1 * b2))) <= val v * sqmod b1 b2).
  { rewrite Rabs_mult, (Rabs_pos_eq (val v)) by lra. apply Rmult_le_compat_l; [lra|apply im_abs]. }
  set (P := (1 - val v) * sqmod a1 a2) in *. set (Q := val v * sqmod b1 b2) in *.
  set (x1 := (1 - val v) * (a1 * a1 - a2 * a2)) in *. set (x2 := (1 - val v) * (2 * (a1 * a2))) in *.
  set (y1 := val v * (b1 * b1 - b2 * b2)) in *. set (y2 := val v * (2 * (b1 * b2))) in *.
  clearbody P Q x1 x2 y1 y2.
  assert (uP : 0 <= u * P) by (apply Rmult_le_pos; lra). assert (uQ : 0 <= u * Q) by (apply Rmult_le_pos; lra).
  assert (uP' : u * P <= / 1000000 * P) by (apply Rmult_le_compat_r; lra). assert (uQ' : u * Q <= / 1000000 * Q) by (apply Rmult_le_compat_r; lra).
  apply Rabs_le_inv in H3, H4, K3, K4, X1, X2, Y1, Y2.
  assert (D1 : Rabs (val (fst T1) + val (fst T2)) <= 3 / 2 * (P + Q)) by (apply Rabs_le; lra).
  assert (D2 : Rabs (val (snd T1) + val (snd T2)) <= 3 / 2 * (P + Q)) by (apply Rabs_le; lra).
  destruct (fadd_val _ _ H1 K1) as [V1 F1]; [apply thousand, (big_of (P + Q)); auto; lra|].
  destruct (fadd_val _ _ H2 K2) as [V2 F2]; [apply thousand, (big_of (P + Q)); auto; lra|].
  unfold fc_add. cbn [fst snd]. split; [exact F1|split; [exact F2|]]. rewrite V1, V2.
  pose proof (rnd_in (P + Q) _ SS ltac:(lra) D1) as R1. pose proof (rnd_in (P + Q) _ SS ltac:(lra) D2) as R2.
  apply Rabs_le_inv in R1, R2. split; apply Rabs_le; lra.
Qed.
