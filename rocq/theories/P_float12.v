(** * Maxwell-Garnett in double precision: the statement in terms of the parts *)

Require Import Reals ZArith Bool Lra Lia Psatz.
From Flocq Require Import Core.
From Flocq.IEEE754 Require Import BinarySingleNaN.
From Verif Require Import M_float Spec_float P_float P_float2 M_float2 Spec_float2 P_float3 P_float4 M_float3 P_float6 P_float7 P_float9 P_float11.
Open Scope R_scope.

Lemma maxwell_bound csqrt (nA kA nB kB vf dp : f64) K : finite nA -> finite nB -> finite vf -> finite dp ->
  finite kA /\ val kA = 0 -> finite kB /\ val kB = 0 ->
  moderate (val nA) -> moderate (val nB) -> moderate (val vf) -> moderate (val dp) ->
  val nA <> 0 -> val nB <> 0 -> 0 <= val vf <= 1 -> 0 <= val dp <= 1 ->
  val nA ^ 2 <= K * val nB ^ 2 -> val nB ^ 2 <= K * val nA ^ 2 -> 100 * u * K <= 1 ->
  let eA := val nA ^ 2 in let eB := val nB ^ 2 in
  let top := eA + (val dp * (1 - val vf) + val vf) * (eB - eA) in
  let bottom := eA + val dp * (1 - val vf) * (eB - eA) in
  let exact := sqrt (eA * (top / bottom)) in
  exists n k, fl_maxwell csqrt (nA, kA) (nB, kB) vf dp = (n, k) /\ finite n /\ finite k /\ val k = 0 /\
  0 < exact /\ Rabs (val n - exact) <= 75 * u * K * exact.
Proof.
  intros FA FB Fv Fd TA TB MA MB Mv Md NA NB Rv Rd K1 K2 Ks. cbv zeta.
  replace (val nA ^ 2) with (val nA * val nA) in * by ring. replace (val nB ^ 2) with (val nB * val nB) in * by ring.
  assert (PA : 0 < val nA * val nA) by nra. assert (PB : 0 < val nB * val nB) by nra.
  assert (K3 : 1 <= K).
  { apply Rnot_lt_le. intros L. set (x := val nA * val nA) in *. set (y := val nB * val nB) in *. clearbody x y.
    destruct (Rle_lt_dec K 0) as [Q|Q]; [nra|]. assert (K * y < 1 * y) by (apply Rmult_lt_compat_r; auto).
    assert (K * x < 1 * x) by (apply Rmult_lt_compat_r; auto). lra. }
  destruct (maxwell_float csqrt (nA, kA) (nB, kB) vf dp _ _ K (axis_pair _ _ FA TA) (axis_pair _ _ FB TB) MA MB NA NB Fv Fd Mv Md Rv Rd K1 K2 K3 ltac:(lra))
    as (n & (F & G & V & Z) & E).
  destruct (fl_maxwell csqrt (nA, kA) (nB, kB) vf dp) as [x y]. cbn [fst snd] in *. exists x, y. split; [reflexivity|].
  split; [exact F|split; [exact G|split; [exact Z|split]]].
  - apply sqrt_lt_R0, Rmult_lt_0_compat; [exact PA|].
    set (s := val nA * val nA) in *. set (t := val nB * val nB) in *.
    set (p := val dp * (1 - val vf)). assert (P0 : 0 <= p <= 1 - val vf).
    { unfold p. split; [apply Rmult_le_pos; lra|]. rewrite <- (Rmult_1_l (1 - val vf)) at 2. apply Rmult_le_compat_r; lra. }
    clearbody s t p.
    assert (Pos : forall c, 0 <= c <= 1 -> 0 < s + c * (t - s)).
    { intros c Hc. replace (s + c * (t - s)) with ((1 - c) * s + c * t) by ring.
      destruct (Rle_lt_dec c (/ 2)) as [Q|Q].
      - assert (0 <= c * t) by (apply Rmult_le_pos; lra). assert (0 < (1 - c) * s) by (apply Rmult_lt_0_compat; lra). lra.
      - assert (0 < c * t) by (apply Rmult_lt_0_compat; lra). assert (0 <= (1 - c) * s) by (apply Rmult_le_pos; lra). lra. }
    apply Rdiv_lt_0_compat; apply Pos; lra.
  - rewrite V. replace (75 * u * K) with (75 * (u * K)) by ring. exact E.
Qed.
