(** * Mixing of media in double precision (C152)

    overall_ri with the linear approximation, the default of StructureSE.  A number of numpy's
    complex type is a pair of doubles.  [moderate x]: zero, or between 2^-100 and 2^100 in
    absolute value; u = 2^-53.  [csqrt] is the C library's square root away from the real axis:
    the statements hold whatever it computes. *)

Require Import Reals ZArith Lra Lia.
From Coquelicot Require Import Complex.
From Flocq Require Import Core.
From Flocq.IEEE754 Require Import BinarySingleNaN.
From Verif Require Import M_float Spec_float P_float2 M_float2 Spec_float2 M_float3 P_float5 P_float9 P_float12.
Open Scope R_scope.

(** ** transparent media: the index of the mixture is correct to eleven units of rounding *)
Theorem C152_transparent csqrt (nA kA nB kB vf : f64)
    (finite_A : finite nA) (finite_B : finite nB) (finite_vf : finite vf)
    (transparent_A : finite kA /\ val kA = 0) (transparent_B : finite kB /\ val kB = 0)
    (A_moderate : moderate (val nA)) (B_moderate : moderate (val nB)) (vf_moderate : moderate (val vf))
    (fraction : 0 <= val vf <= 1) :
  exists n k, fl_linear csqrt (nA, kA) (nB, kB) vf = (n, k) /\ finite n /\ finite k /\ val k = 0 /\
  let exact := sqrt ((1 - val vf) * val nA ^ 2 + val vf * val nB ^ 2) in
  Rabs (val n - exact) <= 11 * u * exact.
Proof.
  exact (transparent csqrt nA kA nB kB vf finite_A finite_B finite_vf transparent_A transparent_B
           A_moderate B_moderate vf_moderate fraction).
Qed.
Print Assumptions C152_transparent.

(** ** no solvent, or nothing but solvent: the index comes out unchanged, to the last bit, although
    it is squared, multiplied, added to and rooted; a negative index loses its sign *)
Theorem C152_ends csqrt (nA kA nB kB vf : f64)
    (finite_A : finite nA) (finite_B : finite nB) (finite_vf : finite vf)
    (transparent_A : finite kA /\ val kA = 0) (transparent_B : finite kB /\ val kB = 0)
    (A_moderate : moderate (val nA)) (B_moderate : moderate (val nB)) :
  exists n k, fl_linear csqrt (nA, kA) (nB, kB) vf = (n, k) /\
  (val vf = 0 -> finite n /\ finite k /\ val n = Rabs (val nA) /\ val k = 0) /\
  (val vf = 1 -> finite n /\ finite k /\ val n = Rabs (val nB) /\ val k = 0).
Proof.
  exact (ends csqrt nA kA nB kB vf finite_A finite_B finite_vf transparent_A transparent_B A_moderate B_moderate).
Qed.
Print Assumptions C152_ends.

(** ** the fact behind it: rooting a rounded square gives the number back *)
Theorem C152_root_of_square (x : f64) (finite_x : finite x) (x_moderate : moderate (val x)) :
  finite (fsqrt (fmul x x)) /\ val (fsqrt (fmul x x)) = Rabs (val x).
Proof. exact (root_of_square x finite_x x_moderate). Qed.
Print Assumptions C152_root_of_square.

(** ** Maxwell-Garnett: not so; 3 immersed in 5 with volume fraction 0 and the depolarisation factor
    one third is not 3 *)
Theorem C152_maxwell_ends_refuted : exists (nA nB vf dp : f64),
  finite nA /\ finite nB /\ val nA = 3 /\ val nB = 5 /\ val vf = 0 /\ dp = fdiv (fZ 1) (fZ 3) /\
  forall csqrt, exists n k, fl_maxwell csqrt (nA, fzero) (nB, fzero) vf dp = (n, k) /\
    finite n /\ finite k /\ val k = 0 /\ val n < 3.
Proof. exact maxwell_ends. Qed.
Print Assumptions C152_maxwell_ends_refuted.

(** but the index is correct to 75 K units of rounding, K being the contrast of the two media *)
Theorem C152_maxwell csqrt (nA kA nB kB vf dp : f64) K
    (finite_A : finite nA) (finite_B : finite nB) (finite_vf : finite vf) (finite_dp : finite dp)
    (transparent_A : finite kA /\ val kA = 0) (transparent_B : finite kB /\ val kB = 0)
    (A_moderate : moderate (val nA)) (B_moderate : moderate (val nB)) (vf_moderate : moderate (val vf)) (dp_moderate : moderate (val dp))
    (A_nonzero : val nA <> 0) (B_nonzero : val nB <> 0) (fraction : 0 <= val vf <= 1) (factor : 0 <= val dp <= 1)
    (contrast_A : val nA ^ 2 <= K * val nB ^ 2) (contrast_B : val nB ^ 2 <= K * val nA ^ 2) (contrast_small : 100 * u * K <= 1) :
  let eA := val nA ^ 2 in let eB := val nB ^ 2 in
  let top := eA + (val dp * (1 - val vf) + val vf) * (eB - eA) in
  let bottom := eA + val dp * (1 - val vf) * (eB - eA) in
  let exact := sqrt (eA * (top / bottom)) in
  exists n k, fl_maxwell csqrt (nA, kA) (nB, kB) vf dp = (n, k) /\ finite n /\ finite k /\ val k = 0 /\
  0 < exact /\ Rabs (val n - exact) <= 75 * u * K * exact.
Proof.
  exact (maxwell_bound csqrt nA kA nB kB vf dp K finite_A finite_B finite_vf finite_dp transparent_A transparent_B
           A_moderate B_moderate vf_moderate dp_moderate A_nonzero B_nonzero fraction factor contrast_A contrast_B contrast_small).
Qed.
Print Assumptions C152_maxwell.

(** Bruggeman: the mixture of a material with itself is not the material *)
Theorem C152_bruggeman_ends_refuted : exists (nA vf dp : f64),
  finite nA /\ val nA = 3 /\ val vf = 0 /\ dp = fdiv (fZ 1) (fZ 3) /\
  forall csqrt, exists n k, fl_bruggeman csqrt (nA, fzero) (nA, fzero) vf dp = (n, k) /\
    finite n /\ finite k /\ val k = 0 /\ val n < 3.
Proof. exact bruggeman_ends. Qed.
Print Assumptions C152_bruggeman_ends_refuted.

(** ** absorbing media: each part of the dielectric function is correct to eleven units of rounding,
    measured against the mixture of |nA|^2 and |nB|^2 *)
Theorem C152_dielectric (nA kA nB kB vf : f64)
    (finite_nA : finite nA) (finite_kA : finite kA) (finite_nB : finite nB) (finite_kB : finite kB) (finite_vf : finite vf)
    (nA_moderate : moderate (val nA)) (kA_moderate : moderate (val kA))
    (nB_moderate : moderate (val nB)) (kB_moderate : moderate (val kB)) (vf_moderate : moderate (val vf))
    (fraction : 0 <= val vf <= 1) :
  exists re im, fl_linear_epsilon (nA, kA) (nB, kB) vf = (re, im) /\ finite re /\ finite im /\
  let A := (val nA, val kA) : C in let B := (val nB, val kB) : C in
  let exact := (RtoC (1 - val vf) * (A * A) + RtoC (val vf) * (B * B))%C in
  let scale := (1 - val vf) * Cmod A ^ 2 + val vf * Cmod B ^ 2 in
  Rabs (val re - Re exact) <= 11 * u * scale /\ Rabs (val im - Im exact) <= 11 * u * scale.
Proof.
  exact (dielectric nA kA nB kB vf finite_nA finite_kA finite_nB finite_kB finite_vf
           nA_moderate kA_moderate nB_moderate kB_moderate vf_moderate fraction).
Qed.
Print Assumptions C152_dielectric.

(** a quarter of index 1 in index 3 *)
Example C152_example : finite (fZ 3) /\ finite quarter /\ moderate (val (fZ 3)) /\ moderate (val (fZ 1)) /\
  moderate (val quarter) /\ 0 <= val quarter <= 1 /\ finite fzero /\ val fzero = 0 /\ val (fZ 1) = 1.
Proof.
  split; [apply (finite_Z 3); lia|]. split; [apply quarter_val|]. split; [apply moderate_Z; lia|]. split; [apply moderate_Z; lia|].
  split; [exact moderate_quarter|]. split; [rewrite (proj1 quarter_val); lra|]. repeat split. apply (finite_Z 1). lia.
Qed.
(** contrast 9 *)
Example C152_contrast : val (fZ 3) ^ 2 <= 9 * val (fZ 1) ^ 2 /\ val (fZ 1) ^ 2 <= 9 * val (fZ 3) ^ 2 /\ 100 * u * 9 <= 1.
Proof.
  destruct (finite_Z 3 ltac:(lia)) as [_ ->]. destruct (finite_Z 1 ltac:(lia)) as [_ ->]. repeat split; try lra.
  unfold u. rewrite pow2_53. apply Rmult_le_reg_r with (IZR (2 ^ 53)); [apply IZR_lt; lia|].
  replace (100 * / IZR (2 ^ 53) * 9 * IZR (2 ^ 53)) with 900; [rewrite Rmult_1_l; apply IZR_le; lia|]. field. apply not_0_IZR. lia.
Qed.
