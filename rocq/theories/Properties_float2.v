(** * Rounding errors of the dispersion formulas in double precision (C136 Cauchy, C137 Sellmeier)

    [powers k f]: f computes x^k up to 2 u relative error; [moderate x]: zero, or between 2^-100
    and 2^100 in absolute value.  The complex numbers returned by the code have imaginary part 0. *)

Require Import Reals ZArith Lra Lia.
From Coquelicot Require Import Complex.
From Flocq Require Import Core.
From Flocq.IEEE754 Require Import BinarySingleNaN.
From Verif Require Import M_disp M_float Spec_float P_float2 M_float2 Spec_float2 P_float5.
Open Scope R_scope.

(** ** C136: Cauchy.complex *)
Theorem C136_cauchy sq p4 (A B Cc w : f64)
    (squares : powers 2 sq) (fourth : powers 4 p4)
    (finite_A : finite A) (finite_B : finite B) (finite_C : finite Cc) (finite_w : finite w)
    (A_moderate : moderate (val A)) (B_moderate : moderate (val B)) (C_moderate : moderate (val Cc))
    (w_moderate : moderate (val w)) (light : val w <> 0) :
  finite (fl_cauchy sq p4 A B Cc w) /\
  exists x, cauchy_complex (val A) (val B) (val Cc) (val w) = Some (x, 0) /\
    Rabs (val (fl_cauchy sq p4 A B Cc w) - x) <=
    13 * u * (Rabs (val A) + Rabs (val B * 1000 ^ 2 / val w ^ 2) + Rabs (val Cc * 1000 ^ 4 / val w ^ 4)).
Proof.
  exact (cauchy_float_model sq p4 A B Cc w squares fourth finite_A finite_B finite_C finite_w
           A_moderate B_moderate C_moderate w_moderate light).
Qed.
Print Assumptions C136_cauchy.

(** the multiplication x * x and the correctly rounded fourth power meet the requirement *)
Example C136_powers : powers 2 (fun x => fmul x x) /\ powers 4 (rounded_power 4).
Proof. exact (conj square_ok (rounded_power_ok 4 ltac:(lia))). Qed.
Example C136_example : finite (fZ 633) /\ val (fZ 633) <> 0 /\ moderate (val (fZ 633)) /\ moderate (val (fZ 1)) /\
  finite quarter /\ moderate (val quarter).
Proof.
  destruct (finite_Z 633 ltac:(lia)) as [A B]. split; [exact A|]. split; [rewrite B; lra|].
  split; [apply moderate_Z; lia|]. split; [apply moderate_Z; lia|].
  split; [apply quarter_val|exact moderate_quarter].
Qed.

(** ** C137: Sellmeier.epsilon and Sellmeier.complex; K says how far the wavelength is from the resonance *)
Theorem C137_sellmeier sq (Am En P Einf w : f64) K
    (squares : powers 2 sq)
    (finite_Am : finite Am) (finite_En : finite En) (finite_P : finite P) (finite_Einf : finite Einf) (finite_w : finite w)
    (Am_moderate : moderate (val Am)) (En_moderate : moderate (val En)) (P_moderate : moderate (val P))
    (Einf_moderate : moderate (val Einf)) (w_moderate : bpow radix2 (-80) <= Rabs (val w) <= bpow radix2 80)
    (away : (val w / 1000) ^ 2 + val En ^ 2 <= K * Rabs ((val w / 1000) ^ 2 - val En ^ 2)) (K_small : 60 * u * K <= 1) :
  let W2 := (val w / 1000) ^ 2 in
  let size := Rabs (val Einf) + Rabs (val Am * W2 / (W2 - val En ^ 2)) + Rabs (val P * W2) in
  finite (fl_sellmeier_epsilon sq Am En P Einf w) /\
  exists x, sellmeier_epsilon (val Am) (val En) (val P) (val Einf) (val w) = Some (RtoC x) /\
    Rabs (val (fl_sellmeier_epsilon sq Am En P Einf w) - x) <= 60 * K * u * size /\
    (0 < x -> 60 * K * u * size <= x / 2 ->
     finite (fl_sellmeier sq Am En P Einf w) /\
     exists n, sellmeier_complex (val Am) (val En) (val P) (val Einf) (val w) = Some (RtoC n) /\ n ^ 2 = x /\
       Rabs (val (fl_sellmeier sq Am En P Einf w) - n) <= 66 * K * u * size / n).
Proof.
  exact (sellmeier_float_model sq Am En P Einf w K squares finite_Am finite_En finite_P finite_Einf finite_w
           Am_moderate En_moderate P_moderate Einf_moderate w_moderate away K_small).
Qed.
Print Assumptions C137_sellmeier.

(** 633 nm, resonance at 0.25 um *)
Example C137_example :
  (val (fZ 633) / 1000) ^ 2 + val quarter ^ 2 <= 2 * Rabs ((val (fZ 633) / 1000) ^ 2 - val quarter ^ 2) /\
  60 * u * 2 <= 1.
Proof. exact away_case. Qed.

Example C137_example_index : let W2 := (val (fZ 633) / 1000) ^ 2 in
  let x := val (fZ 1) + val (fZ 1) * W2 / (W2 - val quarter ^ 2) - val (fZ 0) * W2 in
  let size := Rabs (val (fZ 1)) + Rabs (val (fZ 1) * W2 / (W2 - val quarter ^ 2)) + Rabs (val (fZ 0) * W2) in
  moderate (val (fZ 0)) /\ 0 < x /\ 60 * 2 * u * size <= x / 2.
Proof. exact index_case. Qed.

(** without K: the formula has a value, the program returns infinity.  200 nm, resonance at the double
    nearest to 0.2 um *)
Theorem C137_resonance_refuted : exists Am En P Einf w : f64,
  finite Am /\ finite En /\ finite P /\ finite Einf /\ finite w /\ val w = 200 /\
  (exists x, sellmeier_epsilon (val Am) (val En) (val P) (val Einf) (val w) = Some (RtoC x)) /\
  fl_sellmeier_epsilon (fun x => fmul x x) Am En P Einf w = B754_infinity false.
Proof. exact resonance. Qed.
Print Assumptions C137_resonance_refuted.
