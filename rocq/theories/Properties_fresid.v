(** * chi-squared in double precision (C128).

    [run res p] is np.dot(res, res) calculated in the order p, with or without fused multiply-add;
    [covers n p]: p uses each of n residuals once.  [u] = 2^-53; [tiny] = 2^-1075, half of the smallest
    double.  [squares res] is the sum of squares without rounding. *)

Require Import Reals ZArith List Permutation.
From Flocq Require Import Core.
From Flocq.IEEE754 Require Import BinarySingleNaN.
From Verif Require Import M_float Spec_objective Spec_float M_fresid Spec_fresid P_fresid P_fresid2 P_fresid3.
Import ListNotations.
Open Scope R_scope.

(** ** C128: the sum of squares, for any list of residuals and any order *)
Theorem C128_sign : forall res p, Forall (fun r => ~ nan r) res -> at_least_zero (run res p).
Proof. exact chi_sign. Qed.
Print Assumptions C128_sign.

Theorem C128_error : forall res p, Forall finite res -> covers (length res) p -> finite (run res p) ->
  Rabs (val (run res p) - squares res) <=
    ((1 + u) ^ length res - 1) * squares res + (1 + u) ^ length res * (INR (length res) * tiny).
Proof. exact chi_error. Qed.
Print Assumptions C128_error.

Theorem C128_finite : forall res p, Forall finite res -> covers (length res) p ->
  (1 + u) ^ length res * (squares res + INR (length res) * tiny) <= bpow radix2 1000 -> finite (run res p).
Proof. exact chi_finite. Qed.
Print Assumptions C128_finite.

Theorem C128_two_orders : forall res p q, Forall finite res -> covers (length res) p -> covers (length res) q ->
  finite (run res p) -> finite (run res q) ->
  Rabs (val (run res p) - val (run res q)) <=
    2 * (((1 + u) ^ length res - 1) * squares res + (1 + u) ^ length res * (INR (length res) * tiny)).
Proof. exact chi_two_orders. Qed.
Print Assumptions C128_two_orders.

Theorem C128_zero : forall res p, Forall finite res -> covers (length res) p -> finite (run res p) ->
  (val (run res p) = 0 <-> Forall (fun r => val r * val r <= tiny) res).
Proof. exact chi_zero. Qed.
Print Assumptions C128_zero.

Theorem C128_monotone : forall res res' p,
  Forall2 (fun r r' => finite r /\ ~ nan r' /\ Rabs (val r) <= Rabs (val r')) res res' ->
  covers (length res) p -> finite (run res' p) -> finite (run res p) /\ val (run res p) <= val (run res' p).
Proof. exact chi_monotone. Qed.
Print Assumptions C128_monotone.

(** ** C128: the residuals *)
Theorem C128_psi : forall a b, finite a -> finite b -> Rabs (val a - val b) <= 360 ->
  let r := fsub a b in
  finite r /\ (val r = 0 <-> val a = val b) /\ (val b < val a -> 0 < val r) /\ (val a < val b -> val r < 0) /\
  Rabs (val r - (val a - val b)) <= u * Rabs (val a - val b).
Proof. exact psi_residual. Qed.
Print Assumptions C128_psi.

Theorem C128_exact_exists : forall psi delta psi_d delta_d, comparable psi psi_d -> comparable delta delta_d ->
  exists ds, exact_residuals psi delta psi_d delta_d ds /\
    forall ds', exact_residuals psi delta psi_d delta_d ds' -> ds' = ds.
Proof. exact exact_exists. Qed.
Print Assumptions C128_exact_exists.

Theorem C128_residuals : forall psi delta psi_d delta_d ds, comparable psi psi_d -> comparable delta delta_d ->
  exact_residuals psi delta psi_d delta_d ds ->
  Forall2 (fun r d => finite r /\ Rabs (val r - d) <= / 2 ^ 45) (fl_residuals psi delta psi_d delta_d) ds.
Proof. exact residuals_close. Qed.
Print Assumptions C128_residuals.

(** ** C128: chi-squared of model and data *)
Theorem C128_chisqr : forall psi delta psi_d delta_d ds p, comparable psi psi_d -> comparable delta delta_d ->
  exact_residuals psi delta psi_d delta_d ds -> covers (length ds) p -> INR (length ds) <= 2 ^ 53 ->
  let c := fl_chisqr p psi delta psi_d delta_d in
  let X := total (map (fun d => d * d) ds) in let e := INR (length ds) * / 2 ^ 35 in
  finite c /\ 0 <= val c /\ Rabs (val c - X) <= ((1 + u) ^ length ds - 1) * (X + e) + e.
Proof. exact chisqr_close. Qed.
Print Assumptions C128_chisqr.

Theorem C128_nan : forall psi delta psi_d delta_d p, length psi = length psi_d -> length delta = length delta_d ->
  covers (length (fl_residuals psi delta psi_d delta_d)) p ->
  Exists nan psi \/ Exists nan psi_d \/ Exists nan delta \/ Exists nan delta_d -> nan (fl_chisqr p psi delta psi_d delta_d).
Proof. exact chisqr_nan. Qed.
Print Assumptions C128_nan.

Theorem C128_perfect : forall psi delta psi_d delta_d p,
  Forall2 (fun a b => finite a /\ finite b /\ val a = val b) psi psi_d ->
  Forall2 (fun a b => finite a /\ finite b /\ val a = val b) delta delta_d ->
  finite (fl_chisqr p psi delta psi_d delta_d) /\ val (fl_chisqr p psi delta psi_d delta_d) = 0.
Proof. exact perfect_fit. Qed.
Print Assumptions C128_perfect.

Theorem C128_zero_means : forall psi delta psi_d delta_d p, comparable psi psi_d -> comparable delta delta_d ->
  covers (length (fl_residuals psi delta psi_d delta_d)) p -> finite (fl_chisqr p psi delta psi_d delta_d) ->
  val (fl_chisqr p psi delta psi_d delta_d) = 0 ->
  Forall2 (fun a b => Rabs (val a - val b) <= bpow radix2 (-537)) psi psi_d /\
  Forall2 (fun a b => Rabs (val a - val b) <= bpow radix2 (-537) \/ Rabs (360 - Rabs (val a - val b)) <= / 2 ^ 44) delta delta_d.
Proof. exact zero_means. Qed.
Print Assumptions C128_zero_means.

(** chi-squared 0 does not make model and data equal: squares underflow *)
Theorem C128_zero_refuted : exists psi psi_d delta delta_d, forall p,
  val (fl_chisqr p [psi] [delta] [psi_d] [delta_d]) = 0 /\ finite (fl_chisqr p [psi] [delta] [psi_d] [delta_d]) /\
  finite psi /\ finite psi_d /\ val psi <> val psi_d.
Proof. exact zero_refuted. Qed.
Print Assumptions C128_zero_refuted.

Example C128_example : comparable [fZ 30] [fZ 27] /\ comparable [fZ 358] [fZ 2] /\
  covers (length (fl_residuals [fZ 30] [fZ 358] [fZ 27] [fZ 2])) plan2 /\
  finite (fl_chisqr plan2 [fZ 30] [fZ 358] [fZ 27] [fZ 2]) /\ val (fl_chisqr plan2 [fZ 30] [fZ 358] [fZ 27] [fZ 2]) = 25.
Proof. exact example2. Qed.
