(** * Cauchy at arrays of integer wavelengths (dispersion.py:211-220)

    [cauchy_int t A B C w]: an entry w of an array of the integer type t; None is inf or nan.  [signed b]: numpy's
    intb, [unsigned b]: uintb.  [fits t z]: the type holds z.  [left_of t z r]: r is what is left of z when only the last bits are kept.
    [cauchy_formula]: A + B 1000^2/w^2 + C 1000^4/w^4 (Spec_intwave). *)

Require Import Reals ZArith List Lia Lra.
From Coquelicot Require Import Complex.
From Verif Require Import Base Cplx M_disp M_intwave Spec_intwave P_intwave.
Import ListNotations.
Open Scope Z_scope.

(** ** C146.  What is left of a power *)
Theorem C146_power : forall t w k, 0 <= it_bits t ->
  left_of t (w ^ Zpos k) (int_power t w k) /\ (forall r, left_of t (w ^ Zpos k) r -> r = int_power t w k).
Proof. exact (fun t w k P => conj (power_left t P w k) (fun r H => left_unique t P _ _ _ H (power_left t P w k))). Qed.
Print Assumptions C146_power.

(** ** as long as both powers fit, Cauchy's formula; beyond, only if C = 0 and not everything is lost *)
Theorem C146_exact : forall t A B Cc w, 0 <= it_bits t -> w <> 0 -> fits t (w ^ 2) -> fits t (w ^ 4) ->
  cauchy_int t A B Cc w = Some (cauchy_formula A B Cc (IZR w)).
Proof. exact (fun t A B Cc w P => cauchy_exact t P A B Cc w). Qed.
Print Assumptions C146_exact.

Theorem C146_exactly : forall t A B Cc w, 0 <= it_bits t -> w <> 0 -> fits t (w ^ 2) ->
  (cauchy_int t A B Cc w = Some (cauchy_formula A B Cc (IZR w)) <->
   fits t (w ^ 4) \/ (Cc = 0%R /\ ~ left_of t (w ^ 4) 0)).
Proof. exact (fun t A B Cc w P => cauchy_iff t P A B Cc w). Qed.
Print Assumptions C146_exactly.

(** ** 64 bits are enough up to 55 micrometres *)
Theorem C146_int64 : forall A B Cc w, w <> 0 -> Z.abs w <= 55108 ->
  cauchy_int (signed 64) A B Cc w = Some (cauchy_formula A B Cc (IZR w)).
Proof. exact int64_exact. Qed.
Print Assumptions C146_int64.

(** ** 32 bits are enough up to 215 nm only *)
Theorem C146_int32 : forall A B Cc w, w <> 0 -> Z.abs w <= 215 ->
  cauchy_int (signed 32) A B Cc w = Some (cauchy_formula A B Cc (IZR w)).
Proof. exact int32_exact. Qed.
Print Assumptions C146_int32.

Theorem C146_int32_wrong : forall A B Cc w, 216 <= w <= 46340 -> Cc <> 0%R ->
  cauchy_int (signed 32) A B Cc w <> Some (cauchy_formula A B Cc (IZR w)).
Proof. exact int32_wrong. Qed.
Print Assumptions C146_int32_wrong.

(** ** and at multiples of 256 nm there is no index at all, even if B and C are zero *)
Theorem C146_int32_nan : forall A B Cc m, cauchy_int (signed 32) A B Cc (256 * m) = None.
Proof. exact int32_nan. Qed.
Print Assumptions C146_int32_nan.

(** ** integers without a sign: 255 nm in 32 bits, 65 micrometres in 64 *)
Theorem C146_uint32 : forall A B Cc w,
  (0 < w <= 255 -> cauchy_int (unsigned 32) A B Cc w = Some (cauchy_formula A B Cc (IZR w))) /\
  (256 <= w <= 65535 -> Cc <> 0%R -> cauchy_int (unsigned 32) A B Cc w <> Some (cauchy_formula A B Cc (IZR w))).
Proof. exact (fun A B Cc w => conj (uint32_exact A B Cc w) (uint32_wrong A B Cc w)). Qed.
Print Assumptions C146_uint32.

Theorem C146_uint64 : forall A B Cc w, 0 < w <= 65535 ->
  cauchy_int (unsigned 64) A B Cc w = Some (cauchy_formula A B Cc (IZR w)).
Proof. exact uint64_exact. Qed.
Print Assumptions C146_uint64.

(** that integers can be used for wavelengths is false *)
Theorem C146_integers_refuted : exists A w, 0 < w /\ cauchy_int (signed 32) A 0 0 w <> Some (cauchy_formula A 0 0 (IZR w)).
Proof. exists (3 / 2)%R, 512. split; [lia|]. change 512 with (256 * 2). rewrite int32_nan. discriminate. Qed.
Print Assumptions C146_integers_refuted.

(** 633 nm in 32 bits: 633^4 leaves 1637884769 *)
Example C146_example : fits (signed 32) (633 ^ 2) /\ ~ fits (signed 32) (633 ^ 4) /\ fits (signed 64) (633 ^ 4) /\
  int_power (signed 32) 633 4 = 633 ^ 4 - 37 * 2 ^ 32 /\ int_power (signed 32) 512 4 = 0.
Proof. unfold fits. cbn. repeat split; try lia. Qed.
