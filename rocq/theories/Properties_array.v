(** * Properties C143: refractive indices at arrays of wavelengths *)

Require Import Reals List String Lra Lia.
From Coquelicot Require Import Complex.
From Verif Require Import Base M_disp M_array Spec_array P_array.
Import ListNotations.
Open Scope R_scope.

(** ** C143 *)

(** an array of wavelengths other than zero: one index each, as if asked one at a time; an error is
    the error of one of them *)
Theorem C143_entries : forall s l
  (some : l <> []) (not_zero : Forall (fun w => w <> 0) l) (not_constant : ~ constant_RI s),
  match complex_at s (W_arr l) with
  | Ok v => exists vs, v = V_arr vs /\ Forall2 (fun w x => sc_complex s (Some w) = Ok x) l vs
  | Raise e => exists w, In w l /\ sc_complex s (Some w) = Raise e
  end.
Proof. exact array_entries. Qed.
Print Assumptions C143_entries.

(** a constant index comes back as one number, whatever the shape of the argument *)
Theorem C143_constant : forall s w (constant : constant_RI s),
  exists n k, (sc_kind s = K_RI (RI_const n k) \/ sc_kind s = K_RI (RI_row 0 n k)) /\
  complex_at s w = Ok (V_num (Some (n, k))).
Proof. exact constant_number. Qed.
Print Assumptions C143_constant.

(** an array of zeros, or an empty one, counts as no wavelength: one number, at the default wavelength *)
Theorem C143_zeros : forall s l (zeros : Forall (fun w => w = 0) l),
  complex_at s (W_arr l) = complex_at s W_none.
Proof. exact all_zero. Qed.
Print Assumptions C143_zeros.

Theorem C143_zeros_2d : forall s rows (zeros : Forall (Forall (fun w => w = 0)) rows),
  complex_at s (W_arr2 rows) = complex_at s W_none.
Proof. exact all_zero2. Qed.
Print Assumptions C143_zeros_2d.

(** but a zero between other wavelengths is not replaced by the default *)
Theorem C143_zero_entry : forall s l i
  (another : exists w, In w l /\ w <> 0) (zero : nth_error l i = Some 0)
  (class : (exists A B Cc, sc_kind s = K_Cauchy A B Cc) \/ (exists os Einf, oscillator_class s os Einf /\ os <> [])),
  exists vs, complex_at s (W_arr l) = Ok (V_arr vs) /\ nth_error vs i = Some None.
Proof. exact zero_entry. Qed.
Print Assumptions C143_zero_entry.

(** tables, Cauchy, Sellmeier and Gauss at an array of two dimensions: an array of the same shape *)
Theorem C143_grid : forall s rows p q
  (shape : grid rows p q) (p_pos : (0 < p)%nat) (q_pos : (0 < q)%nat)
  (not_constant : ~ constant_RI s) (class : forall os Einf, ~ oscillator_class s os Einf),
  match complex_at s (W_arr2 rows) with
  | Ok v => exists vs, v = V_arr2 vs /\ Forall2 (Forall2 (fun w x => sc_complex s (Some w) = Ok x)) rows vs
  | Raise e => exists w, In w (List.concat rows) /\ sc_complex s (Some w) = Raise e
  end.
Proof. exact table_2d. Qed.
Print Assumptions C143_grid.

(** Lorentz and Tauc-Lorentz with one oscillator add the rows up: one number for each column *)
Theorem C143_rows_added : forall s o Einf rows p q (N : nat -> nat -> C)
  (class : oscillator_class s [o] Einf) (shape : grid rows p q) (p_pos : (0 < p)%nat) (q_pos : (0 < q)%nat)
  (finite : forall i j, (i < p)%nat -> (j < q)%nat -> sc_complex s (Some (entry2 rows i j)) = Ok (Some (N i j))),
  exists vs, complex_at s (W_arr2 rows) = Ok (V_arr vs) /\ List.length vs = q /\
  forall j, (j < q)%nat -> exists v, nth_error vs j = Some (Some v) /\
    (v * v = RtoC Einf + csum_to p (fun i => N i j * N i j - RtoC Einf))%C.
Proof. exact one_oscillator_2d. Qed.
Print Assumptions C143_rows_added.

(** so that a column of equal wavelengths does not get the index of that wavelength *)
Theorem C143_grid_oscillators_refuted : exists s rows n v,
  grid rows 2 1 /\ sc_complex s (Some 500) = Ok (Some n) /\ rows = [[500]; [500]] /\
  complex_at s (W_arr2 rows) = Ok (V_arr [Some v]) /\ v <> n.
Proof. exact column_wrong. Qed.
Print Assumptions C143_grid_oscillators_refuted.

(** a single row gives the right values without the outer dimension *)
Theorem C143_one_row : forall s os Einf r
  (class : oscillator_class s os Einf) (some : r <> []) (not_zero : Forall (fun w => w <> 0) r),
  complex_at s (W_arr2 [r]) = complex_at s (W_arr r).
Proof. exact one_row_2d. Qed.
Print Assumptions C143_one_row.

(** several oscillators and another number of rows: an error *)
Theorem C143_mismatch : forall s os Einf rows p q
  (class : oscillator_class s os Einf) (shape : grid rows p q) (p_pos : (0 < p)%nat) (q_pos : (0 < q)%nat)
  (other : List.length os <> p) (several : List.length os <> 1%nat) (rows_more : p <> 1%nat),
  complex_at s (W_arr2 rows) = Raise ValueError.
Proof. exact mismatch_2d. Qed.
Print Assumptions C143_mismatch.

(** a Cauchy material at 400 and 500 nm, a Lorentz oscillator at a grid, two of them at three rows *)
Example C143_example :
  ~ constant_RI (Scatterer (K_Cauchy (3 / 2) (1 / 100) 0) 658 EmptyString) /\ Forall (fun w => w <> 0) [400; 500] /\
  constant_RI (Scatterer (K_RI (RI_const (3 / 2) 0)) 658 EmptyString) /\
  (forall os Einf, ~ oscillator_class (Scatterer (K_Cauchy (3 / 2) (1 / 100) 0) 658 EmptyString) os Einf) /\
  nth_error [400; 0] 1 = Some 0 /\
  oscillator_class lor [(5, 1, 2)] 1 /\ grid [[400; 500]; [600; 700]; [800; 900]] 3 2 /\
  (forall w, w <> 0 -> exists n, sc_complex lor (Some w) = Ok (Some n)) /\
  oscillator_class (Scatterer (K_Lorentz [(5, 1, 2); (3, 1, 4)] 1) 658 EmptyString) [(5, 1, 2); (3, 1, 4)] 1.
Proof.
  split; [intros (n & k & [K|K]); discriminate|]. split; [repeat constructor; lra|].
  split; [exists (3 / 2), 0; left; reflexivity|].
  split; [intros os Einf [K|[Eg K]]; discriminate|]. split; [reflexivity|]. split; [exact lor_class|].
  split; [repeat split; repeat constructor; lra|].
  split; [intros w W; destruct (lor_finite w W) as (n & E & _); exists n; exact E|].
  left. reflexivity.
Qed.
