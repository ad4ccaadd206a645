(** * Properties of ReflectModelSE.model and plot_structure.

    [model ext t s off flip X]: externals, dtype of the wavelength column, structure,
    delta_offset, reflect flag and the points (wavelength, angle).  The result comes with the
    structure as the call leaves it. *)

Require Import Reals List Bool ZArith String Sorting.Permutation.
From Coquelicot Require Import Complex.
From Verif Require Import Base M_tmm M_disp M_struct Spec_struct P_struct2 M_model P_model P_model2.
Import ListNotations.
Open Scope list_scope.
Open Scope R_scope.

(** ** C13: batches *)
Theorem C13_batch_pointwise : forall ext s off flip X psi delta s',
  model ext DFloat s off flip X = (Ok (psi, delta), s') ->
  Forall2 (fun x pd => fst (model ext DFloat s off flip [x]) = Ok ([fst pd], [snd pd])) X (combine psi delta) /\
  List.length psi = List.length X /\ List.length delta = List.length X.
Proof. exact batch_pointwise. Qed.
Print Assumptions C13_batch_pointwise.

Theorem C13_batch_from_points : forall ext s off flip X pds,
  Forall2 (fun x pd => fst (model ext DFloat s off flip [x]) = Ok ([fst pd], [snd pd])) X pds ->
  fst (model ext DFloat s off flip X) = Ok (map fst pds, map snd pds).
Proof. exact batch_from_points. Qed.
Print Assumptions C13_batch_from_points.

Theorem C13_permutation : forall ext s off flip X X' psi delta s', Permutation X X' ->
  model ext DFloat s off flip X = (Ok (psi, delta), s') ->
  exists psi' delta' s'', model ext DFloat s off flip X' = (Ok (psi', delta'), s'') /\ s'' = s' /\
  Permutation (combine X (combine psi delta)) (combine X' (combine psi' delta')).
Proof. exact batch_permutation. Qed.
Print Assumptions C13_permutation.

Example C13_model_example : forall ext off flip,
  fst (model ext DFloat glass off flip [(633, 0); (633, 0)]) =
  Ok ([Some 45; Some 45], [Some (180 + off); Some (180 + off)]).
Proof. exact glass_batch. Qed.

(** ** C14: integer wavelengths *)
Theorem C14_integers_truncate : forall ext nan s off flip X,
  model ext (DInt nan) s off flip X =
  match model ext DFloat s off flip X with
  | (Ok (psi, delta), s') => (Ok (map (store (DInt nan)) psi, map (store (DInt nan)) delta), s')
  | (Raise e, s') => (Raise e, s')
  end.
Proof. exact int_truncates. Qed.
Print Assumptions C14_integers_truncate.

Theorem C14_dtype_irrelevant_refuted : exists s off w a, forall ext nan,
  fst (model ext DFloat s off false [(IZR w, IZR a)]) = Ok ([Some 45], [Some (180 + 1 / 2)]) /\
  fst (model ext (DInt nan) s off false [(IZR w, IZR a)]) <> fst (model ext DFloat s off false [(IZR w, IZR a)]).
Proof. exact int_differs. Qed.
Print Assumptions C14_dtype_irrelevant_refuted.

(** ** C15: structure.wavelength *)
Theorem C15_independent_of_wavelength : forall ext t s w off flip X,
  fst (model ext t (set_wavelength s w) off flip X) = fst (model ext t s off flip X) /\
  (X <> [] -> snd (model ext t (set_wavelength s w) off flip X) = snd (model ext t s off flip X)).
Proof. exact model_forgets. Qed.
Print Assumptions C15_independent_of_wavelength.

Theorem C15_wavelength_afterwards : forall ext t s off flip X r s', model ext t s off flip X = (Ok r, s') ->
  (X = [] -> s' = s) /\
  (X <> [] -> exists w a, In (w, a) X /\ (forall w' a', In (w', a') X -> w' <= w) /\ s' = set_wavelength s (Some w)).
Proof. exact model_leaves. Qed.
Print Assumptions C15_wavelength_afterwards.

Theorem C15_after_exception : forall ext t s off flip X e s', model ext t s off flip X = (Raise e, s') ->
  exists w a, In (w, a) X /\ s' = set_wavelength s (Some w).
Proof. exact model_raises. Qed.
Print Assumptions C15_after_exception.

Example C15_example : forall ext off flip,
  fst (model ext DFloat glass off flip [(633, 0)]) = Ok ([Some 45], [Some (180 + off)]).
Proof. exact glass_model. Qed.
Example C15_exception_example : forall ext t off flip x,
  fst (model ext t empty_structure off flip [x]) = Raise TypeError.
Proof. exact empty_raises. Qed.

(** ** C81: plotting *)
Theorem C81_plot : forall ext s data reverse cs s', plot_structure ext s data reverse = (Ok cs, s') ->
  Forall2 (fun w c => ri_profile ext (set_wavelength (set_reverse s reverse) (Some w)) None 0 = Ok c)
          (plotted_wavelengths data) cs /\
  st_data s' = st_data s /\ st_solvent s' = st_solvent s /\ st_contract s' = st_contract s /\
  st_ema s' = st_ema s /\ st_dep s' = st_dep s /\ st_reverse s' = false /\
  st_wavelength s' = match plotted_wavelengths data with
                     | [] => st_wavelength s
                     | ws => Some (List.last ws 0)
                     end.
Proof. exact plot_effects. Qed.
Print Assumptions C81_plot.

Theorem C81_plot_pure_refuted : exists ext s cs s',
  plot_structure ext s None false = (Ok cs, s') /\ st_reverse s = true /\ st_reverse s' = false /\
  st_wavelength s = Some 500 /\ st_wavelength s' = Some 658.
Proof. exact plot_unreverses. Qed.
Print Assumptions C81_plot_pure_refuted.
