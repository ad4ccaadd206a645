(** * Properties of the texts of the objects (C107, C108) *)

Require Import Reals List Bool String Ascii.
From Verif Require Import Base M_disp M_struct M_model M_data Spec_data M_objective Spec_objective P_objective3
  M_text Spec_text P_text M_summary P_summary.
Import ListNotations.
Open Scope list_scope.
Open Scope string_scope.

(** C107: the quotes and brackets in the repr of a slab, a mixed slab, a dataset are closed, whatever
    characters the name or the file name has. *)
Theorem C107_slabs t r ro n v i a b
    (parts : complete t /\ complete r /\ complete ro /\ complete v /\ complete i /\ complete a /\ complete b) :
  complete (slab_repr t r ro n v i) /\ complete (mixed_repr t a b v ro n i) /\
  forall f, complete (data_repr f a b).
Proof.
  exact (match parts with conj T (conj R' (conj RO (conj V (conj I' (conj A B))))) =>
    conj (slab_complete t r ro n v i T R' RO V I') (conj (mixed_complete t a b v ro n i T A B V RO I')
      (fun f => data_complete f a b A B)) end).
Qed.
Print Assumptions C107_slabs.

(** ... but every repr of a ReflectModelSE leaves its bracket open ... *)
Theorem C107_model_refuted s n o (parts : complete s /\ complete o) :
  (forall stack, lex (Some (stack, Code)) (model_repr s n o) = Some ("("%char :: stack, Code)) /\
  ~ complete (model_repr s n o).
Proof. exact (match parts with conj S' O' => conj (model_open s n o S' O') (not_complete_model s n o S' O') end). Qed.
Print Assumptions C107_model_refuted.

(** ... and so does the repr of an objective with such a model, though that of one with any model whose
    text is complete does not *)
Theorem C107_objective m d l u t x nm
    (parts : complete d /\ complete l /\ complete u /\ complete t /\ complete x /\ complete nm) :
  (complete m -> complete (objective_repr m d l u t x nm)) /\
  (forall s n o, complete s -> complete o -> m = model_repr s n o ->
     forall stack, lex (Some (stack, Code)) (objective_repr m d l u t x nm) = Some ("("%char :: stack, Code)).
Proof.
  exact (match parts with conj D (conj L (conj U (conj T (conj X N)))) =>
    conj (fun M => objective_complete m d l u t x nm M D L U T X N)
      (fun s n o S' O' (E : m = model_repr s n o) stack =>
         eq_ind_r (fun m => lex (Some (stack, Code)) (objective_repr m d l u t x nm) = Some ("("%char :: stack, Code))
           (objective_open s n o d l u t x nm S' O' D L U T X N stack) E) end).
Qed.
Print Assumptions C107_objective.

(** a slab whose name has both kinds of quotes and a bracket *)
Example C107_example :
  complete (slab_repr "Parameter(value=10.0, bounds=Interval(lb=0, ub=1))" "<scatterer>" "None" (Some awkward) "[1]" "{}") /\
  str_repr awkward = String sq (String bs (String sq (String dq (String "(" (String bs (String bs (String bs (String "n" (String sq EmptyString))))))))) /\
  model_repr "Structure()" (Some "it's") "0.0" =
    "ReflectModel(Structure(), name=" ++ String dq ("it's" ++ String dq (", delta_offset = 0.0 ")) /\
  ~ complete (model_repr "Structure()" (Some "it's") "0.0") /\ ~ complete ")(" /\ ~ complete "(]".
Proof. exact text_example. Qed.

(** str(data) tells the name and the number of points, str(scatterer) n and k (a number is printed without > or comma);
    which is which is written next to them *)
Theorem C108_tells :
  (forall name points name' points', lacks ">" points -> lacks ">" points' ->
     data_str name points = data_str name' points' -> name = name' /\ points = points') /\
  (forall n k n' k', lacks "," n -> lacks "," n' -> scatterer_str n k = scatterer_str n' k' -> n = n' /\ k = k') /\
  (forall name points, exists rest front, data_str name points = "<" ++ name ++ ">" ++ rest /\
     data_str name points = front ++ " " ++ points ++ " points") /\
  (forall n k, exists rest front, scatterer_str n k = "n: " ++ n ++ "," ++ rest /\
     scatterer_str n k = front ++ " k: " ++ k).
Proof. exact str_tells. Qed.
Print Assumptions C108_tells.

Example C108_tells_example : lacks ">" "12" /\ lacks "," "1.5" /\ data_str "a>, 3 points" "12" = "<a>, 3 points>, 12 points" /\
  scatterer_str "1.5" "0.0" = "n: 1.5, k: 0.0".
Proof. repeat split; discriminate. Qed.

Open Scope R_scope.
(** C108: str(objective) prints the chi-squared value of the parameters as they are and changes none;
    it fails exactly when chisqr() does. *)
Theorem C108_str sy o st :
  (forall q, st_store (snd (objective_str sy o st)) q = st_store st q) /\
  st_flips (snd (objective_str sy o st)) = st_flips st /\
  match fst (chisqr sy o None st) with
  | Raise e => fst (objective_str sy o st) = Raise e
  | Ok c => exists s, fst (objective_str sy o st) = Ok s /\ su_chi2 s = c /\ su_weighted s = weighted o /\
      su_datapoints s = npoints (sy_heap sy) (ob_data o) /\
      forall i p, nth_error (parameters sy o) i = Some p ->
        exists x, nth_error (su_values s) i = Some x /\ (p_constraint (sy_params sy p) = None -> x = st_store st p)
  end.
Proof. exact (str_spec sy o st). Qed.
Print Assumptions C108_str.

(** ... but the number of data points it prints counts the points that are masked out, unlike len(data) *)
Theorem C108_datapoints sy o pts m sel (data : holds (sy_heap sy) (ob_data o) pts)
    (mask : ds_mask (ob_data o) = MBool m) (unmasked : kept m pts sel) :
  npoints (sy_heap sy) (ob_data o) = List.length pts /\ ds_len (sy_heap sy) (ob_data o) = Ok (List.length sel).
Proof. exact (datapoints_all sy o pts m sel data mask unmasked). Qed.
Print Assumptions C108_datapoints.
Theorem C108_fitted_points_refuted : exists sy o pts sel X, holds (sy_heap sy) (ob_data o) pts /\ has_data sy o sel X /\
  List.length sel = 1%nat /\ npoints (sy_heap sy) (ob_data o) = 2%nat.
Proof. exact datapoints_masked. Qed.
Print Assumptions C108_fitted_points_refuted.

Example C108_example : exists st, fst (chisqr sys_g ob_g None st) = Ok (Some ((3 - 1) ^ 2)) /\
  exists s, fst (objective_str sys_g ob_g st) = Ok s /\ su_chi2 s = Some ((3 - 1) ^ 2) /\ su_datapoints s = 2%nat.
Proof. exact str_example3. Qed.
