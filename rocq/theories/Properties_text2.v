(** * The texts read back (C122) *)

Require Import List Bool String Ascii.
From Verif Require Import M_text M_signature Spec_text Spec_text2 P_text2.
Import ListNotations.
Open Scope string_scope.

(** ** C122: repr of an object is the call that constructs it *)
(** names are written as literals that denote them *)
Theorem C122_names : forall s, literal (str_repr s) = Some s.
Proof. exact literal_repr. Qed.
Print Assumptions C122_names.
Theorem C122_names_differ : forall n n', str_repr n = str_repr n' -> n = n'.
Proof. exact names_differ. Qed.
Print Assumptions C122_names_differ.

Theorem C122_slab : forall t r ro n v i,
  positional t -> positional r -> positional ro -> value_text v -> value_text i ->
  exists x, denotes_name x n /\ constructs exported (slab_repr t r ro n v i) "SlabSE"
    [("thick", t); ("ri", r); ("rough", ro); ("name", x); ("vfsolv", v); ("interface", i)].
Proof. exact slab_reads. Qed.
Print Assumptions C122_slab.
Theorem C122_mixed : forall t a b v ro n i,
  positional t -> positional a -> positional b -> positional v -> positional ro -> value_text i ->
  exists x, denotes_name x n /\ constructs exported (mixed_repr t a b v ro n i) "MixedSlabSE"
    [("thick", t); ("ri_A", a); ("ri_B", b); ("vf_B", v); ("rough", ro); ("name", x); ("interface", i)].
Proof. exact mixed_reads. Qed.
Print Assumptions C122_mixed.

(** objectives, datasets and models: never *)
Theorem C122_others_refuted :
  (forall m d l u t x nm, positional m -> positional d -> value_text l -> value_text u -> value_text t -> value_text x -> value_text nm ->
     constructs_nothing exported (objective_repr m d l u t x nm)) /\
  (forall f d m, value_text d -> value_text m -> constructs_nothing exported (data_repr f d m)) /\
  (forall s n o, value_text s -> value_text o -> constructs_nothing exported (model_repr s n o)).
Proof. exact others_construct_nothing. Qed.
Print Assumptions C122_others_refuted.
Theorem C122_mask_refuted : forall f d m, value_text d -> value_text m ->
  exists args, call_of (data_repr f d m) = Some ("Data1D", args) /\
    exists signature, In ("DataSE", signature) exported /\ ~ In "mask" signature /\ In ("mask", m) (bind signature args).
Proof. exact data_mask_unbound. Qed.
Print Assumptions C122_mask_refuted.

(** ... though for an objective only the name of the class is wrong, and for a model the bracket
    is missing as well *)
Theorem C122_objective : forall m d l u t x nm,
  positional m -> positional d -> value_text l -> value_text u -> value_text t -> value_text x -> value_text nm ->
  constructs_renamed exported (objective_repr m d l u t x nm) "Objective" "ObjectiveSE"
    [("model", m); ("data", d); ("lnsigma", l); ("use_weights", u); ("transform", t); ("logp_extra", x); ("name", nm)].
Proof. exact objective_renamed. Qed.
Print Assumptions C122_objective.
Theorem C122_model : forall s n o, positional s -> value_text o -> o <> "" ->
  exists x, denotes_name x n /\ constructs_renamed exported (model_repr s n o ++ ")") "ReflectModel" "ReflectModelSE"
    [("structure", s); ("name", x); ("delta_offset", o ++ " ")].
Proof. exact model_reads. Qed.
Print Assumptions C122_model.
(** str of a scatterer *)
Theorem C122_scatterer : forall n k, value_text n -> value_text k ->
  entries (scatterer_str n k) = Some [Some ("n", n); Some ("k", k)].
Proof. exact scatterer_entries. Qed.
Print Assumptions C122_scatterer.

Definition ex_par : string := "Parameter(value=10.0, name='a, (b', vary=False, bounds=Interval(lb=-np.inf, ub=np.inf), constraint=None)".
Definition ex_ri : string := "<refellips.dispersion.RI object at 0x7f0a>".
Example C122_parts : positional ex_par /\ positional ex_ri /\ value_text "None" /\ value_text "True".
Proof. repeat split. Qed.
Example C122_read :
  call_of (slab_repr ex_par ex_ri ex_par (Some "it's, (odd") ex_par "None") =
    Some ("SlabSE", [(None, ex_par); (None, ex_ri); (None, ex_par); (Some "name", String "034" ("it's, (odd" ++ String "034" ""));
                     (Some "vfsolv", ex_par); (Some "interface", "None")]) /\
  literal (String "034" ("it's, (odd" ++ String "034" "")) = Some "it's, (odd".
Proof. split; reflexivity. Qed.
Example C122_data : call_of (data_repr (Some "a.dat") "None" "None") = Some ("Data1D", [(Some "data", "'a.dat'"); (Some "mask", "None")]).
Proof. reflexivity. Qed.
