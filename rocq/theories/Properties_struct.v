(** * Properties of structures (structureSE.py 144-855).

    Statements only; proofs in P_struct, P_struct2.  Vocabulary in Spec_struct: [rows_of s c rs]
    the rows component c contributes, [in_order] the row order asked for, [reversed_table],
    [solvated], [solvent_index], [operand], [depth], [aligned_slab]. *)

Require Import Reals List Bool ZArith String.
From Coquelicot Require Import Complex.
From Verif Require Import Base M_ema Spec_ema M_disp M_struct Spec_struct P_struct P_struct2.
Import ListNotations.
Open Scope list_scope.
Open Scope R_scope.

(** ** C39: depolarisation factor *)
Theorem C39_setter : forall s v,
  (fst (set_depolarisation s v) = Ok tt <-> exists x, v = VNum x /\ 0 <= x <= 1) /\
  (forall x, v = VNum x -> 0 <= x <= 1 ->
     snd (set_depolarisation s v) =
     Structure (st_data s) (st_name s) (st_solvent s) (st_reverse s) (st_contract s) (st_wavelength s) (st_ema s) x) /\
  (fst (set_depolarisation s v) <> Ok tt -> snd (set_depolarisation s v) = s /\
     (fst (set_depolarisation s v) = Raise ValueError \/ exists e, v = VBad e)).
Proof. exact set_dep_spec. Qed.
Print Assumptions C39_setter.

Theorem C39_history : forall vs s, st_dep (assign_all s vs) = st_dep s \/ 0 <= st_dep (assign_all s vs) <= 1.
Proof. exact dep_history. Qed.
Print Assumptions C39_history.

(** the constructor does not check *)
Theorem C39_constructor_refuted : exists comps name solvent reverse contract wl ema dep,
  ~ 0 <= st_dep (new_structure comps name solvent reverse contract wl ema dep) <= 1.
Proof. exact ctor_unchecked. Qed.
Print Assumptions C39_constructor_refuted.

(** ** C40: the slab table *)
Theorem C40_table : forall ext s kw base, slab_ends (st_data s) ->
  Forall (fun c => c_default_interface c = true) (st_data s) -> st_contract s <= 0 ->
  st_reverse s = false ->
  Forall2 (rows_of (with_wavelength s kw)) (st_data s) base ->
  ~ some_solvated (List.concat base) ->
  structure_slabs ext s kw = (Ok (Some (List.concat base)), with_wavelength s kw).
Proof. exact slabs_forward. Qed.
Print Assumptions C40_table.

Theorem C40_one_row_each : forall ext s kw rows, slab_ends (st_data s) ->
  Forall (fun c => c_default_interface c = true) (st_data s) -> st_contract s <= 0 ->
  st_reverse s = false ->
  Forall2 (fun c r => rows_of (with_wavelength s kw) c [r]) (st_data s) rows -> ~ some_solvated rows ->
  structure_slabs ext s kw = (Ok (Some rows), with_wavelength s kw).
Proof. exact slabs_one_each. Qed.
Print Assumptions C40_one_row_each.

Theorem C40_empty : forall ext s kw, st_data s = [] -> structure_slabs ext s kw = (Ok None, s).
Proof. exact slabs_empty. Qed.
Print Assumptions C40_empty.

Theorem C40_bad_ends : forall ext s kw, st_data s <> [] -> ~ slab_ends (st_data s) ->
  structure_slabs ext s kw = (Raise ValueError, s).
Proof. exact slabs_bad_ends. Qed.
Print Assumptions C40_bad_ends.

Theorem C40_index_error : forall ext s kw pre c post base e,
  st_data s = pre ++ c :: post -> slab_ends (st_data s) ->
  Forall (fun c => c_default_interface c = true) (st_data s) ->
  Forall2 (rows_of (with_wavelength s kw)) pre base ->
  component_slabs (view (with_wavelength s kw)) c = Raise e ->
  structure_slabs ext s kw = (Raise e, with_wavelength s kw).
Proof. exact slabs_raise. Qed.
Print Assumptions C40_index_error.

Example C40_example : forall ext,
  structure_slabs ext three None = (Ok (Some three_rows), three).
Proof. exact three_slabs. Qed.

Example C40_bad_ends_example : exists c,
  st_data (simple [layer_c 0 1 0 0 0; c] false "linear") <> [] /\
  ~ slab_ends (st_data (simple [layer_c 0 1 0 0 0; c] false "linear")).
Proof. exact bad_ends_instance. Qed.

(** ** C41: reversal *)
Theorem C41_reversed : forall ext s kw base tbl, slab_ends (st_data s) ->
  Forall (fun c => c_default_interface c = true) (st_data s) -> st_contract s <= 0 ->
  st_reverse s = true ->
  Forall2 (rows_of (with_wavelength s kw)) (st_data s) base ->
  reversed_table (List.concat base) tbl -> ~ some_solvated tbl ->
  structure_slabs ext s kw = (Ok (Some tbl), with_wavelength s kw).
Proof. exact slabs_backward. Qed.
Print Assumptions C41_reversed.

(** the reversed table exists and is unique *)
Theorem C41_exists_unique : forall a, exists b, reversed_table a b /\ forall c, reversed_table a c -> c = b.
Proof. exact reversed_exists_unique. Qed.
Print Assumptions C41_exists_unique.

Theorem C41_twice : forall a b c, reversed_table a b -> reversed_table b c ->
  List.length c = List.length a /\
  (forall i, (0 < i < List.length a)%nat -> nth i c row0 = nth i a row0) /\
  s_thick (nth 0 c row0) = s_thick (nth 0 a row0) /\ s_ri (nth 0 c row0) = s_ri (nth 0 a row0) /\
  s_vf (nth 0 c row0) = s_vf (nth 0 a row0) /\ s_rough (nth 0 c row0) = 0.
Proof. exact reversed_twice. Qed.
Print Assumptions C41_twice.

Example C41_example : reversed_table gold_rows gold_reversed.
Proof. exact gold_reversed_ok. Qed.

(** ** C42: solvation *)
Theorem C42_solvated : forall ext s kw base tbl y, slab_ends (st_data s) ->
  Forall (fun c => c_default_interface c = true) (st_data s) -> st_contract s <= 0 ->
  Forall2 (rows_of (with_wavelength s kw)) (st_data s) base ->
  in_order s (List.concat base) tbl -> some_solvated tbl ->
  solvent_index (with_wavelength s kw) tbl (Some y) ->
  st_ema s = "linear"%string \/ st_ema s = "maxwell-garnett"%string \/ st_ema s = "bruggeman"%string ->
  exists rows, structure_slabs ext s kw = (Ok (Some rows), with_wavelength s kw) /\
               solvated (with_wavelength s kw) tbl y rows.
Proof. exact slabs_solvated. Qed.
Print Assumptions C42_solvated.

Theorem C42_no_fraction : forall ext s kw base tbl, slab_ends (st_data s) ->
  Forall (fun c => c_default_interface c = true) (st_data s) -> st_contract s <= 0 ->
  Forall2 (rows_of (with_wavelength s kw)) (st_data s) base ->
  in_order s (List.concat base) tbl -> ~ some_solvated tbl ->
  structure_slabs ext s kw = (Ok (Some tbl), with_wavelength s kw).
Proof. exact slabs_plain. Qed.
Print Assumptions C42_no_fraction.

Theorem C42_unknown_rule : forall ext s kw base tbl v, slab_ends (st_data s) ->
  Forall (fun c => c_default_interface c = true) (st_data s) -> st_contract s <= 0 ->
  Forall2 (rows_of (with_wavelength s kw)) (st_data s) base ->
  in_order s (List.concat base) tbl -> some_solvated tbl ->
  solvent_index (with_wavelength s kw) tbl v ->
  ~ (st_ema s = "linear"%string \/ st_ema s = "maxwell-garnett"%string \/ st_ema s = "bruggeman"%string) ->
  structure_slabs ext s kw = (Raise RuntimeError, with_wavelength s kw).
Proof. exact slabs_unknown_ema. Qed.
Print Assumptions C42_unknown_rule.

Theorem C42_solvent_error : forall ext s kw base tbl sc e, slab_ends (st_data s) ->
  Forall (fun c => c_default_interface c = true) (st_data s) -> st_contract s <= 0 ->
  Forall2 (rows_of (with_wavelength s kw)) (st_data s) base ->
  in_order s (List.concat base) tbl -> some_solvated tbl ->
  st_solvent s = Some sc -> sc_complex sc (st_wavelength (with_wavelength s kw)) = Raise e ->
  structure_slabs ext s kw = (Raise e, with_wavelength s kw).
Proof. exact slabs_solvent_raises. Qed.
Print Assumptions C42_solvent_error.

Example C42_example : forall kw,
  slab_ends (st_data (simple gold_stack true "linear")) /\
  Forall (fun c => c_default_interface c = true) (st_data (simple gold_stack true "linear")) /\
  st_contract (simple gold_stack true "linear") <= 0 /\
  Forall2 (rows_of (with_wavelength (simple gold_stack true "linear") kw)) gold_stack (map (fun r => [r]) gold_rows) /\
  in_order (simple gold_stack true "linear") (List.concat (map (fun r => [r]) gold_rows)) gold_reversed /\
  some_solvated gold_reversed /\
  solvent_index (with_wavelength (simple gold_stack true "linear") kw) gold_reversed (Some (RtoC 1)).
Proof. exact gold_instance. Qed.

(** ** C43: layers without solvent *)
Theorem C43_unsolvated_layer : forall s tbl y rows i n,
  solvated s tbl y rows -> (0 < i < List.length tbl - 1)%nat ->
  s_vf (nth i tbl row0) = 0 -> s_ri (nth i tbl row0) = Some n -> right_half n ->
  (st_ema s = "linear"%string \/
   st_ema s = "maxwell-garnett"%string /\ mg_bottom (n * n)%C (y * y)%C 0 (st_dep s) <> RtoC 0 \/
   st_ema s = "bruggeman"%string /\ st_dep s <> 1 /\ right_half (weighted (n * n)%C (y * y)%C (st_dep s))) ->
  nth i rows row0 = nth i tbl row0.
Proof. exact zero_fraction. Qed.
Print Assumptions C43_unsolvated_layer.

(** with a metal the Bruggeman rule returns an index that belongs to the solvent *)
Theorem C43_metal : forall s tbl y rows i n,
  solvated s tbl y rows -> (0 < i < List.length tbl - 1)%nat ->
  s_vf (nth i tbl row0) = 0 -> s_ri (nth i tbl row0) = Some n ->
  st_ema s = "bruggeman"%string -> st_dep s <> 1 -> Re (weighted (n * n)%C (y * y)%C (st_dep s)) < 0 ->
  exists m, s_ri (nth i rows row0) = Some m /\
            (m * m)%C = (RtoC (- st_dep s / (1 - st_dep s)) * (y * y))%C.
Proof. exact zero_fraction_metal. Qed.
Print Assumptions C43_metal.

Theorem C43_bruggeman_refuted : exists s, forall ext, exists rows m,
  structure_slabs ext s None = (Ok (Some rows), s) /\
  rows_of s (nth 1 (st_data s) (layer_c 0 0 0 0 0)) [mkSlab 250 (Some (15/100, 33/10)) 2 0] /\
  s_ri (nth 1 rows row0) = Some m /\ m <> (15/100, 33/10).
Proof. exact gold_refutes. Qed.
Print Assumptions C43_bruggeman_refuted.

(** ** C44: the [|] operator; [w] is the world of structures, which only grows *)
Theorem C44_or : forall w x y cx cy, operand w x cx -> operand w y cy ->
  exists s, or_ w x y = (Ok (List.length w), w ++ [s]) /\ st_data s = cx ++ cy /\ default_settings s.
Proof. exact or_full. Qed.
Print Assumptions C44_or.

Theorem C44_or_invalid : forall w x cx, operand w x cx -> or_ w x POther = (Raise ValueError, w).
Proof. exact or_bad. Qed.
Print Assumptions C44_or_invalid.

Theorem C44_associative : forall w x y z cx cy cz a w1 p w2 b v1 q v2,
  operand w x cx -> operand w y cy -> operand w z cz ->
  or_ w x y = (Ok a, w1) -> or_ w1 (PStruct a) z = (Ok p, w2) ->
  or_ w y z = (Ok b, v1) -> or_ v1 x (PStruct b) = (Ok q, v2) ->
  exists s s', nth_error w2 p = Some s /\ nth_error v2 q = Some s' /\
    st_data s = cx ++ cy ++ cz /\ st_data s' = cx ++ cy ++ cz.
Proof. exact or_assoc. Qed.
Print Assumptions C44_associative.

Theorem C44_chain : forall ys w x cx cys, operand w x cx -> Forall2 (operand w) ys cys ->
  exists o w', or_chain w x ys = (Ok o, w ++ w') /\ operand (w ++ w') o (cx ++ List.concat cys).
Proof. exact chain_spec. Qed.
Print Assumptions C44_chain.

(** in place: the left operand grows, keeping its settings; nothing else changes *)
Theorem C44_in_place : forall w a s o cs, nth_error w a = Some s -> operand w o cs ->
  exists w', ior w a o = (Ok tt, w') /\ List.length w' = List.length w /\
    (exists s', nth_error w' a = Some s' /\ st_data s' = st_data s ++ cs /\ same_settings s' s /\ st_name s' = st_name s) /\
    (forall b, b <> a -> nth_error w' b = nth_error w b).
Proof. exact ior_frame. Qed.
Print Assumptions C44_in_place.

Example C44_example : exists s,
  operand [three] (PStruct 0) (st_data three) /\ operand [three] (PScat (const 1 0)) [zero_slab (const 1 0)] /\
  or_ [three] (PStruct 0) (PScat (const 1 0)) = (Ok 1%nat, [three; s]) /\ List.length (st_data s) = 4%nat.
Proof. exact or_instance. Qed.

(** ** C45: settings *)
Theorem C45_copy : forall s,
  st_data (copy_structure s) = st_data s /\ st_name (copy_structure s) = st_name s /\
  st_solvent (copy_structure s) = st_solvent s /\
  (same_settings (copy_structure s) s <->
   st_reverse s = false /\ st_contract s = 0 /\ st_wavelength s = None /\ st_ema s = "linear"%string /\ st_dep s = 1 / 3).
Proof. exact copy_keeps. Qed.
Print Assumptions C45_copy.

Theorem C45_settings_kept_refuted : exists w a y b w' s s',
  nth_error w a = Some s /\ or_ w (PStruct a) y = (Ok b, w') /\ nth_error w' b = Some s' /\
  ~ same_settings s' s /\ ~ same_settings (copy_structure s) s.
Proof. exact settings_lost. Qed.
Print Assumptions C45_settings_kept_refuted.

(** ** C46: repetition *)
Theorem C46_repeat : forall w c n,
  ((n < 1)%Z -> mul_component w c n = (PStruct (List.length w), w ++ [empty_structure])) /\
  (n = 1%Z -> mul_component w c n = (PComp c, w)) /\
  ((2 <= n)%Z -> exists s, mul_component w c n = (PStruct (List.length w), w ++ [s]) /\
     List.length (st_data s) = Z.to_nat n /\ Forall (eq c) (st_data s) /\ default_settings s).
Proof. exact mul_full. Qed.
Print Assumptions C46_repeat.

(** ** C47: constructor and append *)
Theorem C47_constructor_append : forall w l name solvent reverse contract wl ema dep,
  append_all (w ++ [new_structure [] name solvent reverse contract wl ema dep]) (List.length w) l =
    (Ok tt, w ++ [new_structure l name solvent reverse contract wl ema dep]) <->
  Forall (fun o => exists c, o = PComp c) l.
Proof. exact ctor_append_agree. Qed.
Print Assumptions C47_constructor_append.

(** the constructor keeps exactly the components, in order *)
Theorem C47_constructor_filters : forall l name solvent reverse contract wl ema dep,
  exists keep, st_data (new_structure l name solvent reverse contract wl ema dep) = keep /\
    (forall c, In (PComp c) l <-> In c keep) /\
    subsequence (map PComp keep) l /\
    List.length keep = count_components l.
Proof. exact ctor_filters. Qed.
Print Assumptions C47_constructor_filters.

(** ** C48: alignment of profiles *)
Theorem C48_align : forall ext s z align rows, fst (structure_slabs ext s None) = Ok (Some rows) ->
  (2 <= List.length rows)%nat ->
  (align = 0%Z -> ri_profile ext s z align = Ok (x_profile ext rows z)) /\
  ((align <> 0)%Z -> (- Z.of_nat (List.length rows) <= align < Z.of_nat (List.length rows) - 1)%Z ->
     ri_profile ext s z align =
     Ok (map (fun x => x - depth rows (aligned_slab (List.length rows) align)) (fst (x_profile ext rows z)),
         snd (x_profile ext rows z))) /\
  ((align <> 0)%Z -> ~ (- Z.of_nat (List.length rows) <= align < Z.of_nat (List.length rows) - 1)%Z ->
     ri_profile ext s z align = Raise RuntimeError).
Proof. exact ri_profile_align. Qed.
Print Assumptions C48_align.

Theorem C48_invalid : forall ext s z align,
  (st_data s = [] -> ri_profile ext s z align = Raise ValueError) /\
  (~ slab_ends (st_data s) -> ri_profile ext s z align = Raise ValueError) /\
  (forall rows, fst (structure_slabs ext s None) = Ok (Some rows) -> (List.length rows < 2)%nat ->
     ri_profile ext s z align = Raise ValueError).
Proof. exact ri_profile_invalid. Qed.
Print Assumptions C48_invalid.

Example C48_example : fst (structure_slabs no_ext three None) = Ok (Some three_rows) /\
  aligned_slab 3 (-1) = 2%nat /\ depth three_rows 2 = 250 /\ aligned_slab 3 1 = 2%nat.
Proof. exact three_align. Qed.

(** ** C83: an undefined index should stay visible *)
Theorem C83_nan_kept : forall s tbl y rows i,
  solvated s tbl y rows -> (0 < i < List.length tbl - 1)%nat -> s_ri (nth i tbl row0) = None ->
  (s_ri (nth i rows row0) = None <-> st_ema s <> "bruggeman"%string).
Proof. exact nan_kept. Qed.
Print Assumptions C83_nan_kept.

Theorem C83_nan_hidden_refuted : exists s w, forall ext, exists rows,
  structure_slabs ext s (Some w) = (Ok (Some rows), with_wavelength s (Some w)) /\
  rows_of (with_wavelength s (Some w)) (nth 1 (st_data s) (layer_c 0 0 0 0 0)) [mkSlab 250 None 2 0] /\
  s_ri (nth 1 rows row0) = Some (RtoC 0).
Proof. exact nan_refutes. Qed.
Print Assumptions C83_nan_hidden_refuted.
