(** * What single statements change (C120, C121) *)

Require Import Reals List Bool String Ascii Lia.
From Verif Require Import Base M_disp M_struct M_model M_data Spec_data M_objective M_session Spec_session P_session P_session2
  Spec_effect P_effect M_life Spec_life P_life3 Spec_effect2 P_effect2.
Import ListNotations.
Open Scope list_scope.
Open Scope R_scope.

(** ** C120: statements of a session do what they say, and nothing else *)
(** a value is assigned *)
Theorem C120_value : forall ext w p v,
  execute ext w (Set_value p v) = (Ok tt, snd (execute ext w (Set_value p v))) /\
  number_set w p v (snd (execute ext w (Set_value p v))).
Proof. exact sets_value. Qed.
Print Assumptions C120_value.

(** what is read afterwards: a constraint stays in force *)
Theorem C120_value_read : forall ext w p v,
  (p < List.length (se_params w))%nat ->
  let w' := snd (execute ext w (Set_value p v)) in
  numbers w' p = v /\ (forall q, q <> p -> numbers w' q = numbers w q) /\
  (forall q, settings_of w' q = settings_of w q) /\
  (p_constraint (settings_of w p) = None -> value_of w' p = v) /\
  (forall f, p_constraint (settings_of w p) = Some f -> value_of w' p = f (numbers w')).
Proof. exact reads_value. Qed.
Print Assumptions C120_value_read.

Theorem C120_settings_of_parameter : forall ext w p q,
  execute ext w (Set_param p q) = (Ok tt, snd (execute ext w (Set_param p q))) /\
  only_params (changed p (fun x y => y = (q, snd x))) w (snd (execute ext w (Set_param p q))).
Proof. exact sets_param. Qed.
Print Assumptions C120_settings_of_parameter.

(** structures *)
Theorem C120_append : forall ext w a c,
  exists_comp w c = true -> let x := execute ext w (Append a (O_comp c)) in
  fst x = Ok tt /\ only_structs (changed a (with_data (fun d => d ++ [c]))) w (snd x) /\
  execute ext w (Ior a (O_comp c)) = x.
Proof. exact appends. Qed.
Print Assumptions C120_append.

Theorem C120_append_scatterer : forall ext w a s,
  exists_scat w s = true -> let x := execute ext w (Append a (O_scat s)) in
  let w' := snd x in let k := List.length (se_comps w) in
  fst x = Ok tt /\ (exists c, se_comps w' = se_comps w ++ [c] /\ bare_slab_of w w' s c) /\
  se_scats w' = se_scats w /\ se_models w' = se_models w /\
  changed a (with_data (fun d => d ++ [k])) (se_structs w) (se_structs w') /\
  execute ext w (Ior a (O_scat s)) = x.
Proof. exact appends_scatterer. Qed.
Print Assumptions C120_append_scatterer.

Theorem C120_join : forall ext w a b,
  exists_struct w b = true -> let x := execute ext w (Ior a (O_struct b)) in
  fst x = Ok tt /\ only_structs (changed a (with_data (fun d => d ++ so_data (struct_at w b)))) w (snd x).
Proof. exact joins. Qed.
Print Assumptions C120_join.

Theorem C120_components : forall ext w a l,
  (forall c, In c l -> exists_comp w c = true) -> let x := execute ext w (Set_data a l) in
  fst x = Ok tt /\ only_structs (changed a (with_data (fun _ => l))) w (snd x).
Proof. exact replaces. Qed.
Print Assumptions C120_components.

Theorem C120_settings : forall ext w a,
  (forall o sv, (match o with None => sv = None | Some (O_scat s) => sv = Some s /\ exists_scat w s = true | _ => False end) ->
     let x := execute ext w (Set_solvent a o) in
     fst x = Ok tt /\ only_structs (changed a (fun s s' =>
       structure_with s' (so_data s) (so_name s) sv (so_reverse s) (so_contract s) (so_wavelength s) (so_ema s) (so_dep s))) w (snd x)) /\
  (forall b, let x := execute ext w (Set_reverse a b) in
     fst x = Ok tt /\ only_structs (changed a (fun s s' =>
       structure_with s' (so_data s) (so_name s) (so_solvent s) b (so_contract s) (so_wavelength s) (so_ema s) (so_dep s))) w (snd x)) /\
  (forall v, let x := execute ext w (Set_contract a v) in
     fst x = Ok tt /\ only_structs (changed a (fun s s' =>
       structure_with s' (so_data s) (so_name s) (so_solvent s) (so_reverse s) v (so_wavelength s) (so_ema s) (so_dep s))) w (snd x)) /\
  (forall e, let x := execute ext w (Set_ema a e) in
     fst x = Ok tt /\ only_structs (changed a (fun s s' =>
       structure_with s' (so_data s) (so_name s) (so_solvent s) (so_reverse s) (so_contract s) (so_wavelength s) e (so_dep s))) w (snd x)) /\
  (forall v, let x := execute ext w (Set_dep a (VNum v)) in
     (0 <= v <= 1 -> fst x = Ok tt /\ only_structs (changed a (fun s s' =>
       structure_with s' (so_data s) (so_name s) (so_solvent s) (so_reverse s) (so_contract s) (so_wavelength s) (so_ema s) v)) w (snd x)) /\
     (~ 0 <= v <= 1 -> x = (Raise ValueError, w))).
Proof. exact sets_settings. Qed.
Print Assumptions C120_settings.

(** models *)
Theorem C120_model : forall ext w m,
  (forall a, exists_struct w a = true -> let x := execute ext w (Set_structure m (O_struct a)) in
     fst x = Ok tt /\ only_models (changed m (fun o o' =>
       mo_struct o' = a /\ mo_delta_offset o' = mo_delta_offset o /\ mo_flip o' = mo_flip o)) w (snd x)) /\
  (forall p, let x := execute ext w (Set_offset m p) in
     fst x = Ok tt /\ only_models (changed m (fun o o' =>
       mo_struct o' = mo_struct o /\ mo_delta_offset o' = p /\ mo_flip o' = mo_flip o)) w (snd x)) /\
  (forall b, let x := execute ext w (Set_flip m b) in
     fst x = Ok tt /\ only_models (changed m (fun o o' =>
       mo_struct o' = mo_struct o /\ mo_delta_offset o' = mo_delta_offset o /\ mo_flip o' = b)) w (snd x)).
Proof. exact sets_model. Qed.
Print Assumptions C120_model.

(** new objects *)
Theorem C120_new : forall ext w,
  (forall q v, let x := execute ext w (New_param q v) in
     fst x = Ok tt /\ only_params (fun l l' => l' = l ++ [(q, v)]) w (snd x)) /\
  (forall m, let x := execute ext w (New_scat m) in
     fst x = Ok tt /\ only_scats (fun l l' => exists o, l' = l ++ [o] /\ so_material o = m) w (snd x)) /\
  (forall a d, attrs_exist w a = true -> let x := execute ext w (New_comp a d) in
     fst x = Ok tt /\ only_comps (fun l l' => exists o, l' = l ++ [o] /\ co_attrs o = a /\ co_default_interface o = d) w (snd x)) /\
  (forall cs name sv r c wl e d, (forall i, In i cs -> exists_comp w i = true) -> (forall s, sv = Some s -> exists_scat w s = true) ->
     let x := execute ext w (New_struct (map O_comp cs) name (option_map O_scat sv) r c wl e d) in
     fst x = Ok tt /\ only_structs (fun l l' => exists o, l' = l ++ [o] /\ structure_with o cs name sv r c wl e d) w (snd x)) /\
  (forall a p, exists_struct w a = true -> let x := execute ext w (New_model (O_struct a) p) in
     fst x = Ok tt /\ only_models (fun l l' => exists o, l' = l ++ [o] /\ mo_struct o = a /\ mo_delta_offset o = p /\ mo_flip o = false) w (snd x)).
Proof. exact makes. Qed.
Print Assumptions C120_new.

Theorem C120_constructor : forall ext w data name r c wl e d,
  (forall x, In x data -> exists_object w x = true) ->
  let x := execute ext w (New_struct data name None r c wl e d) in
  fst x = Ok tt /\ only_structs (fun l l' => exists o cs, l' = l ++ [o] /\ structure_with o cs name None r c wl e d /\
     (forall i, In i cs <-> In (O_comp i) data)) w (snd x).
Proof. exact constructor_filters. Qed.
Print Assumptions C120_constructor.

(** attributes replaced: the list of Parameters stays as it was *)
Theorem C120_attributes : forall ext w,
  (forall c a, attrs_exist w a = true -> let x := execute ext w (Set_comp_attrs c a) in
     fst x = Ok tt /\ only_comps (changed c (fun o o' =>
       co_attrs o' = a /\ co_default_interface o' = co_default_interface o /\ co_listed o' = co_listed o)) w (snd x)) /\
  (forall s m, let x := execute ext w (Set_scat_attrs s m) in
     fst x = Ok tt /\ only_scats (changed s (fun o o' => so_material o' = m /\ so_listed o' = so_listed o)) w (snd x)).
Proof. exact replaces_attributes. Qed.
Print Assumptions C120_attributes.

(** objects of the wrong kind *)
Theorem C120_refused : forall ext w a o,
  exists_object w o = true ->
  ((forall s, o <> O_scat s) -> execute ext w (Set_solvent a (Some o)) = (Raise ValueError, w) /\
     forall data name r c wl e d, (forall x, In x data -> exists_object w x = true) ->
       execute ext w (New_struct data name (Some o) r c wl e d) = (Raise ValueError, w)) /\
  ((forall s, o <> O_scat s) -> (forall c, o <> O_comp c) -> execute ext w (Append a o) = (Raise ValueError, w) /\
     ((forall b, o <> O_struct b) -> execute ext w (Ior a o) = (Raise ValueError, w))).
Proof. exact refuses. Qed.
Print Assumptions C120_refused.

(** a model with a new structure computes what a new model with that structure computes *)
Theorem C120_model_anew : forall ext w m a X o,
  exists_struct w a = true -> nth_error (se_models w) m = Some o ->
  let w' := snd (execute ext w (Set_structure m (O_struct a))) in
  let k := List.length (se_models w) in
  let w'' := run ext w [New_model (O_struct a) (mo_delta_offset o); Set_flip k (mo_flip o)] in
  evaluation ext w' m X = evaluation ext w'' k X.
Proof. exact new_structure_for_model. Qed.
Print Assumptions C120_model_anew.

(** after s |= t the model of s computes what it computes with a new structure of the components of both *)
Theorem C120_join_anew : forall ext w m a b X s t o,
  nth_error (se_structs w) a = Some s -> nth_error (se_structs w) b = Some t ->
  (forall c, In c (so_data s ++ so_data t) -> exists_comp w c = true) ->
  (forall i, so_solvent s = Some i -> exists_scat w i = true) ->
  nth_error (se_models w) m = Some o -> mo_struct o = a ->
  let w' := snd (execute ext w (Ior a (O_struct b))) in
  let k := List.length (se_structs w) in
  let w'' := run ext w [New_struct (map O_comp (so_data s ++ so_data t)) (so_name s) (option_map O_scat (so_solvent s))
                          (so_reverse s) (so_contract s) (so_wavelength s) (so_ema s) (so_dep s);
                        Set_structure m (O_struct k)] in
  evaluation ext w' m X = evaluation ext w'' m X.
Proof. exact joined_structure. Qed.
Print Assumptions C120_join_anew.

(** the session of C100: air on glass; parameter 1 is the index of the glass *)
Example C120_example : forall ext, let w := run ext nothing build in
  (1 < List.length (se_params w))%nat /\ p_constraint (settings_of w 1%nat) = None /\ numbers w 1%nat = 3 / 2 /\
  exists_comp w 1 = true /\ exists_scat w 1 = true /\ exists_struct w 0 = true /\
  (exists s, nth_error (se_structs w) 0 = Some s /\ so_data s = [0; 1]%nat /\ so_solvent s = None /\
     forall c, In c (so_data s ++ so_data s) -> exists_comp w c = true) /\
  (exists o, nth_error (se_models w) 0 = Some o /\ mo_struct o = 0%nat) /\
  exists_object w (O_struct 0) = true.
Proof.
  intros ext. cbv zeta. repeat split; try reflexivity.
  - repeat constructor.
  - eexists. split; [reflexivity|]. repeat split. intros c H. cbn in H. decompose [or] H; subst; try reflexivity; contradiction.
  - eexists. split; reflexivity.
Qed.

(** ** C121: statements on a dataset *)
(** data = columns: as many columns are replaced as can be used; the mask changes only if all can *)
Theorem C121_assign : forall pf l d e cols k,
  let s := acts pf empty_life l in nth_error (lf_sets s) d = Some e -> usable cols k ->
  let r := act pf s (L_columns d cols) in let s' := snd r in
  (k = 4%nat -> fst r = Ok tt) /\
  (k <> 4%nat -> (nth_error cols k = None -> fst r = Raise IndexError) /\ forall x, nth_error cols k = Some (Raise x) -> fst r = Raise x) /\
  others_same d s s' /\
  exists e', nth_error (lf_sets s') d = Some e' /\ same_flags e e' /\
    (forall i c, (i < k)%nat -> nth_error cols i = Some (Ok c) -> column_of s' e' i = c) /\
    (forall i, (k <= i < 4)%nat -> column_of s' e' i = column_of s e i) /\
    (k <> 4%nat -> ds_mask (en_data e') = ds_mask (en_data e)) /\
    (k = 4%nat -> ds_mask (en_data e') = MBool (map (fun _ => true) (column_of s' e' 0))).
Proof. exact assigns. Qed.
Print Assumptions C121_assign.

Theorem C121_some_prefix : forall cols, exists k, usable cols k.
Proof. exact usable_exists. Qed.
Print Assumptions C121_some_prefix.

(** mask = m *)
Theorem C121_mask : forall pf s d e m,
  nth_error (lf_sets s) d = Some e ->
  let r := act pf s (L_mask d m) in let s' := snd r in
  fst r = Ok tt /\ others_same d s s' /\
  exists e', nth_error (lf_sets s') d = Some e' /\ same_flags e e' /\ ds_mask (en_data e') = m /\
    forall i, column_of s' e' i = column_of s e i.
Proof. exact masks. Qed.
Print Assumptions C121_mask.

(** DataSE(dataset): metadata and columns are taken over, keywords dropped *)
Theorem C121_copy : forall pf s j e delim r kwds,
  nth_error (lf_sets s) j = Some e ->
  let q := act pf s (L_new (L_copy j) delim r kwds) in let s' := snd q in
  fst q = Ok tt /\ exists e', lf_sets s' = lf_sets s ++ [e'] /\ en_metadata e' = en_metadata e /\
    (forall i, address (en_data e') i = address (en_data e) i) /\ ds_file (en_data e') = ds_file (en_data e) /\
    ds_flipped (en_data e') = r /\ ds_delim (en_data e') = delim.
Proof. exact copies. Qed.
Print Assumptions C121_copy.

(** DataSE((wav, aoi, psi, delta)) does not copy the arrays *)
Theorem C121_arrays_shared : forall pf l w a p x delim kwds aw aa ap ax i v,
  let s := acts pf empty_life l in
  nth_error (lf_user s) w = Some aw -> nth_error (lf_user s) a = Some aa ->
  nth_error (lf_user s) p = Some ap -> nth_error (lf_user s) x = Some ax ->
  (i < List.length (arr (lf_heap s) ap))%nat ->
  let s1 := snd (act pf s (L_new (L_arrays w a p x) delim false kwds)) in
  let s2 := snd (act pf s1 (L_write p i v)) in
  exists e, lf_sets s1 = lf_sets s ++ [e] /\ lf_sets s2 = lf_sets s1 /\ en_metadata e = kwds /\
    (forall k, column_of s1 e k = arr (lf_heap s) (nth k [aw; aa; ap; ax] aw)) /\
    nth_error (column_of s2 e 2) i = Some v /\
    (forall j, j <> i -> nth_error (column_of s2 e 2) j = nth_error (column_of s1 e 2) j).
Proof. exact shares. Qed.
Print Assumptions C121_arrays_shared.

(** a dataset with two columns assigned, a third that is no numbers, and none *)
Example C121_example : forall pf, let s := acts pf empty_life (made false []) in
  (exists e, nth_error (lf_sets s) 0 = Some e) /\
  usable [Ok (two 1 2); Ok (two 3 4); Raise ValueError; Ok (two 5 6)] 2 /\
  usable [Ok (two 1 2); Ok (two 3 4); Ok (two 5 6)] 3 /\
  usable [Ok (two 1 2); Ok (two 3 4); Ok (two 5 6); Ok (two 7 8)] 4 /\
  (exists aw aa ap ax, nth_error (lf_user s) 0 = Some aw /\ nth_error (lf_user s) 1 = Some aa /\ nth_error (lf_user s) 2 = Some ap /\
     nth_error (lf_user s) 3 = Some ax /\ (1 < List.length (arr (lf_heap s) ap))%nat).
Proof.
  intros pf. cbv zeta. split; [eexists; reflexivity|].
  split; [|split; [|split]].
  - split; [repeat constructor|]. split; [|right; right; eexists; reflexivity].
    intros [|[|i]] H; [eexists; reflexivity|eexists; reflexivity|]. exfalso; lia.
  - split; [repeat constructor|]. split; [|right; left; reflexivity].
    intros [|[|[|i]]] H; [eexists; reflexivity|eexists; reflexivity|eexists; reflexivity|]. exfalso; lia.
  - split; [repeat constructor|]. split; [|left; reflexivity].
    intros [|[|[|[|i]]]] H; [eexists; reflexivity|eexists; reflexivity|eexists; reflexivity|eexists; reflexivity|].
    exfalso; lia.
  - do 4 eexists. repeat split; try reflexivity. cbn. repeat constructor.
Qed.
