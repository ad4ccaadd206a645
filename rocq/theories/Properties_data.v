(** * Properties of DataSE.

    [holds h d pts]: in the heap [h] the object [d] stores the points [pts], masked ones
    included.  [kept m l r]: [r] is what the boolean mask [m] selects from [l], in order. *)

Require Import Reals List Bool String Ascii Sorting.Sorted Sorting.Permutation.
From Verif Require Import Base M_disp M_data Spec_data P_data P_copy.
Import ListNotations.
Open Scope list_scope.
Open Scope R_scope.

(** ** C63: masking *)
Theorem C63_getters : forall h d pts m sel,
  holds h d pts -> ds_mask d = MBool m -> kept m pts sel ->
  get_wavelength h d = Ok (A1 (map p_wav sel)) /\ get_aoi h d = Ok (A1 (map p_aoi sel)) /\
  get_psi h d = Ok (A1 (map p_psi sel)) /\ get_delta h d = Ok (A1 (map p_delta sel)) /\
  get_data h d = Ok (columns sel) /\ ds_len h d = Ok (List.length sel).
Proof. exact getters. Qed.
Print Assumptions C63_getters.

Theorem C63_all_true : forall h d pts, holds h d pts -> ds_mask d = MBool (map (fun _ => true) pts) ->
  get_data h d = Ok (columns pts) /\ ds_len h d = Ok (List.length pts).
Proof. exact getters_all. Qed.
Print Assumptions C63_all_true.

Theorem C63_wrong_length_raises : forall h d pts m, holds h d pts -> pts <> [] -> ds_mask d = MBool m ->
  List.length m <> List.length pts -> get_data h d = Raise IndexError /\ ds_len h d = Raise IndexError.
Proof. exact bad_mask. Qed.
Print Assumptions C63_wrong_length_raises.

(** [update h' a f] is any later in-place change of an array that existed before the call *)
Theorem C63_setter : forall h d pts,
  let '(d', h') := set_data_columns h d (map p_wav pts) (map p_aoi pts) (map p_psi pts) (map p_delta pts) in
  get_data h' d' = Ok (columns pts) /\ ds_len h' d' = Ok (List.length pts) /\
  ds_flipped d' = ds_flipped d /\
  (forall a, (a < List.length h)%nat -> nth_error h' a = nth_error h a /\
     forall f, get_data (update h' a f) d' = Ok (columns pts)).
Proof. exact setter. Qed.
Print Assumptions C63_setter.

Example C63_example : holds heap1 set1 [pt1 1; pt1 2; pt1 3] /\ ds_mask set1 = MBool [true; false; true] /\
  kept [true; false; true] [pt1 1; pt1 2; pt1 3] [pt1 1; pt1 3].
Proof. exact (conj set1_holds (conj eq_refl set1_kept)). Qed.

(** ** C64: mask = None does not clear the mask *)
Theorem C64_none_adds_an_axis : forall h d pts, holds h d pts -> pts <> [] -> ds_mask d = MNone ->
  get_data h d = Ok (A2 [map p_wav pts], A2 [map p_aoi pts], A2 [map p_psi pts], A2 [map p_delta pts]).
Proof. exact none_mask. Qed.
Print Assumptions C64_none_adds_an_axis.

Theorem C64_none_clears_refuted : exists h d pts, holds h d pts /\ List.length pts = 3%nat /\ ds_mask d = MNone /\
  get_wavelength h d = Ok (A2 [map p_wav pts]).
Proof. exact mask_none_two_d. Qed.
Print Assumptions C64_none_clears_refuted.

(** ** C65: unique_wavelength_data.  [gs] are the groups: wavelength and points *)
Theorem C65_partition : forall h d pts m sel, holds h d pts -> ds_mask d = MBool m -> kept m pts sel ->
  (forall x, In x sel -> p_wav x <> None) ->
  exists gs : list (R * list point),
    unique_wavelength_data h d =
      Ok (map (fun g => (Some (fst g), map p_aoi (snd g), map p_psi (snd g), map p_delta (snd g))) gs) /\
    StronglySorted Rlt (map fst gs) /\
    Permutation (flat_map snd gs) sel /\
    Forall (fun g => snd g <> [] /\ Forall (fun x => p_wav x = Some (fst g)) (snd g) /\
                     exists m, kept m sel (snd g)) gs.
Proof. exact unique_partition. Qed.
Print Assumptions C65_partition.

Example C65_example : unique_wavelength_data
    [[Some 500; Some 400; Some 500]; [Some 50; Some 60; Some 70]; [Some 1; Some 2; Some 3]; [Some 4; Some 5; Some 6]]
    (DataSE 0 1 2 3 (MBool [true; true; true]) false false None tab) =
  Ok [(Some 400, [Some 60], [Some 2], [Some 5]);
      (Some 500, [Some 50; Some 70], [Some 1; Some 3], [Some 4; Some 6])].
Proof. exact two_groups. Qed.

(** ** C66: save then load.  [pr] prints a number, [pf] parses one *)
Theorem C66_save_load : forall pf pr h d pts h0 d0, holds h d pts -> (2 <= List.length pts)%nat ->
  Forall (point_survives pf pr) pts -> pf "# wavelength"%string = None -> ds_delim d0 = tab ->
  exists lines, save pr h d = Ok lines /\
  exists d' h', load pf h0 d0 (ByName lines) = Ok (d', h') /\ holds h' d' pts /\ ds_mask d' = ds_mask d0.
Proof. exact save_load. Qed.
Print Assumptions C66_save_load.

Theorem C66_mask_not_saved : forall pr h d m, save pr h (with_mask d m) = save pr h d.
Proof. exact save_ignores_mask. Qed.
Print Assumptions C66_mask_not_saved.

Example C66_example : holds heap1 set1 [pt1 1; pt1 2; pt1 3] /\
  Forall (point_survives digit print1) [pt1 1; pt1 2; pt1 3] /\ digit "# wavelength"%string = None /\
  ds_delim blank1 = tab.
Proof. exact (conj set1_holds (conj survive_pts (conj eq_refl eq_refl))). Qed.

(** ** C67: header detection *)
Theorem C67_header_skipped : forall pf h d hdr lines pts, ds_delim d <> "#"%char ->
  Forall (fun l => ~ starts_with_number pf (ds_delim d) l) hdr -> (List.length hdr < 100)%nat ->
  Forall2 (data_line pf (ds_delim d)) lines pts -> (2 <= List.length pts)%nat ->
  exists d' h', load pf h d (ByName (hdr ++ lines)) = Ok (d', h') /\ holds h' d' pts /\
    ds_mask d' = ds_mask d /\ ds_flipped d' = ds_flipped d /\
    (forall a, (a < List.length h)%nat -> nth_error h' a = nth_error h a).
Proof. exact load_by_name. Qed.
Print Assumptions C67_header_skipped.

Theorem C67_header_irrelevant : forall pf h d hdr r rest,
  Forall (fun l => ~ starts_with_number pf (ds_delim d) l) hdr -> (List.length hdr < 100)%nat ->
  starts_with_number pf (ds_delim d) r ->
  load pf h d (ByName (hdr ++ r :: rest)) = load pf h d (ByName (r :: rest)).
Proof. exact (fun pf h d hdr r rest a b c => proj1 (load_general pf h d hdr r rest a b c)). Qed.
Print Assumptions C67_header_irrelevant.

Theorem C67_hundred_lines : forall pf h d hdr l rest, List.length hdr = 100%nat ->
  Forall (fun l => ~ starts_with_number pf (ds_delim d) l) hdr ->
  ~ starts_with_number pf (ds_delim d) l -> strip_comment l = l -> l <> EmptyString ->
  load pf h d (ByName (hdr ++ l :: rest)) = Raise ValueError.
Proof. exact load_long_header. Qed.
Print Assumptions C67_hundred_lines.

Example C67_example :
  load digit [] blank1 (ByName text1) =
  Ok (let c := map (fun n => Some (INR n)) [1;2;3;4;5]%nat in set_columns [] blank1 c c c c (MBool [])).
Proof. exact load_text1. Qed.

(** ** C68: loading through a handle *)
Theorem C68_handle_loses_rows : forall pf h d hdr r rest,
  Forall (fun l => ~ starts_with_number pf (ds_delim d) l) hdr -> (List.length hdr < 100)%nat ->
  starts_with_number pf (ds_delim d) r ->
  load pf h d (ByHandle (hdr ++ r :: rest)) =
    rbind (rbind (loadtxt pf (ds_delim d) 0 (skipn (List.length hdr) rest)) unpack4)
          (fun '(w, a, p, x) => Ok (set_columns h d w a p x (ds_mask d))).
Proof. exact (fun pf h d hdr r rest a b c => proj2 (load_general pf h d hdr r rest a b c)). Qed.
Print Assumptions C68_handle_loses_rows.

Theorem C68_handle_same_data_refuted : exists pf h d lines d1 h1 d2 h2,
  load pf h d (ByName lines) = Ok (d1, h1) /\ load pf h d (ByHandle lines) = Ok (d2, h2) /\
  holds h1 d1 (map pt1 [1; 2; 3; 4; 5]%nat) /\ holds h2 d2 (map pt1 [3; 4; 5]%nat).
Proof. exact handle_differs. Qed.
Print Assumptions C68_handle_same_data_refuted.

Theorem C68_refresh_keeps_flags : forall pf h d content name d' h', ds_file d = Some name ->
  refresh pf OpenRead h d content = (Ok (d', h'), content) ->
  load pf h d (ByHandle content) = Ok (d', h') /\ ds_mask d' = ds_mask d /\ ds_flipped d' = ds_flipped d.
Proof. exact refresh_read. Qed.
Print Assumptions C68_refresh_keeps_flags.

Theorem C68_refresh_consistent_refuted : exists pf name content d h d' h',
  new_dataset pf [] tab (FromFile name content) true = Ok (d, h) /\ ds_flipped d = true /\
  get_delta h d = Ok (A1 [Some 1; Some 90; Some 90; Some 90]) /\
  refresh pf OpenRead h d content = (Ok (d', h'), content) /\ ds_flipped d' = true /\
  arr h' (ds_delta d') = [Some 270; Some 270; Some 270] /\
  get_delta h' d' = Raise IndexError.
Proof. exact refresh_unfolds. Qed.
Print Assumptions C68_refresh_consistent_refuted.

Theorem C68_write_mode_truncates : forall pf h d content name, ds_file d = Some name ->
  refresh pf OpenWrite h d content = (Raise OtherError, []).
Proof. exact refresh_write. Qed.
Print Assumptions C68_write_mode_truncates.

(** ** C69: reflect_delta *)
Theorem C69_reflection : forall pf h delim w a p x pts refl,
  holds h (DataSE w a p x (MBool []) false false None delim) pts ->
  ~ In x [w; a; p] ->
  exists d h', new_dataset pf h delim (FromArrays w a p x) refl = Ok (d, h') /\
    ds_flipped d = refl /\ ds_mask d = MBool (map (fun _ => true) pts) /\
    (refl = true -> exists pts', Forall2 folded_point pts pts' /\ holds h' d pts' /\ get_data h' d = Ok (columns pts')) /\
    (refl = false -> h' = h /\ holds h' d pts).
Proof. exact from_arrays. Qed.
Print Assumptions C69_reflection.

Theorem C69_folding : forall x y, folded (Some x) (Some y) -> 0 <= x <= 360 ->
  0 <= y <= 180 /\ cos (y * (PI / 180)) = cos (x * (PI / 180)) /\ folded (Some y) (Some y).
Proof. exact fold_facts. Qed.
Print Assumptions C69_folding.

Example C69_example : forall delim,
  holds heap1 (DataSE 0 1 2 3 (MBool []) false false None delim) [pt1 1; pt1 2; pt1 3] /\ ~ In 3%nat [0; 1; 2]%nat.
Proof. exact heap1_holds. Qed.

(** ** C70: aliasing *)
Theorem C70_copy_folds_original : forall pf h delim d pts m sel, holds h d pts ->
  ~ In (ds_delta d) [ds_wav d; ds_aoi d; ds_psi d] -> ds_mask d = MBool m -> kept m pts sel ->
  exists d' h', new_dataset pf h delim (FromDataSE d) true = Ok (d', h') /\
    get_data h d = Ok (columns sel) /\
    exists sel', Forall2 folded_point sel sel' /\ get_data h' d = Ok (columns sel').
Proof. exact copy_folds_original. Qed.
Print Assumptions C70_copy_folds_original.

(** a copy follows the file of the original: refresh reads the same four columns into both *)
Theorem C70_copy_refreshes : forall pf h d refl d' h' content, new_dataset pf h (ds_delim d) (FromDataSE d) refl = Ok (d', h') -> ds_file d <> None ->
  (forall e, fst (refresh pf OpenRead h' d' content) = Raise e <-> fst (refresh pf OpenRead h' d content) = Raise e) /\
  (forall d1 h1 d2 h2, fst (refresh pf OpenRead h' d' content) = Ok (d1, h1) -> fst (refresh pf OpenRead h' d content) = Ok (d2, h2) ->
     (arr h1 (ds_wav d1), arr h1 (ds_aoi d1), arr h1 (ds_psi d1), arr h1 (ds_delta d1)) =
     (arr h2 (ds_wav d2), arr h2 (ds_aoi d2), arr h2 (ds_psi d2), arr h2 (ds_delta d2))).
Proof. exact copy_refreshes. Qed.
Print Assumptions C70_copy_refreshes.
Example C70_copy_example : exists pf h d d' h' content r, new_dataset pf h (ds_delim d) (FromDataSE d) false = Ok (d', h') /\ ds_file d <> None /\
  fst (refresh pf OpenRead h' d content) = Ok r.
Proof. exact copy_example. Qed.

Theorem C70_no_alias_refuted : exists h d d' h' pf, get_delta h d = Ok (A1 [Some 270]) /\
  new_dataset pf h tab (FromDataSE d) true = Ok (d', h') /\ get_delta h' d = Ok (A1 [Some 90]).
Proof. exact alias_example. Qed.
Print Assumptions C70_no_alias_refuted.

Theorem C70_copy_keeps_flag_refuted : exists pf h w a p x d1 h1 d2 h2,
  new_dataset pf h tab (FromArrays w a p x) true = Ok (d1, h1) /\
  new_dataset pf h1 tab (FromDataSE d1) false = Ok (d2, h2) /\
  get_delta h2 d2 = Ok (A1 [Some 90]) /\ ds_flipped d1 = true /\ ds_flipped d2 = false.
Proof. exact flag_lost_example. Qed.
Print Assumptions C70_copy_keeps_flag_refuted.
