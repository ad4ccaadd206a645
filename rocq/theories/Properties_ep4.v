(** * Properties of the EP4 loader and of custom_round.

    A table is what pandas reads: column names and rows.  [complete raw rows]: [rows] are the rows
    without a missing entry.  [optics], [place], [moment]: the measurement [m] has the values of a
    row in the columns "#Lambda", "AOI", "Psi", "Delta"; "X_pos", "Y_pos"; "Time".
    [averaged ms s]: [s] has one point for every (AOI, wavelength) in [ms], sorted, with the mean
    psi and delta.  [delivered r refl ss]: [r] is the dataset of [ss], or the list of datasets if
    there is not exactly one. *)

Require Import Reals ZArith List Bool String Sorting.Sorted Permutation.
From Verif Require Import Base M_disp M_data Spec_data Spec_objective M_ep4 Spec_ep4
  P_ep4 P_ep4b P_ep4c P_ep4d P_ep4e.
Import ListNotations.
Open Scope list_scope.
Open Scope R_scope.

(** ** C71: repeated measurements *)
Theorem C71_single_place : forall pr fname t refl rows ms,
  rectangular t -> complete (tb_rows t) rows -> four_columns (tb_cols t) ->
  Forall2 (optics (tb_cols t)) rows ms -> no_change (tb_cols t) rows "Time" -> one_place (tb_cols t) rows ->
  exists r s, open_EP4file pr fname t refl = Ok r /\ delivered r refl [s] /\
    averaged ms s /\ sm_pos s = None /\ sm_time s = Some None.
Proof. exact open_single. Qed.
Print Assumptions C71_single_place.

Theorem C71_every_row_once : forall ms s, averaged ms s ->
  Permutation (List.concat (map (fun k => at_key (fst k) (snd k) ms) (combine (sm_aoi s) (sm_lambda s)))) ms.
Proof. exact averaged_once. Qed.
Print Assumptions C71_every_row_once.

Theorem C71_missing_column : forall pr fname t refl, ~ four_columns (tb_cols t) ->
  open_EP4file pr fname t refl = Raise KeyError.
Proof. exact open_missing. Qed.
Print Assumptions C71_missing_column.

Example C71_example : rectangular (ep4_table ms_rep) /\ complete (tb_rows (ep4_table ms_rep)) (map meas_row ms_rep) /\
  four_columns (tb_cols (ep4_table ms_rep)) /\ Forall2 (optics cols6) (map meas_row ms_rep) ms_rep /\
  no_change cols6 (map meas_row ms_rep) "Time" /\ one_place cols6 (map meas_row ms_rep).
Proof.
  exact (conj (ep4_rect _) (conj (ep4_complete _) (conj ep4_four (conj (proj1 (ep4_fields _)) rep_hyps)))).
Qed.
Example C71_example_missing : ~ four_columns (tb_cols (Table ["#Lambda"%string; "AOI"%string] [])).
Proof. exact two_columns. Qed.

(** ** C72: delta is averaged as a number, not as an angle *)
Theorem C72_mean_between : forall l x lo hi, mean_of l x -> Forall (fun y => lo <= y <= hi) l -> lo <= x <= hi.
Proof. exact mean_between. Qed.
Print Assumptions C72_mean_between.

Theorem C72_angle_refuted : forall pr fname,
  exists s d, open_EP4file pr fname (ep4_table ms_wrap) false = Ok (One d) /\ snd (fst d) = s /\ sm_delta s = [180] /\
    circle_distance 360 359 1 2 /\ circle_distance 360 180 359 179 /\ circle_distance 360 180 1 179.
Proof. exact wrap_average. Qed.
Print Assumptions C72_angle_refuted.

(** ** C73: maps.  [blocks bs]: consecutive areas *)
Theorem C73_areas : forall pr fname t refl rows ms,
  rectangular t -> complete (tb_rows t) rows ->
  Forall2 (optics (tb_cols t)) rows ms -> Forall2 (place (tb_cols t)) rows ms ->
  no_change (tb_cols t) rows "Time" -> ~ one_place (tb_cols t) rows ->
  exists r bs ss, open_EP4file pr fname t refl = Ok r /\ delivered r refl ss /\
    List.concat bs = ms /\ blocks bs /\
    Forall2 (fun b s => averaged b s /\ area_position b s /\ sm_time s = Some None) bs ss.
Proof. exact open_map. Qed.
Print Assumptions C73_areas.

Theorem C73_areas_unique : forall bs bs', blocks bs -> blocks bs' -> List.concat bs = List.concat bs' -> bs = bs'.
Proof. exact blocks_unique. Qed.
Print Assumptions C73_areas_unique.

Example C73_example : rectangular (ep4_table ms_map) /\ complete (tb_rows (ep4_table ms_map)) (map meas_row ms_map) /\
  Forall2 (optics cols6) (map meas_row ms_map) ms_map /\ Forall2 (place cols6) (map meas_row ms_map) ms_map /\
  no_change cols6 (map meas_row ms_map) "Time" /\ ~ one_place cols6 (map meas_row ms_map) /\
  blocks [[Meas 633 50 30 100 0 0 0; Meas 633 50 31 101 (1/10) 0 0]; [Meas 633 50 40 110 5 0 0]].
Proof.
  exact (conj (ep4_rect _) (conj (ep4_complete _) (conj (proj1 (ep4_fields _)) (conj (proj1 (proj2 (ep4_fields _))) map_hyps)))).
Qed.

(** ** C74: time series *)
Theorem C74_time_series : forall pr fname t refl rows ms,
  rectangular t -> complete (tb_rows t) rows ->
  Forall2 (optics (tb_cols t)) rows ms -> Forall2 (moment (tb_cols t)) rows ms ->
  ~ no_change (tb_cols t) rows "Time" ->
  (~ In "X_pos"%string (tb_cols t) \/ ~ In "Y_pos"%string (tb_cols t) \/
   (steady (tb_cols t) rows "X_pos" /\ steady (tb_cols t) rows "Y_pos")) ->
  exists r ts ss, open_EP4file pr fname t refl = Ok r /\ delivered r refl ss /\ in_order (map me_t ms) ts /\
    Forall2 (fun t s => averaged (at_time t ms) s /\ sm_pos s = None /\ sm_time s = Some (Some t)) ts ss.
Proof. exact open_time_series. Qed.
Print Assumptions C74_time_series.

(** three or more areas in one time step: no result *)
Theorem C74_map_series_fails : forall pr fname t refl rows ms t0 bs,
  rectangular t -> complete (tb_rows t) rows ->
  Forall2 (optics (tb_cols t)) rows ms -> Forall2 (place (tb_cols t)) rows ms ->
  Forall2 (moment (tb_cols t)) rows ms -> ~ no_change (tb_cols t) rows "Time" ->
  at_time t0 ms = List.concat bs -> blocks bs -> (3 <= List.length bs)%nat ->
  open_EP4file pr fname t refl = Raise KeyError.
Proof. exact open_map_series_fails. Qed.
Print Assumptions C74_map_series_fails.

(** equally long scans with small position errors: only the first scan survives, labelled with the
    time of the last one *)
Theorem C74_later_scans_lost : forall pr fname t refl rows n t0 ts st0 steps,
  rectangular t -> complete (tb_rows t) rows ->
  Forall2 (optics (tb_cols t)) rows (List.concat (st0 :: steps)) ->
  Forall2 (place (tb_cols t)) rows (List.concat (st0 :: steps)) ->
  Forall2 (moment (tb_cols t)) rows (List.concat (st0 :: steps)) ->
  scans n (t0 :: ts) (st0 :: steps) -> ts <> [] ->
  exists r s, open_EP4file pr fname t refl = Ok r /\ delivered r refl [s] /\
    averaged st0 s /\ area_position st0 s /\ sm_time s = Some (Some (last ts t0)).
Proof. exact open_scans. Qed.
Print Assumptions C74_later_scans_lost.

Theorem C74_every_step_refuted : forall pr fname, exists s d,
  open_EP4file pr fname (ep4_table (scan1 ++ scan2)) false = Ok (One d) /\ snd (fst d) = s /\
  averaged scan1 s /\ sm_time s = Some (Some 2).
Proof. exact scans_lost. Qed.
Print Assumptions C74_every_step_refuted.

Example C74_example : rectangular (ep4_table ms_time) /\ complete (tb_rows (ep4_table ms_time)) (map meas_row ms_time) /\
  Forall2 (optics cols6) (map meas_row ms_time) ms_time /\ Forall2 (moment cols6) (map meas_row ms_time) ms_time /\
  ~ no_change cols6 (map meas_row ms_time) "Time" /\
  steady cols6 (map meas_row ms_time) "X_pos" /\ steady cols6 (map meas_row ms_time) "Y_pos".
Proof.
  exact (conj (ep4_rect _) (conj (ep4_complete _) (conj (proj1 (ep4_fields _)) (conj (proj2 (proj2 (ep4_fields _))) time_hyps)))).
Qed.
Example C74_example_map : ~ no_change cols6 (map meas_row ms_mt) "Time" /\
  at_time 1 ms_mt = List.concat [[Meas 633 50 30 100 0 0 1]; [Meas 633 50 31 101 5 0 1]; [Meas 633 50 32 102 9 0 1]] /\
  blocks [[Meas 633 50 30 100 0 0 1]; [Meas 633 50 31 101 5 0 1]; [Meas 633 50 32 102 9 0 1]].
Proof. exact mt_hyps. Qed.
Example C74_example_scans : scans 2 [1; 2] [scan1; scan2].
Proof. exact scans_hyps. Qed.

(** ** C80: custom_round.  The base is j / 100; base 0.25 is j = 25 *)
Theorem C80_custom_round : forall x j, j <> 0%Z ->
  exists y k, custom_round x (IZR j / 100) = Some y /\ y = IZR k * (IZR j / 100) /\
    nearest_even (x / (IZR j / 100)) k /\ nearest_multiple (IZR j / 100) x y /\
    custom_round y (IZR j / 100) = Some y.
Proof. exact custom_round_spec. Qed.
Print Assumptions C80_custom_round.

Theorem C80_any_base_refuted : exists x base, base <> 0 /\ exists y, custom_round x base = Some y /\
  forall k : Z, y <> IZR k * base.
Proof. exact custom_round_third. Qed.
Print Assumptions C80_any_base_refuted.

(** ** C86: the objects built by the loaders *)
Theorem C86_loaded_dataset : forall h l pts, map p_wav pts = ld_wav l -> map p_aoi pts = ld_aoi l ->
  map p_psi pts = ld_psi l -> map p_delta pts = ld_delta l ->
  exists d h', install h l = Ok (d, h') /\ ds_flipped d = ld_reflect l /\
    (ld_reflect l = false -> get_data h' d = Ok (columns pts)) /\
    (ld_reflect l = true -> exists pts', Forall2 folded_point pts pts' /\ get_data h' d = Ok (columns pts')) /\
    (forall a, (a < List.length h)%nat -> nth_error h' a = nth_error h a).
Proof. exact install_spec. Qed.
Print Assumptions C86_loaded_dataset.

Example C86_example : let pts := [(Some 500, Some 70, Some 30, Some 200); (Some 600, Some 70, None, Some 100)] in
  let l := Loaded [Some 500; Some 600] [Some 70; Some 70] [Some 30; None] [Some 200; Some 100] true in
  map p_wav pts = ld_wav l /\ map p_aoi pts = ld_aoi l /\ map p_psi pts = ld_psi l /\ map p_delta pts = ld_delta l.
Proof. exact (conj eq_refl (conj eq_refl (conj eq_refl eq_refl))). Qed.
