(** * Properties of the Horiba, M2000 and FilmSense loaders.

    A file is the list of its lines; [pf] is float(), [pi] is int().  [fields c l fs]: the line [l]
    consists of the fields [fs] separated by [c]; [numbers pf fs is vs]: the fields number [is] hold
    the numbers [vs].  [stores x refl pts]: the dataset [x] holds the points (wavelength, angle, psi,
    delta).  [every n l r]: [r] is every n-th member of [l]. *)

Require Import Reals ZArith List Bool String Ascii Sorting.Sorted.
From Verif Require Import Base M_data Spec_data M_ep4 Spec_ep4 M_instr Spec_instr P_instr P_instr2 P_instr3 P_instr4.
Import ListNotations.
Open Scope list_scope.
Open Scope R_scope.

(** ** C75: Horiba.  [horiba 0 lines secs ns]: the file consists of the sections [secs], whose titles
    are in the lines number [ns].  [those P l r]: [r] are the members of [l] that satisfy [P] *)
Theorem C75_horiba : forall pf lines secs ns refl lo hi closed header rows names xs angle a,
  horiba 0 lines secs ns -> NoDup (map sec_label secs) -> In (Section "DATA" (header :: rows) closed) secs ->
  (closed = true -> rows <> []) -> fields " " header names -> NoDup names ->
  In "nm"%string names -> In "Psi"%string names -> In "Delta"%string names -> Forall2 (data_row pf names) rows xs ->
  In (Section "INCIDENCE ANGLE" [angle] true) secs -> pf (substring 0 5 angle) = Some a ->
  exists x sel, open_HORIBAfile pf true lines refl lo hi = Ok (map (fun s => (sec_label s, filed s)) secs, x) /\
    those (fun r => between lo hi (fst (fst r))) xs sel /\
    stores x refl (map (fun r => (fst (fst r), a, snd (fst r), snd r)) sel).
Proof. exact open_horiba. Qed.
Print Assumptions C75_horiba.

(** where the encoding "ANSI" is unknown, no file can be read *)
Theorem C75_encoding : forall pf lines secs ns refl lo hi closed header rows,
  horiba 0 lines secs ns -> NoDup (map sec_label secs) -> In (Section "DATA" (header :: rows) closed) secs ->
  (closed = true -> rows <> []) -> open_HORIBAfile pf false lines refl lo hi = Raise OtherError.
Proof. exact open_horiba_encoding. Qed.
Print Assumptions C75_encoding.

Theorem C75_no_data : forall pf ansi lines secs ns refl lo hi, horiba 0 lines secs ns -> NoDup (map sec_label secs) ->
  ~ In "DATA"%string (map sec_label secs) -> open_HORIBAfile pf ansi lines refl lo hi = Raise KeyError.
Proof. exact open_horiba_no_data. Qed.
Print Assumptions C75_no_data.

Theorem C75_no_column : forall pf lines secs ns refl lo hi closed header rows names,
  horiba 0 lines secs ns -> NoDup (map sec_label secs) -> In (Section "DATA" (header :: rows) closed) secs ->
  (closed = true -> rows <> []) -> fields " " header names ->
  ~ In "nm"%string names \/ ~ In "Psi"%string names \/ ~ In "Delta"%string names ->
  open_HORIBAfile pf true lines refl lo hi = Raise ValueError.
Proof. exact open_horiba_no_column. Qed.
Print Assumptions C75_no_column.

Theorem C75_no_angle : forall pf lines secs ns refl lo hi closed header rows names xs,
  horiba 0 lines secs ns -> NoDup (map sec_label secs) -> In (Section "DATA" (header :: rows) closed) secs ->
  (closed = true -> rows <> []) -> fields " " header names -> NoDup names ->
  In "nm"%string names -> In "Psi"%string names -> In "Delta"%string names -> Forall2 (data_row pf names) rows xs ->
  ~ In "INCIDENCE ANGLE"%string (map sec_label secs) ->
  open_HORIBAfile pf true lines refl lo hi = Raise KeyError.
Proof. exact open_horiba_no_angle. Qed.
Print Assumptions C75_no_angle.

(** an angle section of several lines, or at the very end of the file without a blank line *)
Theorem C75_bad_angle : forall pf lines secs ns refl lo hi closed header rows names xs s,
  horiba 0 lines secs ns -> NoDup (map sec_label secs) -> In (Section "DATA" (header :: rows) closed) secs ->
  (closed = true -> rows <> []) -> fields " " header names -> NoDup names ->
  In "nm"%string names -> In "Psi"%string names -> In "Delta"%string names -> Forall2 (data_row pf names) rows xs ->
  In s secs -> sec_label s = "INCIDENCE ANGLE"%string -> sec_closed s = false \/ List.length (sec_lines s) <> 1%nat ->
  open_HORIBAfile pf true lines refl lo hi = Raise TypeError.
Proof. exact open_horiba_bad_angle. Qed.
Print Assumptions C75_bad_angle.

(** without the blank line the next title belongs to the section before *)
Theorem C75_swallowed_refuted : exists lines t, In t lines /\ title t "DATA" /\
  forall pf ansi refl lo hi, open_HORIBAfile pf ansi lines refl lo hi = Raise KeyError.
Proof. exact swallowed. Qed.
Print Assumptions C75_swallowed_refuted.

Example C75_example : horiba 0 ex_horiba ex_secs [1; 4; 7]%nat.
Proof. exact ex_horiba_file. Qed.
Example C75_example_rows : NoDup (map sec_label ex_secs) /\ fields " " "nm Psi Delta" ["nm"; "Psi"; "Delta"]%string /\
  Forall2 (data_row ex_pf ["nm"; "Psi"; "Delta"]%string) ["400 20 100"; "500 30 110"; "600 20 100"]%string
    [(Some 400, Some 20, Some 100); (Some 500, Some 30, Some 110); (Some 600, Some 20, Some 100)] /\
  ex_pf (substring 0 5 "70.00 deg") = Some (Some 70).
Proof. exact ex_horiba_rows. Qed.

(** ** C76: M2000, static files *)
Theorem C76_static : forall pf te d l0 l1 kvs recs pts rest table,
  vase_line kvs l1 -> Forall2 (record pf) recs pts -> recs <> [] -> ends rest -> (0 < d)%nat ->
  exists x sel, open_M2000file pf (ByName (l0 :: l1 :: ("nm" ++ newline)%string :: List.concat recs ++ rest)) table te d
                = Ok (kvs, OneSet x) /\ every d pts sel /\ stores x false sel.
Proof. exact open_static. Qed.
Print Assumptions C76_static.

(** an open file handle: three further lines are skipped *)
Theorem C76_handle : forall pf te d l0 l1 kvs r1 recs pts rest table,
  vase_line kvs l1 -> List.length r1 = 3%nat -> Forall2 (record pf) recs pts -> recs <> [] -> ends rest -> (0 < d)%nat ->
  exists x sel, open_M2000file pf (ByHandle (l0 :: l1 :: ("nm" ++ newline)%string :: List.concat (r1 :: recs) ++ rest)) table te d
                = Ok (kvs, OneSet x) /\ every d pts sel /\ stores x false sel.
Proof. exact open_handle. Qed.
Print Assumptions C76_handle.
Theorem C76_handle_refuted : exists file recs x, file = ""%string :: ex_vase :: ("nm" ++ newline)%string :: List.concat recs /\
  List.length recs = 2%nat /\ open_M2000file ex_pf (ByHandle file) [] 1 1 = Ok (ex_kvs, OneSet x) /\ ld_wav x = [Some 600] /\
  exists x', open_M2000file ex_pf (ByName file) [] 1 1 = Ok (ex_kvs, OneSet x') /\ ld_wav x' = [Some 500; Some 600].
Proof. exact handle_loss. Qed.
Print Assumptions C76_handle_refuted.

Theorem C76_no_records : forall pf te d l0 l1 kvs rest table, vase_line kvs l1 -> ends rest -> (0 < d)%nat ->
  open_M2000file pf (ByName (l0 :: l1 :: ("nm" ++ newline)%string :: rest)) table te d = Raise IndexError.
Proof. exact open_static_none. Qed.
Print Assumptions C76_no_records.
Theorem C76_no_stride : forall pf te l0 l1 kvs recs pts rest table, vase_line kvs l1 -> Forall2 (record pf) recs pts -> ends rest ->
  open_M2000file pf (ByName (l0 :: l1 :: ("nm" ++ newline)%string :: List.concat recs ++ rest)) table te 0 = Raise ValueError.
Proof. exact open_static_zero. Qed.
Print Assumptions C76_no_stride.
Theorem C76_other_kind : forall pf f l0 l1 l2 rest table te d,
  f = ByName (l0 :: l1 :: l2 :: rest) \/ f = ByHandle (l0 :: l1 :: l2 :: rest) ->
  (forall c, l2 <> ("nm" ++ String c EmptyString)%string) -> (forall c, l2 <> ("Dynamic" ++ String c EmptyString)%string) ->
  open_M2000file pf f table te d = Raise ValueError.
Proof. exact open_other. Qed.
Print Assumptions C76_other_kind.

Example C76_example : vase_line ex_kvs ex_vase /\ Forall2 (record ex_pf) [ex_rec "500" "20"; ex_rec "600" "30"] ex_pts /\ ends [""%string].
Proof. exact ex_static. Qed.
Example C76_example_other : (forall c, "Map"%string <> ("nm" ++ String c EmptyString)%string) /\
  (forall c, "Map"%string <> ("Dynamic" ++ String c EmptyString)%string).
Proof. exact ex_other. Qed.

(** ** C77: M2000, time series.  [table]: rows of a point and a time in minutes; [ts]: the times;
    [seconds t k]: [k] is the time in seconds, rounded to one decimal *)
Theorem C77_dispatch : forall pf f l0 l1 kvs rest table te drop, vase_line kvs l1 ->
  f = ByName (l0 :: l1 :: ("Dynamic" ++ newline)%string :: rest) \/ f = ByHandle (l0 :: l1 :: ("Dynamic" ++ newline)%string :: rest) ->
  open_M2000file pf f table te drop = rmap (fun d => (kvs, Dict d)) (M2000_kinetic te drop table).
Proof. exact kinetic_dict. Qed.
Print Assumptions C77_dispatch.

Theorem C77_distinct : forall te drop rows ts kept ks, (0 < te)%nat -> (0 < drop)%nat -> is_times rows ts -> every te ts kept ->
  Forall2 seconds kept ks -> NoDup ks ->
  exists d, M2000_kinetic te drop rows = Ok d /\ map fst d = ks /\ Forall2 (step_data rows drop) kept (map snd d).
Proof. exact kinetic_distinct. Qed.
Print Assumptions C77_distinct.

(** times more than 0.1 s apart have distinct keys *)
Theorem C77_apart : forall t t' k k', 1 / 600 < t' - t -> seconds t k -> seconds t' k' -> k < k'.
Proof. exact seconds_apart. Qed.
Print Assumptions C77_apart.

(** in general the last step with a key is kept *)
Theorem C77_last_wins : forall te drop rows ts kept, (0 < te)%nat -> (0 < drop)%nat -> is_times rows ts -> every te ts kept ->
  exists d, M2000_kinetic te drop rows = Ok d /\ NoDup (map fst d) /\
    (forall k, In k (map fst d) <-> exists t, In t kept /\ seconds t k) /\
    (forall before t after k, kept = before ++ t :: after -> seconds t k -> (forall t', In t' after -> ~ seconds t' k) ->
       exists x, In (k, x) d /\ step_data rows drop t x).
Proof. exact kinetic_general. Qed.
Print Assumptions C77_last_wins.
Theorem C77_own_entry_refuted : exists rows ts d x, is_times rows ts /\ List.length ts = 2%nat /\
  M2000_kinetic 1 1 rows = Ok d /\ d = [(1 / 10, x)] /\ ld_psi x = [Some 30].
Proof. exact steps_lost. Qed.
Print Assumptions C77_own_entry_refuted.

Theorem C77_take_none : forall drop rows ts, is_times rows ts -> ts <> [] -> M2000_kinetic 0 drop rows = Raise OtherError.
Proof. exact kinetic_zero. Qed.
Print Assumptions C77_take_none.
Theorem C77_no_stride : forall te rows ts, (0 < te)%nat -> is_times rows ts -> ts <> [] -> M2000_kinetic te 0 rows = Raise ValueError.
Proof. exact kinetic_zero_drop. Qed.
Print Assumptions C77_no_stride.

Example C77_example : is_times ex_rows [1; 2; 3] /\ every 2 [1; 2; 3] [1; 3] /\ Forall2 seconds [1; 3] [60; 180] /\ NoDup [60; 180].
Proof. exact ex_times. Qed.

(** ** C78: psi and delta from N, C, S *)
Theorem C78_psi : forall N Cc S psi delta, encoded N Cc S psi delta -> fs_psi N = Some psi.
Proof. exact encoded_psi. Qed.
Print Assumptions C78_psi.
Theorem C78_delta : forall N Cc S psi delta, encoded N Cc S psi delta -> fs_delta N Cc S = Some delta.
Proof. exact encoded_delta. Qed.
Print Assumptions C78_delta.
Theorem C78_delta_range : forall N Cc S d, fs_delta N Cc S = Some d -> 0 <= d < 360.
Proof. exact fs_delta_range. Qed.
Print Assumptions C78_delta_range.
Theorem C78_psi_range : forall N p, fs_psi N = Some p -> 0 <= p <= 90.
Proof. exact fs_psi_range. Qed.
Print Assumptions C78_psi_range.
Theorem C78_psi_nan : forall N, 1 < Rabs N -> fs_psi (Some N) = None.
Proof. exact fs_psi_none. Qed.
Print Assumptions C78_psi_nan.
Theorem C78_delta_nan : fs_delta (Some (-1)) (Some 0) (Some 0) = None.
Proof. exact fs_delta_none. Qed.
Print Assumptions C78_delta_nan.

Example C78_example : encoded (Some (cos (rad (2 * 30)))) (Some (sin (rad (2 * 30)) * cos (rad 200)))
  (Some (sin (rad (2 * 30)) * sin (rad 200))) 30 200.
Proof. exact ex_encoded. Qed.

(** ** C79: FilmSense files with W wavelengths and T time steps *)
Theorem C79_static : forall pf pi head wls ws nls pds W T aoi rest pts,
  fs_head pf pi [3; 4; 5]%nat head W T aoi -> Forall2 (fs_wave pf) wls ws -> Forall2 (fs_ncs pf) nls pds ->
  List.length wls = W -> List.length nls = W -> fs_points aoi ws pds pts ->
  exists x, open_FilmSenseFile pf pi (("Film_Sense_Data" ++ newline)%string :: head :: wls ++ nls ++ rest) = Ok (OneSet x) /\
    stores x false pts.
Proof. exact open_fs_standard. Qed.
Print Assumptions C79_static.

Theorem C79_dynamic : forall pf pi head wls ws heading sls tps W T aoi rest,
  fs_head pf pi [3]%nat head W T aoi -> Forall2 (fs_wave pf) wls ws ->
  Forall2 (fun l tp => fs_step pf l (fst tp) (snd tp)) sls tps ->
  List.length wls = W -> List.length sls = T -> Forall (fun tp => List.length (snd tp) = W) tps -> NoDup (map fst tps) ->
  exists d, open_FilmSenseFile pf pi (("Film_Sense_Dyn_Data" ++ newline)%string :: head :: wls ++ heading :: sls ++ rest) = Ok (Dict d) /\
    map fst d = map fst tps /\
    Forall2 (fun tp x => exists pts, fs_points aoi ws (snd tp) pts /\ stores x false pts) tps (map snd d).
Proof. exact open_fs_dynamic. Qed.
Print Assumptions C79_dynamic.

(** repeated times: the last line with a time is kept *)
Theorem C79_repeated_times : forall pf pi head wls ws heading sls tps W T aoi rest,
  fs_head pf pi [3]%nat head W T aoi -> Forall2 (fs_wave pf) wls ws ->
  Forall2 (fun l tp => fs_step pf l (fst tp) (snd tp)) sls tps ->
  List.length wls = W -> List.length sls = T -> Forall (fun tp => List.length (snd tp) = W) tps ->
  exists d, open_FilmSenseFile pf pi (("Film_Sense_Dyn_Data" ++ newline)%string :: head :: wls ++ heading :: sls ++ rest) = Ok (Dict d) /\
    NoDup (map fst d) /\ (forall t, In t (map fst d) <-> In t (map fst tps)) /\
    (forall before t pds after, tps = before ++ (t, pds) :: after -> ~ In t (map fst after) ->
       exists x pts, In (t, x) d /\ fs_points aoi ws pds pts /\ stores x false pts).
Proof. exact open_fs_repeated. Qed.
Print Assumptions C79_repeated_times.

Theorem C79_too_short : forall pf pi head wls ws nls pds W T aoi,
  pf EmptyString = None ->
  fs_head pf pi [3; 4; 5]%nat head W T aoi -> Forall2 (fs_wave pf) wls ws -> Forall2 (fs_ncs pf) nls pds ->
  List.length wls = W -> (List.length nls < W)%nat ->
  open_FilmSenseFile pf pi (("Film_Sense_Data" ++ newline)%string :: head :: wls ++ nls) = Raise ValueError.
Proof. exact open_fs_short. Qed.
Print Assumptions C79_too_short.

Theorem C79_other_file : forall pf pi l rest, l <> ("Film_Sense_Data" ++ newline)%string -> l <> ("Film_Sense_Dyn_Data" ++ newline)%string ->
  open_FilmSenseFile pf pi (l :: rest) = Raise AssertionError.
Proof. exact open_fs_other. Qed.
Print Assumptions C79_other_file.

Example C79_example_head : forall more, more = [3]%nat \/ more = [3; 4; 5]%nat -> fs_head ex_pf ex_pi more ex_head 1 2 (Some 70).
Proof. exact ex_fs_head. Qed.
Example C79_example_wave : fs_wave ex_pf ex_wave (Some 500).
Proof. exact ex_fs_wave. Qed.
Example C79_example_ncs : fs_ncs ex_pf ex_ncs (30, 200).
Proof. exact ex_fs_ncs. Qed.
Example C79_example_step : forall t v, In t ["0"; "1"]%string -> ex_pf t = Some (Some v) -> fs_step ex_pf (ex_step t) v [(30, 200)].
Proof. exact ex_fs_step. Qed.
