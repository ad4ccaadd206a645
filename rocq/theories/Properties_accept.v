(** * What the loaders return was in the file (C125) *)

Require Import Reals ZArith Lra Lia List Bool String Ascii.
From Verif Require Import Base M_data Spec_data M_ep4 M_instr Spec_ep4 Spec_instr P_instr P_instr2 P_instr3 P_instr4 Spec_accept P_accept.
Import ListNotations.
Open Scope list_scope.
Open Scope R_scope.

(** ** C125: a loader that returns has read a file of its kind; every point of the result is in it *)

(** M2000: three lines, records, and a line without a tab or nothing *)
Theorem C125_m2000 : forall pf lines table te d md x, open_M2000file pf (ByName lines) table te d = Ok (md, OneSet x) ->
  exists l0 l1 c recs pts rest sel, lines = l0 :: l1 :: ("nm" ++ String c EmptyString)%string :: List.concat recs ++ rest /\
    Forall2 (record pf) recs pts /\ recs <> [] /\ ends rest /\ (0 < d)%nat /\ every d pts sel /\ stores x false sel.
Proof. exact m2000_accepts. Qed.
Print Assumptions C125_m2000.
(** the number of records is not bounded: reading stops for no other reason *)
Theorem C125_m2000_errors : forall pf f l0 l1 c body table te d e,
  f = ByName (l0 :: l1 :: ("nm" ++ String c EmptyString)%string :: body) \/ f = ByHandle (l0 :: l1 :: ("nm" ++ String c EmptyString)%string :: body) ->
  open_M2000file pf f table te d = Raise e -> e = IndexError \/ e = ValueError.
Proof. exact m2000_errors. Qed.
Print Assumptions C125_m2000_errors.

(** FilmSense: W wavelengths, W lines of N, C and S *)
Theorem C125_filmsense : forall pf pi lines x, open_FilmSenseFile pf pi lines = Ok (OneSet x) ->
  exists head wls ws nls xs W T aoi rest pts, lines = ("Film_Sense_Data" ++ newline)%string :: head :: wls ++ nls ++ rest /\
    fs_head pf pi [3; 4; 5]%nat head W T aoi /\ List.length wls = W /\ Forall2 (fs_wave pf) wls ws /\
    List.length nls = W /\ Forall2 (ncs_line pf) nls xs /\ points_of aoi ws xs pts /\ stores x false pts.
Proof. exact filmsense_accepts. Qed.
Print Assumptions C125_filmsense.
(** time series: T lines; of lines with the same time the last one counts *)
Theorem C125_filmsense_series : forall pf pi lines d, pf EmptyString = None -> open_FilmSenseFile pf pi lines = Ok (Dict d) ->
  exists head wls ws heading sls tps W T aoi rest,
    lines = ("Film_Sense_Dyn_Data" ++ newline)%string :: head :: wls ++ rest /\ (rest = [] /\ sls = [] \/ exists rest', rest = heading :: sls ++ rest') /\
    fs_head pf pi [3]%nat head W T aoi /\ List.length wls = W /\ Forall2 (fs_wave pf) wls ws /\
    List.length sls = T /\ Forall2 (fun l tp => step_line pf W l (fst tp) (snd tp)) sls tps /\
    NoDup (map fst d) /\ (forall t, In t (map fst d) <-> In t (map fst tps)) /\
    (forall before t xs after, tps = before ++ (t, xs) :: after -> ~ In t (map fst after) ->
       exists x pts, In (t, x) d /\ points_of aoi ws xs pts /\ stores x false pts).
Proof. exact filmsense_series. Qed.
Print Assumptions C125_filmsense_series.
(** psi and delta are determined by N, C and S, whatever these are *)
Theorem C125_decoded : forall x p d p' d', decoded x p d -> decoded x p' d' -> p = p' /\ d = d'.
Proof. exact decoded_unique. Qed.
Print Assumptions C125_decoded.
Theorem C125_encoded : forall N Cc S psi delta, encoded N Cc S psi delta -> decoded (N, Cc, S) (Some psi) (Some delta).
Proof. exact decoded_encoded. Qed.
Print Assumptions C125_encoded.

(** Horiba: the rows stand below a title DATA *)
Theorem C125_horiba : forall pf ansi lines refl lo hi md x, open_HORIBAfile pf ansi lines refl lo hi = Ok (md, x) ->
  exists i t n header body names rows sel angle a,
    nth_error lines i = Some t /\ title t "DATA" /\ nonblank (skipn (S i) lines) (header :: body) /\
    fields " " header names /\ Forall2 (data_row pf names) (firstn n body) rows /\
    those (fun r => between lo hi (fst (fst r))) rows sel /\
    In ("INCIDENCE ANGLE"%string, ELine angle) md /\ pf (substring 0 5 angle) = Some a /\
    stores x refl (map (fun r => (fst (fst r), a, snd (fst r), snd r)) sel).
Proof. exact horiba_accepts. Qed.
Print Assumptions C125_horiba.

(** files that are read *)
Example C125_m2000_file : exists x, open_M2000file ex_pf (ByName (""%string :: ex_vase :: ("nm" ++ newline)%string ::
  List.concat [ex_rec "500" "20"; ex_rec "600" "30"] ++ [""%string])) [] 1 1 = Ok (ex_kvs, OneSet x).
Proof.
  destruct ex_static as (V & F & E). destruct (open_static ex_pf 1 1 "" ex_vase ex_kvs _ _ [""%string] [] V F) as (x & sel & K & _); auto; [discriminate|].
  exists x. exact K.
Qed.
Example C125_m2000_cut : open_M2000file ex_pf (ByName [""%string; ex_vase; ("nm" ++ newline)%string; join tab ["500"; "70"]%string]) [] 1 1 = Raise IndexError.
Proof. reflexivity. Qed.
Example C125_filmsense_file : exists x, open_FilmSenseFile ex_pf ex_pi (("Film_Sense_Data" ++ newline)%string :: ex_head :: [ex_wave] ++ [ex_ncs] ++ []) = Ok (OneSet x).
Proof.
  destruct (open_fs_standard ex_pf ex_pi ex_head [ex_wave] [Some 500] [ex_ncs] [(30, 200)] 1 2 (Some 70) [] [(Some 500, Some 70, Some 30, Some 200)]) as (x & K & _); auto.
  - apply ex_fs_head; auto.
  - repeat constructor. apply ex_fs_wave.
  - repeat constructor. apply ex_fs_ncs.
  - split; reflexivity.
  - exists x. exact K.
Qed.
Example C125_filmsense_dict : ex_pf EmptyString = None /\ exists d, open_FilmSenseFile ex_pf ex_pi
  (("Film_Sense_Dyn_Data" ++ newline)%string :: ex_head :: [ex_wave] ++ ""%string :: [ex_step "0"; ex_step "1"] ++ []) = Ok (Dict d).
Proof.
  split; [reflexivity|].
  destruct (open_fs_dynamic ex_pf ex_pi ex_head [ex_wave] [Some 500] "" [ex_step "0"; ex_step "1"] [(0, [(30, 200)]); (1, [(30, 200)])] 1 2 (Some 70) []) as (d & K & _); auto.
  - apply ex_fs_head; auto.
  - repeat constructor. apply ex_fs_wave.
  - repeat constructor; apply ex_fs_step; cbn; auto.
  - repeat constructor; cbn; lra.
  - exists d. exact K.
Qed.
Example C125_decoded_case : decoded (Some (cos (rad (2 * 30))), Some (sin (rad (2 * 30)) * cos (rad 200)), Some (sin (rad (2 * 30)) * sin (rad 200)))
  (Some 30) (Some 200) /\ decoded (Some 2, Some 0, Some 0) None (Some 0).
Proof.
  split; [apply decoded_encoded, ex_encoded|]. split; cbn [fst snd psi_from delta_from].
  - split; [|reflexivity]. unfold Rabs. destruct (Rcase_abs 2); lra.
  - split; [|lra]. intros _. exists 0, 0. repeat split; lra.
Qed.
Example C125_horiba_file : exists md x, open_HORIBAfile ex_pf true ex_horiba true (Some 450) None = Ok (md, x).
Proof.
  destruct ex_horiba_rows as (N & F & D & A).
  destruct (open_horiba ex_pf ex_horiba ex_secs [1; 4; 7]%nat true (Some 450) None true "nm Psi Delta" ["400 20 100"; "500 30 110"; "600 20 100"]%string
    ["nm"; "Psi"; "Delta"]%string [(Some 400, Some 20, Some 100); (Some 500, Some 30, Some 110); (Some 600, Some 20, Some 100)] "70.00 deg" (Some 70)) as (x & sel & E & _);
    auto using ex_horiba_file; try (cbn; auto; fail); [discriminate|repeat constructor; cbn; intros H; decompose [or] H; auto; discriminate|].
  eexists _, x. exact E.
Qed.
