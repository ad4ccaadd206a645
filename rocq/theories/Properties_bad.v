(** * Input that is refused (C123) *)

Require Import Reals ZArith Lra List Bool String Ascii.
From Verif Require Import Base M_disp M_data Spec_data M_ep4 M_instr Spec_instr P_instr P_instr4 Spec_bad P_bad.
From Verif Require Import Spec_nested.
Import ListNotations.
Open Scope list_scope.
Open Scope R_scope.

(** ** C123: a line that is no measurement makes the loaders raise; a missing field is an
    IndexError, a field that is no number a ValueError *)
Theorem C123_m2000 : forall pf te d l0 l1 kvs recs pts ls e table,
  vase_line kvs l1 -> Forall2 (record pf) recs pts -> refused_record pf ls e ->
  open_M2000file pf (ByName (l0 :: l1 :: ("nm" ++ newline)%string :: List.concat recs ++ ls)) table te d = Raise e.
Proof. exact m2000_refused. Qed.
Print Assumptions C123_m2000.

Theorem C123_filmsense_wavelength : forall pf pi (dyn : bool) head wls ws l rest W T aoi e,
  fs_head pf pi (if dyn then [3] else [3; 4; 5])%nat head W T aoi -> Forall2 (fs_wave pf) wls ws ->
  (List.length wls < W)%nat -> refused_line pf l [0; 1; 2; 3]%nat e ->
  open_FilmSenseFile pf pi (((if dyn then "Film_Sense_Dyn_Data" else "Film_Sense_Data") ++ newline)%string :: head :: wls ++ l :: rest) = Raise e.
Proof. exact fs_wave_refused. Qed.
Print Assumptions C123_filmsense_wavelength.
Theorem C123_filmsense_point : forall pf pi head wls ws nls pds l rest W T aoi e,
  fs_head pf pi [3; 4; 5]%nat head W T aoi -> Forall2 (fs_wave pf) wls ws -> List.length wls = W ->
  Forall2 (fs_ncs pf) nls pds -> (List.length nls < W)%nat -> refused_line pf l [0; 1; 2; 3; 4]%nat e ->
  open_FilmSenseFile pf pi (("Film_Sense_Data" ++ newline)%string :: head :: wls ++ nls ++ l :: rest) = Raise e.
Proof. exact fs_ncs_refused. Qed.
Print Assumptions C123_filmsense_point.
Theorem C123_filmsense_step : forall pf pi head wls ws heading sls tps W T aoi l rest e fs c c',
  fs_head pf pi [3]%nat head W T aoi -> Forall2 (fs_wave pf) wls ws -> List.length wls = W ->
  Forall2 (fun l tp => fs_step pf l (fst tp) (snd tp)) sls tps -> Forall (fun tp => List.length (snd tp) = W) tps ->
  (List.length sls < T)%nat ->
  l = (join tab fs ++ String c (String c' EmptyString))%string -> Forall (free tab) fs -> fs <> [] ->
  refused pf fs (seq 0 (5 * W + 1)) e ->
  open_FilmSenseFile pf pi (("Film_Sense_Dyn_Data" ++ newline)%string :: head :: wls ++ heading :: sls ++ l :: rest) = Raise e.
Proof. exact fs_step_refused. Qed.
Print Assumptions C123_filmsense_step.

(** columns of different lengths cannot be written *)
Theorem C123_save : forall pr h d,
  (exists lines, save pr h d = Ok lines) /\ List.length (arr h (ds_aoi d)) = List.length (arr h (ds_wav d)) /\
    List.length (arr h (ds_psi d)) = List.length (arr h (ds_wav d)) /\ List.length (arr h (ds_delta d)) = List.length (arr h (ds_wav d)) \/
  save pr h d = Raise ValueError /\
    ~ (List.length (arr h (ds_aoi d)) = List.length (arr h (ds_wav d)) /\
       List.length (arr h (ds_psi d)) = List.length (arr h (ds_wav d)) /\ List.length (arr h (ds_delta d)) = List.length (arr h (ds_wav d))).
Proof. exact save_unequal. Qed.
Print Assumptions C123_save.
(** a Horiba file whose section DATA is empty, or stands at the very end without a line *)
Theorem C123_horiba : forall pf ansi lines secs ns refl lo hi closed,
  horiba 0 lines secs ns -> NoDup (map sec_label secs) -> In (Section "DATA" [] closed) secs ->
  open_HORIBAfile pf ansi lines refl lo hi = Raise (if closed then TypeError else ValueError).
Proof. exact horiba_empty. Qed.
Print Assumptions C123_horiba.
(** a Gauss model without oscillators can be constructed but not evaluated *)
Theorem C123_gauss_empty : forall h am br en Einf wl name s w,
  elements am [] -> Gauss h am br en Einf wl name = Ok s -> wl <> 0 -> sc_complex s w = Raise ValueError.
Proof. exact gauss_no_oscillators. Qed.
Print Assumptions C123_gauss_empty.

Ltac nums := repeat constructor; eexists; split; reflexivity.
Example C123_missing : refused_line ex_pf (join tab ["500"; "0"]%string) [0; 1; 2; 3]%nat IndexError.
Proof.
  exists ["500"; "0"]%string. split; [split; [discriminate|split; [|reflexivity]]; freeness|].
  exists [0; 1]%nat, 2%nat, [3]%nat, [Some 500; Some 0]. split; [reflexivity|]. split; [nums|]. left. auto.
Qed.
Example C123_word : refused_line ex_pf (join tab ["500"; "none"; "0"; "0"]%string) [0; 1; 2; 3]%nat ValueError.
Proof.
  exists ["500"; "none"; "0"; "0"]%string. split; [split; [discriminate|split; [|reflexivity]]; freeness|].
  exists [0]%nat, 1%nat, [2; 3]%nat, [Some 500]. split; [reflexivity|]. split; [nums|]. right. exists "none"%string. repeat split.
Qed.
Example C123_truncated : refused_record ex_pf [join tab ["500"; "70"; "20"; "100"; "0"; "0"]%string] IndexError.
Proof.
  split.
  - cbn. intros H. repeat match type of H with _ /\ _ => destruct H as [?K H] end. congruence.
  - right. split; [|reflexivity]. exists ["500"; "70"; "20"; "100"; "0"; "0"]%string. eexists.
    split; [split; [discriminate|split; [|reflexivity]]; freeness|]. nums.
Qed.
Example C123_gauss : forall h, Gauss h (Seq []) (Seq []) (Seq []) 1 658 "g" = Ok (Scatterer (K_Gauss h [] 1) 658 "g").
Proof. reflexivity. Qed.
Example C123_horiba_file : horiba 0 (map nl ["# DATA:"; ""]%string) [Section "DATA" [] true] [0]%nat /\
  horiba 0 (map nl ["# DATA:"]%string) [Section "DATA" [] false] [0]%nat.
Proof.
  split.
  - apply (horiba_section 0 (nl "# DATA:") "DATA" [] [] (nl "") []); [ttl|constructor|intros H; exact H|trim|]. constructor.
  - apply (horiba_open 0 (nl "# DATA:") "DATA" [] []); [ttl|constructor|intros H; exact H].
Qed.
