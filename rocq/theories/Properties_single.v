(** * Properties of single precision in the FilmSense loader.

    [single_number], [nearest_single], [normal]: Spec_single.  [encoded N C S psi delta]: N, C and S are
    those of psi and delta.  [circle_distance 360 a b d]: [d] is the distance of two angles. *)

Require Import Reals List.
From Verif Require Import Base M_data M_ep4 M_instr Spec_objective Spec_instr M_single Spec_single P_single.
Import ListNotations.
Open Scope R_scope.

(** ** C129.  The conversion goes to a nearest number of single precision *)
Theorem C129_nearest : forall x, nearest_single x (single x).
Proof. exact single_nearest. Qed.
Print Assumptions C129_nearest.

(** psi moves by at most 0.0075 degrees, and is defined whenever it was *)
Theorem C129_psi : forall N, Rabs N <= 1 ->
  exists psi psi', fs_psi (Some N) = Some psi /\ fs32_psi (Some N) = Some psi' /\ Rabs (psi' - psi) <= 75 / 10000.
Proof. exact psi_single. Qed.
Print Assumptions C129_psi.

(** more than 0.005 degrees does happen *)
Theorem C129_psi_refuted : exists N psi psi', Rabs N <= 1 /\ fs_psi (Some N) = Some psi /\ fs32_psi (Some N) = Some psi' /\ Rabs (psi' - psi) > 5 / 1000.
Proof. exact psi_single_refuted. Qed.
Print Assumptions C129_psi_refuted.

(** delta moves by at most 0.00001 degrees on the circle, unless N becomes -1 *)
Theorem C129_delta : forall N Cc S psi delta, encoded (Some N) (Some Cc) (Some S) psi delta -> single N <> -1 -> normal Cc -> normal S ->
  exists delta' d, fs32_delta (Some N) (Some Cc) (Some S) = Some delta' /\ circle_distance 360 delta delta' d /\ d <= 1 / 100000.
Proof. exact delta_single. Qed.
Print Assumptions C129_delta.

(** where N becomes -1, delta = 1 is read as 45 *)
Theorem C129_delta_refuted : exists N Cc S psi delta, encoded (Some N) (Some Cc) (Some S) psi delta /\ normal Cc /\ normal S /\
  fs_delta (Some N) (Some Cc) (Some S) = Some 1 /\ delta = 1 /\ fs32_delta (Some N) (Some Cc) (Some S) = Some 45.
Proof. exact delta_single_refuted. Qed.
Print Assumptions C129_delta_refuted.

(** a whole file: every point is within those distances of the psi and delta that were measured *)
Theorem C129_file : forall wavs aoi (ncs : list (list num)) (truth : list (R * R)),
  Forall2 (fun row t => exists N Cc S rest, row = Some N :: Some Cc :: Some S :: rest /\ encoded (Some N) (Some Cc) (Some S) (fst t) (snd t) /\
    single N <> -1 /\ normal Cc /\ normal S) ncs truth ->
  ld_wav (fs32_loaded wavs aoi ncs) = wavs /\ ld_aoi (fs32_loaded wavs aoi ncs) = map (fun _ => aoi) ncs /\
  Forall2 (fun o t => exists psi, o = Some psi /\ Rabs (psi - fst t) <= 75 / 10000) (ld_psi (fs32_loaded wavs aoi ncs)) truth /\
  Forall2 (fun o t => exists delta d, o = Some delta /\ circle_distance 360 (snd t) delta d /\ d <= 1 / 100000) (ld_delta (fs32_loaded wavs aoi ncs)) truth.
Proof. exact file_single. Qed.
Print Assumptions C129_file.

Example C129_example : Forall2 (fun row t => exists N Cc S rest, row = Some N :: Some Cc :: Some S :: rest /\ encoded (Some N) (Some Cc) (Some S) (fst t) (snd t) /\
    single N <> -1 /\ normal Cc /\ normal S) [[Some 0; Some 1; Some 0]; [Some (1 / 2); Some 0; Some (sqrt 3 / 2); Some 7]] [(45, 0); (30, 90)].
Proof. exact example_single. Qed.
