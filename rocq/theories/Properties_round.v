(** * Simulated data, saved and loaded again (dataSE.py:107-269, objectiveSE.py:95-305)

    [simulated X psi delta], [with_arrays sy h]: Spec_round. *)

Require Import Reals List Bool String Lra Lia ZArith.
From Verif Require Import Base M_data M_objective Spec_data Spec_objective P_objective P_objective3 Spec_round P_round P_round2.
Import ListNotations.
Open Scope list_scope.
Open Scope R_scope.

(** ** C140.  What a model predicts, saved with DataSE.save and loaded with DataSE, is fitted perfectly by the
    model, and no parameter values give a greater likelihood.  Other values fit perfectly only if they
    predict the same psi and the same delta up to turns. *)
Theorem C140_round_trip : forall pf pr sy st m X psi delta h d name refl lnsigma use_weights extra,
  predicts sy st m X (map Some psi) (map Some delta) -> (m < List.length (st_flips st))%nat -> nth m (st_flips st) false = refl ->
  (refl = true -> value sy st (mo_offset (the_model sy m)) <= 0) ->
  holds h d (simulated X psi delta) -> (2 <= List.length X)%nat ->
  Forall (point_survives pf pr) (simulated X psi delta) -> pf "# wavelength"%string = None ->
  exists lines d' h', save pr h d = Ok lines /\ new_dataset pf (sy_heap sy) tab (FromFile name lines) refl = Ok (d', h') /\
  exists o, new_objective m d' lnsigma use_weights extra st = (o, st) /\
  let sy' := with_arrays sy h' in
  fst (residuals sy' o None st) = Ok (map (fun _ => Some 0) (psi ++ delta)) /\ fst (chisqr sy' o None st) = Ok (Some 0) /\
  fst (logl sy' o None st) = Ok 0 /\
  (forall v l, fst (logl sy' o v st) = Ok l -> l <= 0) /\
  (forall v st1 psi' delta', setp sy' o v st = (Ok tt, st1) -> predicts sy' st1 m X (map Some psi') (map Some delta') ->
     Forall2 (fun a b => Rabs (a - b) <= 360) delta' delta ->
     (fst (chisqr sy' o v st) = Ok (Some 0) <-> psi' = psi /\ Forall2 (fun a b => exists k : Z, a - b = IZR k * 360) delta' delta)).
Proof. exact round_trip_any. Qed.
Print Assumptions C140_round_trip.

(** glass in air, with an offset of -10 degrees and folding *)
Example C140_round_trip_example :
  predicts (sys_r []) (st_r (-10) true) 0%nat X_r (map Some [45; 45]) (map Some [170; 170]) /\
  nth 0 (st_flips (st_r (-10) true)) false = true /\ value (sys_r []) (st_r (-10) true) (mo_offset (the_model (sys_r []) 0%nat)) <= 0 /\
  holds (heap_r 170) data_r (simulated X_r [45; 45] [170; 170]) /\
  Forall (point_survives (parse_r 170) print_r) (simulated X_r [45; 45] [170; 170]) /\ parse_r 170 "# wavelength"%string = None.
Proof.
  split.
  { pose proof (model_r [] (st_r (-10) true) eq_refl) as Q. replace (180 + st_store (st_r (-10) true) 1%nat) with 170 in Q; [exact Q|cbn; ring]. }
  split; [reflexivity|]. split; [cbn; lra|]. split; [apply holds_r|]. split; [apply survives_r; lra|reflexivity].
Qed.

(** other values of the offset do not fit them *)
Example C140_only_then_example : forall h o, ob_model o = 0%nat -> setp (sys_r h) o None (st_r 5 false) = (Ok tt, st_r 5 false) /\
  predicts (sys_r h) (st_r 5 false) 0%nat X_r (map Some [45; 45]) (map Some [185; 185]) /\
  Forall2 (fun a b => Rabs (a - b) <= 360) [185; 185] [170; 170].
Proof.
  intros h o _. split; [reflexivity|]. split.
  { pose proof (model_r h (st_r 5 false) eq_refl) as Q. replace (180 + st_store (st_r 5 false) 1%nat) with 185 in Q; [exact Q|cbn; ring]. }
  assert (A : Rabs (185 - 170) <= 360) by (rewrite Rabs_pos_eq; lra). constructor; [exact A|]. constructor; [exact A|constructor].
Qed.

(** with folding and a positive delta_offset this fails: the model folds delta before adding the offset, the
    data are folded after *)
Theorem C140_offset_refuted : exists pf pr sy st m X psi delta h d,
  predicts sy st m X (map Some psi) (map Some delta) /\ (m < List.length (st_flips st))%nat /\ nth m (st_flips st) false = true /\
  holds h d (simulated X psi delta) /\ (2 <= List.length X)%nat /\
  Forall (point_survives pf pr) (simulated X psi delta) /\ pf "# wavelength"%string = None /\
  forall name lnsigma use_weights extra,
  exists lines d' h', save pr h d = Ok lines /\ new_dataset pf (sy_heap sy) tab (FromFile name lines) true = Ok (d', h') /\
  exists o, new_objective m d' lnsigma use_weights extra st = (o, st) /\
  exists c, fst (chisqr (with_arrays sy h') o None st) = Ok (Some c) /\ 0 < c.
Proof. exact offset_refuted. Qed.
Print Assumptions C140_offset_refuted.
