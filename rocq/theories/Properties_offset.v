(** * delta_offset and chi-squared (reflect_modelSE.py:309-322, objectiveSE.py:162-226)

    [moved_offset sy m c st st'], [shifted], [mean], [errors measured predicted]: Spec_offset. *)

Require Import Reals List Bool Lra Lia.
From Verif Require Import Base M_disp M_struct M_model M_data M_objective Spec_data Spec_objective P_objective P_objective2 P_objective3 Spec_round P_round P_round2
  Spec_offset Spec_offset2 P_offset P_offset2 P_offset3 P_offset4.
Import ListNotations.
Open Scope list_scope.
Open Scope R_scope.

(** ** C141.  delta_offset is added to the predicted delta, whatever the structure and with or without folding *)
Theorem C141_added : forall sy m c st st' X psi delta, moved_offset sy m c st st' -> predicts sy st m X psi delta ->
  predicts sy st' m X psi (shifted c delta).
Proof. exact prediction_moves. Qed.
Print Assumptions C141_added.

(** an offset in the measured delta is absorbed: residuals and chi-squared are the same *)
Theorem C141_absorbed : forall sy h' o o' v v' st st' st1 st1' sel sel' X psi delta c,
  let sy' := with_arrays sy h' in
  has_data sy o sel X -> has_data sy' o' sel' X -> map p_psi sel' = map p_psi sel -> map p_delta sel' = shifted c (map p_delta sel) ->
  ob_model o' = ob_model o -> setp sy o v st = (Ok tt, st1) -> setp sy' o' v' st' = (Ok tt, st1') ->
  moved_offset sy (ob_model o) c st1 st1' -> predicts sy st1 (ob_model o) X psi delta ->
  exists r, fst (residuals sy o v st) = Ok r /\ fst (residuals sy' o' v' st') = Ok r /\ fst (chisqr sy o v st) = fst (chisqr sy' o' v' st').
Proof. exact offset_absorbed. Qed.
Print Assumptions C141_absorbed.

(** chi-squared is a parabola in the offset as long as no point is more than half a turn away *)
Theorem C141_parabola : forall sy o st st1 v sel X pm dm psi delta,
  has_data sy o sel X -> map p_psi sel = map Some pm -> map p_delta sel = map Some dm ->
  setp sy o v st = (Ok tt, st1) -> predicts sy st1 (ob_model o) X (map Some psi) (map Some delta) ->
  forall v' c st2, setp sy o v' st = (Ok tt, st2) -> moved_offset sy (ob_model o) c st1 st2 ->
  Forall2 (fun a b => Rabs (a + c - b) <= 180) delta dm ->
  fst (chisqr sy o v' st) = Ok (Some (sum (map (fun x => x ^ 2) (errors pm psi)) + sum (map (fun x => (x - c) ^ 2) (errors dm delta)))).
Proof. exact chisqr_offset. Qed.
Print Assumptions C141_parabola.

(** among those offsets none is better than the mean difference between measured and predicted delta *)
Theorem C141_best : forall sy o st st1 v sel X pm dm psi delta,
  has_data sy o sel X -> map p_psi sel = map Some pm -> map p_delta sel = map Some dm ->
  setp sy o v st = (Ok tt, st1) -> predicts sy st1 (ob_model o) X (map Some psi) (map Some delta) ->
  forall v' c st2 v0 st0, (0 < List.length sel)%nat ->
  setp sy o v' st = (Ok tt, st2) -> moved_offset sy (ob_model o) c st1 st2 ->
  setp sy o v0 st = (Ok tt, st0) -> moved_offset sy (ob_model o) (mean (errors dm delta)) st1 st0 ->
  Forall2 (fun a b => Rabs (a + c - b) <= 180) delta dm ->
  exists x0 x, fst (chisqr sy o v0 st) = Ok (Some x0) /\ fst (chisqr sy o v' st) = Ok (Some x) /\
    x0 + INR (List.length sel) * (c - mean (errors dm delta)) ^ 2 <= x.
Proof. exact best_offset. Qed.
Print Assumptions C141_best.

(** an offset fits perfectly exactly when psi agrees and every delta agrees up to one turn *)
Theorem C141_perfect : forall sy o st st1 v sel X pm dm psi delta,
  has_data sy o sel X -> map p_psi sel = map Some pm -> map p_delta sel = map Some dm ->
  setp sy o v st = (Ok tt, st1) -> predicts sy st1 (ob_model o) X (map Some psi) (map Some delta) ->
  forall v' c st2, setp sy o v' st = (Ok tt, st2) -> moved_offset sy (ob_model o) c st1 st2 ->
  (fst (chisqr sy o v' st) = Ok (Some 0) <-> pm = psi /\ Forall2 (fun a b => same_or_turn (a + c) b) delta dm).
Proof. exact perfect_offset. Qed.
Print Assumptions C141_perfect.

(** two such offsets differ by whole turns; within one turn there is only one *)
Theorem C141_perfect_unique : forall sy o st st1 v sel X pm dm psi delta,
  has_data sy o sel X -> map p_psi sel = map Some pm -> map p_delta sel = map Some dm ->
  setp sy o v st = (Ok tt, st1) -> predicts sy st1 (ob_model o) X (map Some psi) (map Some delta) ->
  forall v1 c1 t1 v2 c2 t2, (0 < List.length sel)%nat ->
  setp sy o v1 st = (Ok tt, t1) -> moved_offset sy (ob_model o) c1 st1 t1 ->
  setp sy o v2 st = (Ok tt, t2) -> moved_offset sy (ob_model o) c2 st1 t2 ->
  fst (chisqr sy o v1 st) = Ok (Some 0) -> fst (chisqr sy o v2 st) = Ok (Some 0) ->
  (exists k : Z, c1 - c2 = IZR k * 360) /\ (Rabs (c1 - c2) < 360 -> c1 = c2).
Proof. exact perfect_unique. Qed.
Print Assumptions C141_perfect_unique.

(** no offset can repair errors in delta that are not the same at all points, up to whole turns *)
Theorem C141_perfect_possible : forall sy o st st1 v sel X pm dm psi delta,
  has_data sy o sel X -> map p_psi sel = map Some pm -> map p_delta sel = map Some dm ->
  setp sy o v st = (Ok tt, st1) -> predicts sy st1 (ob_model o) X (map Some psi) (map Some delta) ->
  forall v' c st2 i j ei ej, setp sy o v' st = (Ok tt, st2) -> moved_offset sy (ob_model o) c st1 st2 ->
  fst (chisqr sy o v' st) = Ok (Some 0) -> nth_error (errors dm delta) i = Some ei -> nth_error (errors dm delta) j = Some ej ->
  exists k : Z, ei - ej = IZR k * 360.
Proof. exact perfect_possible. Qed.
Print Assumptions C141_perfect_possible.

(** glass, measured at 184 and at 544 degrees (one turn more), with the offset 4 *)
Example C141_perfect_example : exists st1 st2, let sy := sys_r (heap_o 184 544) in let o := ob_o None in let st := st_r 0 false in
  has_data sy o (simulated X_r [45; 45] [184; 544]) X_r /\ setp sy o (Some [0]) st = (Ok tt, st1) /\
  predicts sy st1 0%nat X_r (map Some [45; 45]) (map Some [180 + 0; 180 + 0]) /\
  setp sy o (Some [4]) st = (Ok tt, st2) /\ moved_offset sy 0%nat (4 - 0) st1 st2 /\
  Forall2 (fun a b => same_or_turn (a + (4 - 0)) b) [180 + 0; 180 + 0] [184; 544].
Proof.
  destruct (setp_o 184 544 0 0) as (st1 & S1 & V1 & Z1 & F1 & P1). destruct (setp_o 184 544 4 0) as (st2 & S2 & V2 & Z2 & F2 & _).
  exists st1, st2. cbv zeta. split; [apply data_o|]. split; [exact S1|]. split; [exact P1|]. split; [exact S2|].
  split; [apply moved_o; congruence|]. constructor; [left; lra|constructor; [right; right; lra|constructor]].
Qed.

(** glass, measured at 182 and 190 degrees, with the offsets 0, 6 (the mean) and 8 *)
Example C141_example : exists st1 st0 st2, let sy := sys_r (heap_o 182 190) in let o := ob_o None in let st := st_r 0 false in
  has_data sy o (simulated X_r [45; 45] [182; 190]) X_r /\ setp sy o (Some [0]) st = (Ok tt, st1) /\
  predicts sy st1 0%nat X_r (map Some [45; 45]) (map Some [180 + 0; 180 + 0]) /\
  mean (errors [182; 190] [180 + 0; 180 + 0]) = 6 - 0 /\
  setp sy o (Some [6]) st = (Ok tt, st0) /\ moved_offset sy 0%nat (6 - 0) st1 st0 /\
  setp sy o (Some [8]) st = (Ok tt, st2) /\ moved_offset sy 0%nat (8 - 0) st1 st2 /\
  Forall2 (fun a b => Rabs (a + (8 - 0) - b) <= 180) [180 + 0; 180 + 0] [182; 190].
Proof.
  destruct (setp_o 182 190 0 0) as (st1 & S1 & V1 & Z1 & F1 & P1). destruct (setp_o 182 190 6 0) as (st0 & S0 & V0 & Z0 & F0 & _).
  destruct (setp_o 182 190 8 0) as (st2 & S2 & V2 & Z2 & F2 & _). exists st1, st0, st2. cbv zeta.
  split; [apply data_o|]. split; [exact S1|]. split; [exact P1|]. split; [unfold mean, errors; cbn; field|]. split; [exact S0|].
  split; [apply moved_o; congruence|]. split; [exact S2|]. split; [apply moved_o; congruence|].
  constructor; [|constructor; [|constructor]]; apply Rabs_le; lra.
Qed.

(** the mean is not the best offset in general: with points on both sides of 0 degrees another one is better *)
Theorem C141_mean_refuted : exists sy o st st1 v sel X pm dm psi delta v' c st2 v0 st0 x0 x,
  has_data sy o sel X /\ map p_psi sel = map Some pm /\ map p_delta sel = map Some dm /\
  setp sy o v st = (Ok tt, st1) /\ predicts sy st1 (ob_model o) X (map Some psi) (map Some delta) /\
  setp sy o v' st = (Ok tt, st2) /\ moved_offset sy (ob_model o) c st1 st2 /\
  setp sy o v0 st = (Ok tt, st0) /\ moved_offset sy (ob_model o) (mean (errors dm delta)) st1 st0 /\
  Forall2 (fun a b => Rabs (a + c - b) <= 360) delta dm /\
  fst (chisqr sy o v0 st) = Ok (Some x0) /\ fst (chisqr sy o v' st) = Ok (Some x) /\ x < x0.
Proof. exact mean_refuted. Qed.
Print Assumptions C141_mean_refuted.

(** with lnsigma the log-likelihood is not the same for data and offset moved together: the variance grows with
    the predicted delta, which has no natural origin *)
Theorem C141_lnsigma_refuted : exists sy h' o v v' st st1 st1' sel sel' X psi delta c l l',
  let sy' := with_arrays sy h' in
  has_data sy o sel X /\ has_data sy' o sel' X /\ map p_psi sel' = map p_psi sel /\ map p_delta sel' = shifted c (map p_delta sel) /\
  setp sy o v st = (Ok tt, st1) /\ setp sy' o v' st = (Ok tt, st1') /\
  moved_offset sy (ob_model o) c st1 st1' /\ predicts sy st1 (ob_model o) X psi delta /\
  fst (logl sy o v st) = Ok l /\ fst (logl sy' o v' st) = Ok l' /\ l <> l'.
Proof. exact lnsigma_refuted. Qed.
Print Assumptions C141_lnsigma_refuted.
