(** * How many thicknesses of a layer fit one measured point (reflect_modelSE.py:170-322)

    [distinguishable s w n l]: Spec_thick.  [table], [order_thickness]: Spec_ident. *)

Require Import Reals.
From Coquelicot Require Import Rcomplements Complex.
Require Import List Bool Arith ZArith Lra Lia.
From Verif Require Import Base Cplx M_tmm Spec_optics P_psidelta P_psidelta2 P_examples P_film M_objective Spec_ident P_ident P_ident2 P_ident3 P_cont P_cont2 P_cont3 P_identex
  Spec_thick P_thick P_thick2 P_thick3.
Import ListNotations.
Open Scope R_scope.
Open Scope C_scope.

(** ** C139.  A layer anywhere in a stack: if three thicknesses (five if delta is folded) give the same
    psi and delta, all thicknesses do *)
Theorem C139_two : forall tA (nA : C) rA pre (nL : C) (rough : R) post tB nB rB (aoi w off : R) refl l psi delta,
  let s := (Re nA * sin (rad aoi))%R in
  let gives d psi delta := fst (Delta_Psi_TMM [aoi] (table tA nA rA (pre ++ (nL, d, rough) :: post) tB nB rB) w off refl) = Ok [(Some psi, Some delta)] in
  (0 < w)%R -> passive nL -> distinguishable s w nL l ->
  ((if refl then 5 else 3) <= List.length l)%nat -> Forall (fun d => gives d psi delta) l ->
  forall d psi' delta', gives d psi' delta' -> psi' = psi /\ delta' = delta.
Proof. exact thickness_two. Qed.
Print Assumptions C139_two.

(** a film of the index of its backing: 1, 2 and 3 A give the same *)
Example C139_two_example : exists psi delta, passive (RtoC (8 / 5)) /\
  distinguishable (Re (RtoC 1) * sin (rad ex_aoi)) 633 (RtoC (8 / 5)) [1; 2; 3]%R /\
  Forall (fun d => fst (Delta_Psi_TMM [ex_aoi] (table 0 (RtoC 1) 0 ([] ++ (RtoC (8 / 5), d, 0%R) :: []) 0 (RtoC (8 / 5)) 0) 633 0 false) =
    Ok [(Some psi, Some delta)]) [1; 2; 3]%R.
Proof. destruct transparent_all as (psi & delta & D & F). exists psi, delta. split; [split; simpl; lra|]. split; [exact D|exact F]. Qed.

(** a thin absorbing film *)
Example C139_absorbing_example : passive (2, 1 / 10)%R /\ distinguishable (Re (RtoC 1) * sin (rad ex_aoi)) 633 (2, 1 / 10)%R [1; 2; 3]%R.
Proof. split; [split; simpl; lra|exact absorbing_apart]. Qed.

(** ** a single film whose index differs from both neighbours: at most two thicknesses (four if folded) *)
Theorem C139_single : forall tA (nA : C) rA (nL : C) rough tB (nB : C) rB (aoi w off : R) refl l psi delta,
  let s := (Re nA * sin (rad aoi))%R in
  (0 < Re nA)%R -> (0 < aoi < 90)%R -> (0 < w)%R -> passive nL -> passive nB -> nL <> RtoC (Re nA) -> nL <> nB ->
  distinguishable s w nL l ->
  Forall (fun d => fst (Delta_Psi_TMM [aoi] (table tA nA rA [(nL, d, rough)] tB nB rB) w off refl) = Ok [(Some psi, Some delta)]) l ->
  (List.length l <= if refl then 4 else 2)%nat.
Proof. exact single_two. Qed.
Print Assumptions C139_single.

(** two thicknesses within an interference order with the same psi and delta: the bound is reached, and
    psi and delta do not determine the thickness even up to interference orders *)
Theorem C139_unique_refuted : exists (nA nL nB : C) aoi w d d',
  (0 < Re nA)%R /\ (0 < aoi < 90)%R /\ (0 < w)%R /\ passive nL /\ passive nB /\ nL <> RtoC (Re nA) /\ nL <> nB /\
  distinguishable (Re nA * sin (rad aoi)) w nL [d; d'] /\
  forall refl, exists psi delta,
    fst (Delta_Psi_TMM [aoi] (table 0 nA 0 [(nL, d, 0%R)] 0 nB 0) w 0 refl) = Ok [(Some psi, Some delta)] /\
    fst (Delta_Psi_TMM [aoi] (table 0 nA 0 [(nL, d', 0%R)] 0 nB 0) w 0 refl) = Ok [(Some psi, Some delta)].
Proof. exact unique_refuted. Qed.
Print Assumptions C139_unique_refuted.

(** the hypotheses of [C139_single], with two thicknesses *)
Example C139_single_example : exists psi delta,
  distinguishable (Re (RtoC 1) * sin (rad graz)) 633 (RtoC (8 / 5)) [quarter_plus y0; quarter_plus (- y0)] /\
  Forall (fun d => fst (Delta_Psi_TMM [graz] (table 0 (RtoC 1) 0 [(RtoC (8 / 5), d, 0%R)] 0 (RtoC (26 / 25)) 0) 633 0 false) =
    Ok [(Some psi, Some delta)]) [quarter_plus y0; quarter_plus (- y0)].
Proof.
  destruct (two_thicknesses false) as (psi & delta & A & B). exists psi, delta. split; [exact low_distinguishable|].
  constructor; [exact A|constructor; [exact B|constructor]].
Qed.
