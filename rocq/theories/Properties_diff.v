(** * Slopes of psi, delta and the residuals (reflect_modelSE.py:170-322, objectiveSE.py:266-298) *)

Require Import Reals.
From Coquelicot Require Import Coquelicot.
Require Import List Bool Lra.
From Verif Require Import Base Cplx M_tmm M_objective Spec_optics P_tmm P_tmm2 P_tmm4 P_examples Spec_ident P_cont3 Spec_diff P_psidelta P_diff P_diff2 P_diff3.
Import ListNotations.
Open Scope R_scope.

(** ** C131: differentiability *)
Theorem C131_psi : forall tA rA tB rB nA F nB aoi w off x rs ts rp tp,
  smooth_stack nA F nB (rad aoi) w x ->
  coh_tmm (ns (RtoC (Re (nA x))) (nm (film_of F x)) (nB x)) (ds PInf (nm (film_of F x)) PInf) [(rad aoi, w)]
    = Ok [mkAmp (Some (rs, ts)) (Some (rp, tp))] ->
  rs <> 0%C -> rp <> 0%C -> forall refl,
  slopes (psi_on (fun y => table tA (nA y) rA (film_of F y) tB (nB y) rB) aoi w off refl) x.
Proof. exact psi_slope. Qed.
Print Assumptions C131_psi.

Theorem C131_delta : forall tA rA tB rB nA F nB aoi w off x rs ts rp tp,
  smooth_stack nA F nB (rad aoi) w x ->
  coh_tmm (ns (RtoC (Re (nA x))) (nm (film_of F x)) (nB x)) (ds PInf (nm (film_of F x)) PInf) [(rad aoi, w)]
    = Ok [mkAmp (Some (rs, ts)) (Some (rp, tp))] ->
  rs <> 0%C -> rp <> 0%C -> let T y := table tA (nA y) rA (film_of F y) tB (nB y) rB in forall d,
  delta_on T aoi w off false x = Some d -> d <> off + 360 -> slopes (delta_on T aoi w off false) x.
Proof. exact delta_slope. Qed.
Print Assumptions C131_delta.

Theorem C131_folded : forall tA rA tB rB nA F nB aoi w off x rs ts rp tp,
  smooth_stack nA F nB (rad aoi) w x ->
  coh_tmm (ns (RtoC (Re (nA x))) (nm (film_of F x)) (nB x)) (ds PInf (nm (film_of F x)) PInf) [(rad aoi, w)]
    = Ok [mkAmp (Some (rs, ts)) (Some (rp, tp))] ->
  rs <> 0%C -> rp <> 0%C -> let T y := table tA (nA y) rA (film_of F y) tB (nB y) rB in forall d,
  delta_on T aoi w off true x = Some d -> d <> off -> d <> off + 180 -> slopes (delta_on T aoi w off true) x.
Proof. exact folded_slope. Qed.
Print Assumptions C131_folded.

Theorem C131_residual : forall tA rA tB rB nA F nB aoi w off x rs ts rp tp,
  smooth_stack nA F nB (rad aoi) w x ->
  coh_tmm (ns (RtoC (Re (nA x))) (nm (film_of F x)) (nB x)) (ds PInf (nm (film_of F x)) PInf) [(rad aoi, w)]
    = Ok [mkAmp (Some (rs, ts)) (Some (rp, tp))] ->
  rs <> 0%C -> rp <> 0%C -> let T y := table tA (nA y) rA (film_of F y) tB (nB y) rB in forall measured d,
  0 <= measured - off <= 360 -> delta_on T aoi w off false x = Some d -> 0 < circular_distance measured d 360 < 180 ->
  slopes (fun y => omap (fun d => circular_distance measured d 360) (delta_on T aoi w off false y)) x.
Proof. exact residual_slope. Qed.
Print Assumptions C131_residual.

(** what symmetric difference quotients tend to *)
Theorem C131_central : forall g x l, has_slope g x l ->
  forall eps, 0 < eps -> exists eta, 0 < eta /\ forall h, 0 < h < eta ->
    exists u v, g (x + h) = Some u /\ g (x - h) = Some v /\ Rabs ((u - v) / (2 * h) - l) < eps.
Proof. exact central. Qed.
Print Assumptions C131_central.

(** at a perfect fit the residual has a kink, and its symmetric difference quotients tend to 0 *)
Theorem C131_perfect_fit : forall g x l m, has_slope g x l -> g x = Some m ->
  (slopes (fun y => omap (fun d => circular_distance m d 360) (g y)) x <-> l = 0) /\
  (forall eps, 0 < eps -> exists eta, 0 < eta /\ forall h, 0 < h < eta ->
    exists u v, omap (fun d => circular_distance m d 360) (g (x + h)) = Some u /\ omap (fun d => circular_distance m d 360) (g (x - h)) = Some v /\
      Rabs ((u - v) / (2 * h)) < eps).
Proof. exact kink. Qed.
Print Assumptions C131_perfect_fit.

(** without the condition on the sines: at the critical angle of the backing, psi has no slope in its index *)
Theorem C131_critical_refuted : exists (nA nB : R -> C) (F : films) aoi w x rs ts rp tp,
  (forall y, ex_derive (fun y => Re (nA y)) y) /\ (forall y, cdiff nB y) /\ Forall (fun l => cdiff (fst (fst l)) x /\ ex_derive (snd (fst l)) x) F /\
  coh_tmm (ns (RtoC (Re (nA x))) (nm (film_of F x)) (nB x)) (ds PInf (nm (film_of F x)) PInf) [(rad aoi, w)] = Ok [mkAmp (Some (rs, ts)) (Some (rp, tp))] /\
  rs <> 0%C /\ rp <> 0%C /\ ~ slopes (psi_on (fun y => table 0 (nA y) 0 (film_of F y) 0 (nB y) 0) aoi w 0 false) x.
Proof. exact critical_ex. Qed.
Print Assumptions C131_critical_refuted.

(** an absorbing substrate of index 2 + y + 0.1 i *)
Example C131_index : smooth_stack (fun _ => RtoC 1) [] sub_index (rad ex_aoi) 633 0 /\ forall refl, exists psi delta rs ts rp tp,
  psi_on sub_table ex_aoi 633 0 refl 0 = Some psi /\ delta_on sub_table ex_aoi 633 0 refl 0 = Some delta /\
  coh_tmm (ns (RtoC (Re (RtoC 1))) (nm (film_of [] 0)) (sub_index 0)) (ds PInf (nm (film_of [] 0)) PInf) [(rad ex_aoi, 633)]
    = Ok [mkAmp (Some (rs, ts)) (Some (rp, tp))] /\ rs <> 0%C /\ rp <> 0%C.
Proof. exact (conj sub_smooth sub_defined). Qed.
(** a film whose thickness varies: delta is between 0 and 180, and its slope is not always 0 *)
Example C131_thickness : forall x, - (PI / 2) < x < 0 -> smooth_stack (fun _ => RtoC 1) thick_film (fun _ => graz_back) (rad graz) 633 x /\
  (exists ts tp, coh_tmm (ns (RtoC (Re (RtoC 1))) (nm (film_of thick_film x)) graz_back) (ds PInf (nm (film_of thick_film x)) PInf) [(rad graz, 633)]
    = Ok [mkAmp (Some (g_rs x, ts)) (Some (g_rp x, tp))]) /\ g_rs x <> 0%C /\ g_rp x <> 0%C /\
  delta_on thick_table graz 633 0 false x = Some (thick_value x) /\ 0 < thick_value x < 180.
Proof. exact (fun x H => conj (thick_smooth x) (conj (thick_amp x) (conj (proj1 (g_r_nz x)) (conj (proj2 (g_r_nz x)) (conj (thick_delta x) (thick_below x H)))))). Qed.
Example C131_kink : exists x l, - (PI / 2) < x < 0 /\ has_slope (delta_on thick_table graz 633 0 false) x l /\ l <> 0.
Proof. exact thick_steep. Qed.
