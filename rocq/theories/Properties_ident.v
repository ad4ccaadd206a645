(** * What a measurement determines (reflect_modelSE.py:170-322) *)

Require Import Reals.
From Coquelicot Require Import Rcomplements Complex.
Require Import List Bool Arith ZArith Lra Lia.
From Verif Require Import Base Cplx M_tmm Spec_optics P_tmm P_tmm2 P_tmm4 P_psidelta P_psidelta2 P_film P_examples M_objective
  Spec_ident P_ident P_ident2 P_ident3 P_cont P_cont2 P_cont3 P_identex.
Import ListNotations.
Open Scope R_scope.
Open Scope C_scope.

(** ** C116: thicknesses a whole number of interference orders apart *)
Theorem C116_order_ambiguity : forall tA (nA : C) rA pre (nL : C) (d rough : R) post tB nB rB (aoi w off : R) refl (k : Z),
  let s := (Re nA * sin (rad aoi))%R in
  w <> 0%R -> transparent nL -> (Rabs s < Re nL)%R ->
  fst (Delta_Psi_TMM [aoi] (table tA nA rA
        (pre ++ (nL, (d + IZR k * (10 * order_thickness (Re nL) s w))%R, rough) :: post) tB nB rB) w off refl) =
  fst (Delta_Psi_TMM [aoi] (table tA nA rA (pre ++ (nL, d, rough) :: post) tB nB rB) w off refl).
Proof. exact order_ambiguity. Qed.
Print Assumptions C116_order_ambiguity.

(** a film of index 1.6 at sin = 0.96 and 633 nm: 2473 A apart *)
Example C116_example :
  (10 * order_thickness (Re (RtoC (8/5))) (Re (RtoC 1) * sin (rad graz)) 633 = 6330 / (2 * (32 / 25)))%R /\
  transparent (RtoC (8/5)) /\ (Rabs (Re (RtoC 1) * sin (rad graz)) < Re (RtoC (8/5)))%R /\
  exists psi delta, fst (Delta_Psi_TMM [graz] (table 0 (RtoC 1) 0 ([] ++ (RtoC (8/5), quarter_plus 0, 0%R) :: []) 0 graz_back 0) 633 0 false)
    = Ok [(Some psi, Some delta)].
Proof. exact ex_order. Qed.

(** ** C117: a bare substrate *)
Theorem C117_substrate : forall tA (nA : C) rA tB nB rB (aoi w off psi delta : R),
  (0 < Re nA)%R -> (0 < aoi < 90)%R ->
  fst (Delta_Psi_TMM [aoi] (table tA nA rA [] tB nB rB) w off false) = Ok [(Some psi, Some delta)] ->
  1 + ratio psi (delta - off) <> 0 /\
  nB * nB = substrate_eps (Re nA) (rad aoi) (ratio psi (delta - off)).
Proof. exact bare_substrate. Qed.
Print Assumptions C117_substrate.

Theorem C117_identified : forall tA tA' (nA : C) rA rA' tB tB' nB nB' rB rB' (aoi w w' off psi delta : R) refl,
  (0 < Re nA)%R -> (0 < aoi < 90)%R -> passive nB -> passive nB' ->
  fst (Delta_Psi_TMM [aoi] (table tA nA rA [] tB nB rB) w off refl) = Ok [(Some psi, Some delta)] ->
  fst (Delta_Psi_TMM [aoi] (table tA' nA rA' [] tB' nB' rB') w' off refl) = Ok [(Some psi, Some delta)] ->
  nB = nB'.
Proof. exact bare_identified. Qed.
Print Assumptions C117_identified.

Example C117_example : forall refl, exists psi delta, (0 < Re (RtoC 1))%R /\ (0 < ex_aoi < 90)%R /\ passive (2, 1/10)%R /\
  fst (Delta_Psi_TMM [ex_aoi] (table 0 (RtoC 1) 0 [] 0 (2, 1/10)%R 0) 633 0 refl) = Ok [(Some psi, Some delta)].
Proof. exact ex_bare. Qed.

(** ** C118: Brewster's angle and total reflection *)
Theorem C118_brewster : forall tA (nA : C) rA tB nB rB (aoi w off : R) refl,
  (0 < Re nA)%R -> (0 < aoi < 90)%R -> (0 < w)%R -> passive nB -> nB <> RtoC (Re nA) ->
  exists psi od,
    fst (Delta_Psi_TMM [aoi] (table tA nA rA [] tB nB rB) w off refl) = Ok [(Some psi, od)] /\
    (psi = 0%R <-> Im nB = 0%R /\ tan (rad aoi) = (Re nB / Re nA)%R) /\
    (psi = 0%R <-> od = None).
Proof. exact brewster. Qed.
Print Assumptions C118_brewster.

Theorem C118_total_reflection : forall tA (nA : C) rA inner tB (nB : C) rB (aoi w off : R) refl,
  (0 < Re nA)%R -> (0 < aoi < 90)%R -> (0 < w)%R ->
  let s := (Re nA * sin (rad aoi))%R in
  Forall (fun nd => transparent (fst nd) /\ (0 <= snd nd)%R) (nm inner) ->
  passive_film s w (nm inner) nB -> transparent nB -> (Re nB < s)%R ->
  exists delta,
    fst (Delta_Psi_TMM [aoi] (table tA nA rA inner tB nB rB) w off refl) = Ok [(Some 45%R, Some delta)].
Proof. exact total_reflection_psi. Qed.
Print Assumptions C118_total_reflection.

(** tan = 3/4, light passing from index 4 to index 3 *)
Example C118_example : forall refl,
  (0 < Re (RtoC 4))%R /\ (0 < ex_aoi < 90)%R /\ passive (RtoC 3) /\ RtoC 3 <> RtoC (Re (RtoC 4)) /\
  fst (Delta_Psi_TMM [ex_aoi] (table 0 (RtoC 4) 0 [] 0 (RtoC 3) 0) 633 0 refl) = Ok [(Some 0%R, None)].
Proof. exact ex_brewster. Qed.

(** from index 2 through a film of index 1.56 towards air, sin = 0.6 *)
Example C118_example_total : (0 < Re (RtoC 2))%R /\ (0 < ex_aoi < 90)%R /\
  Forall (fun nd => transparent (fst nd) /\ (0 <= snd nd)%R) (nm ex_inner) /\
  passive_film (Re (RtoC 2) * sin (rad ex_aoi)) 633 (nm ex_inner) (RtoC 1) /\ transparent (RtoC 1) /\
  (Re (RtoC 1) < Re (RtoC 2) * sin (rad ex_aoi))%R.
Proof. exact ex_total. Qed.

(** ** C119: continuity in the thicknesses *)
Theorem C119_psi : forall tA (nA : C) rA F tB (nB : C) rB (aoi w off : R) refl x rs ts rp tp,
  Forall (fun l => continuity_pt (snd (fst l)) x) F ->
  coh_tmm (ns (RtoC (Re nA)) (nm (film_at F x)) nB) (ds PInf (nm (film_at F x)) PInf) [(rad aoi, w)]
    = Ok [mkAmp (Some (rs, ts)) (Some (rp, tp))] ->
  rs <> 0 -> settles (psi_at tA nA rA F tB nB rB aoi w off refl) x.
Proof. exact psi_continuous. Qed.
Print Assumptions C119_psi.

Theorem C119_residual : forall tA (nA : C) rA F tB (nB : C) rB (aoi w off : R) x rs ts rp tp (measured : R),
  Forall (fun l => continuity_pt (snd (fst l)) x) F ->
  coh_tmm (ns (RtoC (Re nA)) (nm (film_at F x)) nB) (ds PInf (nm (film_at F x)) PInf) [(rad aoi, w)]
    = Ok [mkAmp (Some (rs, ts)) (Some (rp, tp))] ->
  rs <> 0 -> rp <> 0 -> (0 <= measured - off <= 360)%R ->
  settles (fun y => omap (fun d => circular_distance measured d 360)
                         (delta_at tA nA rA F tB nB rB aoi w off false y)) x.
Proof. exact residual_continuous. Qed.
Print Assumptions C119_residual.

Theorem C119_folded : forall tA (nA : C) rA F tB (nB : C) rB (aoi w off : R) x rs ts rp tp,
  Forall (fun l => continuity_pt (snd (fst l)) x) F ->
  coh_tmm (ns (RtoC (Re nA)) (nm (film_at F x)) nB) (ds PInf (nm (film_at F x)) PInf) [(rad aoi, w)]
    = Ok [mkAmp (Some (rs, ts)) (Some (rp, tp))] ->
  rs <> 0 -> rp <> 0 ->
  settles (delta_at tA nA rA F tB nB rB aoi w off true) x.
Proof. exact folded_continuous. Qed.
Print Assumptions C119_folded.

(** delta itself jumps from 360 to below 180, although everything is defined *)
Theorem C119_delta_refuted : exists (nA nB : C) F aoi w x rs ts rp tp,
  Forall (fun l => continuity_pt (snd (fst l)) x) F /\
  coh_tmm (ns (RtoC (Re nA)) (nm (film_at F x)) nB) (ds PInf (nm (film_at F x)) PInf) [(rad aoi, w)]
    = Ok [mkAmp (Some (rs, ts)) (Some (rp, tp))] /\
  rs <> 0 /\ rp <> 0 /\ ~ settles (delta_at 0 nA 0 F 0 nB 0 aoi w 0 false) x.
Proof. exact delta_jumps_ex. Qed.
Print Assumptions C119_delta_refuted.

(** the same film meets the hypotheses of the three theorems *)
Example C119_example : exists rs ts rp tp,
  Forall (fun l => continuity_pt (snd (fst l)) 0) graz_film /\
  coh_tmm (ns (RtoC (Re (RtoC 1))) (nm (film_at graz_film 0)) graz_back) (ds PInf (nm (film_at graz_film 0)) PInf) [(rad graz, 633%R)]
    = Ok [mkAmp (Some (rs, ts)) (Some (rp, tp))] /\
  rs <> 0 /\ rp <> 0 /\ (0 <= 350 - 0 <= 360)%R.
Proof.
  destruct delta_jumps as (A & B & D & E & _). do 4 eexists. split; [exact A|]. split; [exact B|]. split; [exact D|]. split; [exact E|]. lra.
Qed.
