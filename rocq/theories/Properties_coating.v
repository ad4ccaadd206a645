(** * Property C150: coatings of quarter-wave layers *)

Require Import Reals Lra List.
From Coquelicot Require Import Complex.
Require Import List.
From Verif Require Import Base Cplx M_tmm Spec_optics Spec_admit Spec_coating P_tmm2 P_psidelta P_examples P_coating P_coating2.
Import ListNotations.
Open Scope R_scope.

(** The reflected amplitudes of any stack of transparent quarter-wave layers are real and known in closed form. *)
Theorem C150_amplitudes : forall n0 layers nB aoi w,
  quarter_coating n0 layers nB aoi w ->
  exists ts tp,
  coh_tmm (ns (RtoC n0) (nm (coat_rows layers)) (RtoC nB)) (ds PInf (nm (coat_rows layers)) PInf) [(rad aoi, w)] =
  Ok [mkAmp (Some (RtoC (coating_r pS n0 layers nB aoi), ts)) (Some (RtoC (coating_r pP n0 layers nB aoi), tp))].
Proof. exact coating_amplitudes. Qed.
Print Assumptions C150_amplitudes.

(** What Delta_Psi_TMM reads from them, also where one or both polarisations are not reflected. *)
Theorem C150_reading : forall tA rA tB rB n0 layers nB aoi w off,
  quarter_coating n0 layers nB aoi w ->
  exists psi delta,
  fst (Delta_Psi_TMM [aoi] (table tA (RtoC n0) rA (coat_rows layers) tB (RtoC nB) rB) w off false) = Ok [(psi, delta)] /\
  reading off (coating_r pS n0 layers nB aoi) (coating_r pP n0 layers nB aoi) psi delta.
Proof. exact coating_reading. Qed.
Print Assumptions C150_reading.

(** One layer: nothing is reflected exactly when its admittance is the geometric mean of those around it. *)
Theorem C150_antireflection : forall p n0 n d r nB aoi w,
  quarter_coating n0 [(n, d, r)] nB aoi w ->
  let s := n0 * sin (rad aoi) in
  coating_r p n0 [(n, d, r)] nB aoi = 0 <-> tilted p s n * tilted p s n = tilted p s n0 * tilted p s nB.
Proof. exact antireflection. Qed.
Print Assumptions C150_antireflection.

(** A perfect antireflection coating at normal incidence has neither psi nor delta (nan in the program). *)
Theorem C150_perfect : forall tA rA tB rB n0 n d r nB w off,
  0 < n0 -> 0 < n -> 0 < nB -> 0 < w -> n * n = n0 * nB -> (exists j, 4 * n * (d / 10) = (2 * INR j + 1) * w) ->
  fst (Delta_Psi_TMM [0] (table tA (RtoC n0) rA (coat_rows [(n, d, r)]) tB (RtoC nB) rB) w off false) = Ok [(None, None)].
Proof. exact perfect_coating. Qed.
Print Assumptions C150_perfect.

(** Away from normal incidence one transparent layer cannot suppress both polarisations, unless the two media
    around it are alike. *)
Theorem C150_not_both : forall n0 n d r nB aoi w,
  quarter_coating n0 [(n, d, r)] nB aoi w -> sin (rad aoi) <> 0 -> n0 <> nB ->
  ~ (coating_r pS n0 [(n, d, r)] nB aoi = 0 /\ coating_r pP n0 [(n, d, r)] nB aoi = 0).
Proof. exact not_both. Qed.
Print Assumptions C150_not_both.

(** the layer of index 3/2 on 9/4 (normal incidence); three layers at an angle; a layer that suppresses s only *)
Example C150_perfect_example : 0 < 1 /\ 0 < 3/2 /\ 0 < 9/4 /\ 0 < 600 /\ 3/2 * (3/2) = 1 * (9/4) /\
  exists j, 4 * (3/2) * (1000 / 10) = (2 * INR j + 1) * 600.
Proof. repeat split; try lra. exists 0%nat. simpl. lra. Qed.
Example C150_three_example : exists d1 d2 d3, quarter_coating 1 [(39/25, d1, 0); (51/40, d2, 3); (39/25, d3, 0)] 2 ex_aoi 633.
Proof. exact ex_three. Qed.
Example C150_s_example : exists n d, quarter_coating 1 [(n, d, 0)] (51/40) ex_aoi 633 /\
  coating_r pS 1 [(n, d, 0)] (51/40) ex_aoi = 0 /\ coating_r pP 1 [(n, d, 0)] (51/40) ex_aoi <> 0.
Proof. exact ex_s_only. Qed.
