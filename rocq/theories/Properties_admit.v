(** * Property C148: the admittance method, half-wave layers and quarter-wave mirrors *)

Require Import Reals List.
From Coquelicot Require Import Complex.
Require Import List.
From Verif Require Import Base Cplx M_tmm Spec_optics Spec_admit P_tmm2 P_psidelta P_examples P_admit2 P_admit3 P_admit4.
Import ListNotations.
Open Scope R_scope.
Open Scope C_scope.

(** The amplitudes computed by coh_tmm are those of the admittance method: product of the
    characteristic matrices of the layers (a different algorithm from the one in the code). *)
Theorem C148_admittance : forall p n0 inner nN dA dB th0 lam a r t front ms back,
  let s := n0 * RtoC (sin th0) in
  coh_tmm (ns n0 inner nN) (ds dA inner dB) [(th0, lam)] = Ok [a] ->
  amp p a = Some (r, t) ->
  physical_stack n0 inner nN s lam front ms back ->
  cosine front = RtoC (Rabs (cos th0)) -> cos th0 <> 0%R ->
  (0 <= Re (cosine back))%R -> ~ total_reflection s nN ->
  Forall (fun m => cosine m <> 0 /\ (Rabs (Im (phase m)) <= 35)%R) ms ->
  let B := fst (loaded p ms back) in
  let D := snd (loaded p ms back) in
  let y0 := admittance p front in
  y0 * B + D <> 0 /\
  r = (y0 * B - D) / (y0 * B + D) /\
  t = 2 * y0 * unit_field p front / (unit_field p back * (y0 * B + D)).
Proof. exact code_admittance. Qed.
Print Assumptions C148_admittance.

(** A layer a whole number of half waves thick, anywhere in a stack, does not change the
    reflected amplitude, and the transmitted one up to sign. *)
Theorem C148_absentee : forall p n0 inner1 nL dL inner2 nN dA dB dA' dB' th0 lam a r t a' r' t'
    front ms1 m ms2 back,
  let s := n0 * RtoC (sin th0) in
  coh_tmm (ns n0 (inner1 ++ (nL, dL) :: inner2) nN) (ds dA (inner1 ++ (nL, dL) :: inner2) dB) [(th0, lam)] = Ok [a] ->
  coh_tmm (ns n0 (inner1 ++ inner2) nN) (ds dA' (inner1 ++ inner2) dB') [(th0, lam)] = Ok [a'] ->
  amp p a = Some (r, t) -> amp p a' = Some (r', t') ->
  physical_stack n0 (inner1 ++ (nL, dL) :: inner2) nN s lam front (ms1 ++ m :: ms2) back ->
  length ms1 = length inner1 ->
  cosine front = RtoC (Rabs (cos th0)) -> cos th0 <> 0%R ->
  (0 <= Re (cosine back))%R -> ~ total_reflection s nN ->
  Forall (fun m => cosine m <> 0 /\ (Rabs (Im (phase m)) <= 35)%R) (ms1 ++ m :: ms2) ->
  half_wave m ->
  r = r' /\ (t = t' \/ t = - t').
Proof. exact code_absentee. Qed.
Print Assumptions C148_absentee.

Example C148_absentee_example :
  let s := RtoC 1 * RtoC (sin (rad ex_aoi)) in
  exists front m1 m2 back a a',
  coh_tmm (ns (RtoC 1) ([] ++ (RtoC (39/25), half_d) :: [(RtoC (51/40), 100%R)]) (RtoC 2))
          (ds PInf ([] ++ (RtoC (39/25), half_d) :: [(RtoC (51/40), 100%R)]) PInf) [(rad ex_aoi, 633%R)] = Ok [a] /\
  coh_tmm (ns (RtoC 1) ([] ++ [(RtoC (51/40), 100%R)]) (RtoC 2))
          (ds PInf ([] ++ [(RtoC (51/40), 100%R)]) PInf) [(rad ex_aoi, 633%R)] = Ok [a'] /\
  amp pP a <> None /\ amp pP a' <> None /\
  physical_stack (RtoC 1) ([] ++ (RtoC (39/25), half_d) :: [(RtoC (51/40), 100%R)]) (RtoC 2) s 633 front ([] ++ m1 :: [m2]) back /\
  cosine front = RtoC (Rabs (cos (rad ex_aoi))) /\ cos (rad ex_aoi) <> 0%R /\
  (0 <= Re (cosine back))%R /\ ~ total_reflection s (RtoC 2) /\
  Forall (fun m => cosine m <> 0 /\ (Rabs (Im (phase m)) <= 35)%R) ([] ++ m1 :: [m2]) /\ half_wave m1.
Proof. exact ex_absentee. Qed.

Open Scope R_scope.

(** The reflected amplitudes of N periods of two quarter-wave layers, in closed form, for every N. *)
Theorem C148_mirror : forall n0 nH dH rH nL dL rL nB aoi w N,
  quarter_mirror n0 nH dH nL dL nB aoi w ->
  let s := n0 * sin (rad aoi) in
  exists ts tp,
  coh_tmm (ns (RtoC n0) (nm (periods N nH dH rH nL dL rL)) (RtoC nB))
          (ds PInf (nm (periods N nH dH rH nL dL rL)) PInf) [(rad aoi, w)] =
  Ok [mkAmp (Some (RtoC (mismatch (tilted pS s n0) (mirror_admittance pS s nH nL nB N)), ts))
            (Some (RtoC (mismatch (tilted pP s n0) (mirror_admittance pP s nH nL nB N)), tp))].
Proof. exact mirror_amplitudes. Qed.
Print Assumptions C148_mirror.

(** ... and psi and delta of the layer table. *)
Theorem C148_mirror_angles : forall tA rA tB rB n0 nH dH rH nL dL rL nB aoi w off N,
  quarter_mirror n0 nH dH nL dL nB aoi w ->
  let rs := mirror_r pS n0 nH nL nB aoi N in
  let rp := mirror_r pP n0 nH nL nB aoi N in
  rs <> 0 -> rp <> 0 ->
  fst (Delta_Psi_TMM [aoi] (table tA (RtoC n0) rA (periods N nH dH rH nL dL rL) tB (RtoC nB) rB) w off false) =
  Ok [(Some (atan (Rabs (rp / rs)) * (180 / PI)), Some (off + (if Rlt_dec (rp * rs) 0 then 180 else 360)))].
Proof. exact mirror_angles. Qed.
Print Assumptions C148_mirror_angles.

Example C148_mirror_example :
  (exists dH dL, quarter_mirror 1 (39/25) dH (51/40) dL (51/40) ex_aoi 633) /\
  mirror_r pS 1 (39/25) (51/40) (51/40) ex_aoi 1 <> 0 /\
  mirror_r pP 1 (39/25) (51/40) (51/40) ex_aoi 1 <> 0.
Proof. exact (conj ex_mirror2 ex_mirror_nz). Qed.

(** With many periods psi tends to 45 degrees.  Below the Brewster angle of the two layers delta
    becomes exactly 180 degrees (plus the offset), above it exactly 360 degrees. *)
Theorem C148_many_periods : forall tA rA tB rB n0 nH dH rH nL dL rL nB aoi w off eps,
  quarter_mirror n0 nH dH nL dL nB aoi w -> nL < nH -> 0 < eps ->
  let s := n0 * sin (rad aoi) in
  let reads N psi delta :=
    fst (Delta_Psi_TMM [aoi] (table tA (RtoC n0) rA (periods N nH dH rH nL dL rL) tB (RtoC nB) rB) w off false) =
    Ok [(Some psi, Some delta)] in
  (s * s * (nH * nH + nL * nL) < nH * nH * (nL * nL) ->
   exists N0, forall N, (N0 <= N)%nat -> exists psi, reads N psi (off + 180) /\ Rabs (psi - 45) < eps) /\
  (nH * nH * (nL * nL) < s * s * (nH * nH + nL * nL) ->
   exists N0, forall N, (N0 <= N)%nat -> exists psi, reads N psi (off + 360) /\ Rabs (psi - 45) < eps).
Proof. exact many_periods. Qed.
Print Assumptions C148_many_periods.

Example C148_below_example : exists dH dL,
  quarter_mirror 1 2 dH (3/2) dL (51/40) ex_aoi 633 /\
  let s := 1 * sin (rad ex_aoi) in s * s * (2 * 2 + 3/2 * (3/2)) < 2 * 2 * (3/2 * (3/2)).
Proof. exact ex_mirror. Qed.
Example C148_above_example : exists dH dL,
  quarter_mirror (9/4) 2 dH (3/2) dL 2 ex_aoi 633 /\
  let s := 9/4 * sin (rad ex_aoi) in 2 * 2 * (3/2 * (3/2)) < s * s * (2 * 2 + 3/2 * (3/2)).
Proof. exact ex_mirror_above. Qed.

(** At the Brewster angle of the two layers p-polarised light does not see the mirror: the
    reflected amplitude is that of the bare backing, whatever the number of periods. *)
Theorem C148_brewster : forall n0 nH dH rH nL dL rL nB aoi w N,
  quarter_mirror n0 nH dH nL dL nB aoi w -> nL < nH ->
  let s := n0 * sin (rad aoi) in
  s * s * (nH * nH + nL * nL) = nH * nH * (nL * nL) ->
  exists amps amps' rp tp tp',
  coh_tmm (ns (RtoC n0) (nm (periods N nH dH rH nL dL rL)) (RtoC nB))
          (ds PInf (nm (periods N nH dH rH nL dL rL)) PInf) [(rad aoi, w)] = Ok [amps] /\
  coh_tmm (ns (RtoC n0) [] (RtoC nB)) (ds PInf [] PInf) [(rad aoi, w)] = Ok [amps'] /\
  amp_p amps = Some (rp, tp) /\ amp_p amps' = Some (rp, tp').
Proof. exact brewster_stack. Qed.
Print Assumptions C148_brewster.

Example C148_brewster_example : exists dH dL,
  quarter_mirror 2 2 dH (3/2) dL (51/40) ex_aoi 633 /\
  let s := 2 * sin (rad ex_aoi) in s * s * (2 * 2 + 3/2 * (3/2)) = 2 * 2 * (3/2 * (3/2)).
Proof. exact ex_mirror_eq. Qed.
