(** * Properties of the optical calculation (reflect_modelSE.py 81-294).

    Statements only; the proofs are in the P_ files.  Vocabulary:
    - [ns n0 inner nN], [ds dA inner dB]: the two argument lists of coh_tmm for a stack
      with fronting index n0, layers [inner] = [(index, thickness); ...], backing nN;
    - [table tA nA rA inner tB nB rB]: the layer table handed to Delta_Psi_TMM, [inner] =
      [(index, thickness in Angstrom, roughness); ...]; [nm inner] the same layers with
      their thickness in nm and without roughness;
    - [amp p a]: (r, t) for polarisation p;
    - everything else (waves, continuity, flux, ...) is in Spec_optics. *)

Require Import Reals List Lra.
From Coquelicot Require Import Complex.
From Verif Require Import Base Cplx M_tmm Spec_optics P_tmm P_tmm2 P_tmm3 P_tmm4 P_flux P_flux2 P_flux3
  P_psidelta P_psidelta2 P_film P_examples.
Import ListNotations.
Open Scope R_scope.
Open Scope C_scope.

(** ** C13: angles do not influence one another *)
Theorem C13_angles_pointwise : forall AOI layers w off refl res,
  fst (Delta_Psi_TMM AOI layers w off refl) = Ok res ->
  Forall2 (fun a x => fst (Delta_Psi_TMM [a] layers w off refl) = Ok [x]) AOI res.
Proof. exact Delta_Psi_batch. Qed.
Print Assumptions C13_angles_pointwise.

(** the same for coh_tmm with pairs (angle, wavelength): although the opaque-layer branch
    is taken for the whole batch at once, no point influences another *)
Theorem C13_coh_tmm_pointwise : forall n_list d_list pts res,
  coh_tmm n_list d_list pts = Ok res ->
  Forall2 (fun p a => coh_tmm n_list d_list [p] = Ok [a]) pts res.
Proof. exact coh_tmm_pointwise. Qed.
Print Assumptions C13_coh_tmm_pointwise.

Theorem C13_coh_tmm_from_points : forall n_list d_list pts res, pts <> [] ->
  Forall2 (fun p a => coh_tmm n_list d_list [p] = Ok [a]) pts res ->
  coh_tmm n_list d_list pts = Ok res.
Proof. exact coh_tmm_from_points. Qed.
Print Assumptions C13_coh_tmm_from_points.

Example C13_example : exists v1 v2,
  fst (Delta_Psi_TMM [ex_aoi; (- ex_aoi)%R] ex_table 633 0 false) = Ok [v1; v2].
Proof. exact ex_two_angles. Qed.

(** ** C16: psi and delta encode rp/rs *)
Theorem C16_psi_delta_encode : forall (tA rA tB rB : R) (nA nB : C) (inner : list (C * R * R))
    (aoi w off : R) (rs ts rp tp : C),
  coh_tmm (ns (RtoC (Re nA)) (nm inner) nB) (ds PInf (nm inner) PInf) [(rad aoi, w)]
    = Ok [mkAmp (Some (rs, ts)) (Some (rp, tp))] ->
  rs <> 0 -> rp <> 0 ->
  exists psi delta,
    fst (Delta_Psi_TMM [aoi] (table tA nA rA inner tB nB rB) w off false) = Ok [(Some psi, Some delta)] /\
    (0 < psi < 90)%R /\ (0 < delta - off <= 360)%R /\ ellipsometric rs rp psi (delta - off) /\
    forall psi' delta', (0 <= psi' < 90)%R -> (0 < delta' <= 360)%R ->
      ellipsometric rs rp psi' delta' -> psi' = psi /\ (delta' = delta - off)%R.
Proof. exact table_encodes. Qed.
Print Assumptions C16_psi_delta_encode.

(** the remaining cases: a vanishing amplitude *)
Theorem C16_degenerate : forall (tA rA tB rB : R) (nA nB : C) (inner : list (C * R * R))
    (aoi w off : R) (refl : bool) (rs ts rp tp : C),
  coh_tmm (ns (RtoC (Re nA)) (nm inner) nB) (ds PInf (nm inner) PInf) [(rad aoi, w)]
    = Ok [mkAmp (Some (rs, ts)) (Some (rp, tp))] ->
  let out := fst (Delta_Psi_TMM [aoi] (table tA nA rA inner tB nB rB) w off refl) in
  (rs <> 0 -> rp = 0 -> out = Ok [(Some 0%R, None)]) /\
  (rs = 0 -> rp <> 0 -> out = Ok [(Some 90%R, None)]) /\
  (rs = 0 -> rp = 0 -> out = Ok [(None, None)]).
Proof. exact table_degenerate. Qed.
Print Assumptions C16_degenerate.

(** a hypothesis-satisfying case: glass at normal incidence *)
Example C16_example : exists rs ts rp tp,
  coh_tmm (ns (RtoC (Re (RtoC 1))) (nm []) (RtoC (3/2))) (ds PInf (nm []) PInf) [(rad 0, 633%R)]
    = Ok [mkAmp (Some (rs, ts)) (Some (rp, tp))] /\ rs <> 0 /\ rp <> 0.
Proof. exact ex_glass. Qed.

(** ** C17: reflect_delta *)
Theorem C17_reflect_delta_folds : forall (tA rA tB rB : R) (nA nB : C) (inner : list (C * R * R))
    (AOI : list R) (w off : R),
  exists vals vals' : list (option R * option R),
    fst (Delta_Psi_TMM AOI (table tA nA rA inner tB nB rB) w off false) = Ok vals /\
    length vals = length AOI /\
    fst (Delta_Psi_TMM AOI (table tA nA rA inner tB nB rB) w off true) = Ok vals' /\
    Forall2 (fun v v' => fst v = fst v' /\
      match snd v, snd v' with
      | Some d, Some d' => (0 <= d' - off <= 180)%R /\ cos (rad (d' - off)) = cos (rad (d - off)) /\
          ((d - off <= 180)%R -> d' = d) /\ ((180 < d - off)%R -> (d' - off = 360 - (d - off))%R)
      | None, None => True
      | _, _ => False
      end) vals vals'.
Proof. exact table_fold. Qed.
Print Assumptions C17_reflect_delta_folds.

(** ** C18: ignored inputs *)
Theorem C18_ignored_inputs : forall AOI w off refl l0 l0' mid mid' lN lN',
  omap Re (l_ri l0) = omap Re (l_ri l0') ->
  Forall2 (fun l l' => l_ri l = l_ri l' /\ l_thick l = l_thick l') mid mid' ->
  l_ri lN = l_ri lN' ->
  fst (Delta_Psi_TMM AOI (l0 :: mid ++ [lN]) w off refl) =
  fst (Delta_Psi_TMM AOI (l0' :: mid' ++ [lN']) w off refl).
Proof. exact DP_ignores. Qed.
Print Assumptions C18_ignored_inputs.

Example C18_example :
  fst (Delta_Psi_TMM [70%R] [mkLayer 0 (Some (1, 0%R)%R) 0; mkLayer 250 (Some (3/2, 0)%R) 0; mkLayer 0 (Some (4, 1)%R) 0] 633 0 false) =
  fst (Delta_Psi_TMM [70%R] [mkLayer 7 (Some (1, 5)%R) 8; mkLayer 250 (Some (3/2, 0)%R) 9; mkLayer 2 (Some (4, 1)%R) 3] 633 0 false).
Proof. exact ex_ignored. Qed.

(** ** C19: normal incidence *)
Theorem C19_normal_incidence_amplitudes : forall n0 inner nN dA dB th0 lam a rs ts rp tp,
  sin th0 = 0%R ->
  coh_tmm (ns n0 inner nN) (ds dA inner dB) [(th0, lam)] = Ok [a] ->
  amp_s a = Some (rs, ts) -> amp_p a = Some (rp, tp) -> rs = - rp /\ ts = tp.
Proof. exact normal_incidence. Qed.
Print Assumptions C19_normal_incidence_amplitudes.

Theorem C19_normal_incidence : forall (tA rA tB rB : R) (nA nB : C) (inner : list (C * R * R))
    (aoi w off : R) (refl : bool) (rs ts rp tp : C),
  sin (rad aoi) = 0%R ->
  coh_tmm (ns (RtoC (Re nA)) (nm inner) nB) (ds PInf (nm inner) PInf) [(rad aoi, w)]
    = Ok [mkAmp (Some (rs, ts)) (Some (rp, tp))] ->
  rp <> 0 ->
  fst (Delta_Psi_TMM [aoi] (table tA nA rA inner tB nB rB) w off refl) = Ok [(Some 45%R, Some (180 + off)%R)].
Proof. exact table_normal. Qed.
Print Assumptions C19_normal_incidence.

Example C19_example : exists rs ts rp tp, sin (rad 0) = 0%R /\
  coh_tmm (ns (RtoC (Re (RtoC 1))) (nm []) (RtoC (3/2))) (ds PInf (nm []) PInf) [(rad 0, 633%R)]
    = Ok [mkAmp (Some (rs, ts)) (Some (rp, tp))] /\ rp <> 0.
Proof. exact ex_glass_normal. Qed.

(** ** C20: symmetry in the angle of incidence *)
Theorem C20_supplementary_angle : forall (tA rA tB rB : R) (nA nB : C) (inner : list (C * R * R))
    (AOI : list R) (w off : R) (refl : bool),
  fst (Delta_Psi_TMM (map (fun x => (180 - x)%R) AOI) (table tA nA rA inner tB nB rB) w off refl) =
  fst (Delta_Psi_TMM AOI (table tA nA rA inner tB nB rB) w off refl).
Proof. exact table_supplement. Qed.
Print Assumptions C20_supplementary_angle.

Theorem C20_opposite_angle : forall (tA rA tB rB : R) (nA nB : C) (inner : list (C * R * R))
    (AOI : list R) (w off : R) (refl : bool), (0 < Re nA)%R -> (0 < w)%R ->
  (forall aoi, In aoi AOI -> cos (rad aoi) <> 0%R /\
      passive_film (Re nA * sin (rad aoi)) w (nm inner) nB /\
      ~ total_reflection (RtoC (Re nA) * RtoC (sin (rad aoi))) nB) ->
  fst (Delta_Psi_TMM (map Ropp AOI) (table tA nA rA inner tB nB rB) w off refl) =
  fst (Delta_Psi_TMM AOI (table tA nA rA inner tB nB rB) w off refl).
Proof. exact table_opposite. Qed.
Print Assumptions C20_opposite_angle.

(** the restriction on total reflection cannot be dropped *)
Theorem C20_opposite_angle_TIR_refuted : exists (n0 nB : C) (w aoi : R),
  (0 < Re n0)%R /\ (0 < w)%R /\ cos (rad aoi) <> 0%R /\ passive nB /\
  fst (Delta_Psi_TMM [(- aoi)%R] (table 0 n0 0 [] 0 nB 0) w 0 false) <>
  fst (Delta_Psi_TMM [aoi] (table 0 n0 0 [] 0 nB 0) w 0 false).
Proof. exact ex_TIR_opposite. Qed.
Print Assumptions C20_opposite_angle_TIR_refuted.

Example C20_example : (0 < Re (RtoC 1))%R /\ (0 < 633)%R /\
  forall aoi, In aoi [ex_aoi] -> cos (rad aoi) <> 0%R /\
      passive_film (Re (RtoC 1) * sin (rad aoi)) 633 (nm ex_inner) (RtoC (51/40)) /\
      ~ total_reflection (RtoC (Re (RtoC 1)) * RtoC (sin (rad aoi))) (RtoC (51/40)).
Proof. exact ex_opposite. Qed.

(** ** C21: scaling *)
Theorem C21_scaling : forall tA nA rA inner tB nB rB tA' rA' tB' rB' AOI w off refl (k : R), k <> 0%R ->
  fst (Delta_Psi_TMM AOI (table tA' nA rA' (scale_rows k inner) tB' nB rB') (k * w) off refl) =
  fst (Delta_Psi_TMM AOI (table tA nA rA inner tB nB rB) w off refl).
Proof. exact table_scale. Qed.
Print Assumptions C21_scaling.

(** ** C22: the boundary value problem.  For any choice of the cosines in the inner layers. *)
Theorem C22_boundary_value_problem : forall p n0 inner nN dA dB th0 lam a r t front ms back,
  let s := n0 * RtoC (sin th0) in
  coh_tmm (ns n0 inner nN) (ds dA inner dB) [(th0, lam)] = Ok [a] ->
  amp p a = Some (r, t) ->
  physical_stack n0 inner nN s lam front ms back ->
  cosine front = RtoC (Rabs (cos th0)) ->
  (0 <= Re (cosine back))%R -> ~ total_reflection s nN ->
  Forall (fun m => (Rabs (Im (phase m)) <= 35)%R) ms ->
  forall r' t', reflection_problem p front (ms ++ [back]) r' t' <-> r' = r /\ t' = t.
Proof. exact coh_tmm_solves. Qed.
Print Assumptions C22_boundary_value_problem.

(** ... and for passive films from the layer table to psi and delta *)
Theorem C22_end_to_end : forall tA nA rA inner tB nB rB w off aoi front ms back,
  let s := RtoC (Re nA) * RtoC (sin (rad aoi)) in
  (0 < Re nA)%R -> (0 < w)%R -> cos (rad aoi) <> 0%R ->
  passive_film (Re nA * sin (rad aoi)) w (nm inner) nB ->
  physical_stack (RtoC (Re nA)) (nm inner) nB s w front ms back ->
  cosine front = RtoC (Rabs (cos (rad aoi))) ->
  (0 <= Re (cosine back))%R -> ~ total_reflection s nB ->
  Forall (fun m => (Rabs (Im (phase m)) <= 35)%R) ms ->
  exists rs rp,
    (forall r, (exists t, reflection_problem pS front (ms ++ [back]) r t) <-> r = rs) /\
    (forall r, (exists t, reflection_problem pP front (ms ++ [back]) r t) <-> r = rp) /\
    (Cmod rs <= 1)%R /\ (Cmod rp <= 1)%R /\
    (rs <> 0 -> rp <> 0 -> exists psi delta,
      fst (Delta_Psi_TMM [aoi] (table tA nA rA inner tB nB rB) w off false) = Ok [(Some psi, Some delta)] /\
      (0 < psi < 90)%R /\ (0 < delta - off <= 360)%R /\ ellipsometric rs rp psi (delta - off)).
Proof. exact end_to_end. Qed.
Print Assumptions C22_end_to_end.

Example C22_example :
  let s := RtoC (Re (RtoC 1)) * RtoC (sin (rad ex_aoi)) in
  cos (rad ex_aoi) <> 0%R /\
  passive_film (Re (RtoC 1) * sin (rad ex_aoi)) 633 (nm ex_inner) (RtoC (51/40)) /\
  exists front ms back,
  physical_stack (RtoC (Re (RtoC 1))) (nm ex_inner) (RtoC (51/40)) s 633 front ms back /\
  cosine front = RtoC (Rabs (cos (rad ex_aoi))) /\
  (0 <= Re (cosine back))%R /\ ~ total_reflection s (RtoC (51/40)) /\
  Forall (fun m => (Rabs (Im (phase m)) <= 35)%R) ms.
Proof. exact ex_physical. Qed.

(** ** C23: zero-thickness layers *)
Theorem C23_zero_layer : forall p n0 inner1 nL inner2 nN dA dB dA' dB' th0 lam a a' x y,
  coh_tmm (ns n0 (inner1 ++ (nL, 0%R) :: inner2) nN)
          (ds dA (inner1 ++ (nL, 0%R) :: inner2) dB) [(th0, lam)] = Ok [a] ->
  coh_tmm (ns n0 (inner1 ++ inner2) nN) (ds dA' (inner1 ++ inner2) dB') [(th0, lam)] = Ok [a'] ->
  amp p a = Some x -> amp p a' = Some y -> x = y.
Proof. exact zero_layer. Qed.
Print Assumptions C23_zero_layer.

Example C23_example : exists a a' x y,
  coh_tmm (ns (RtoC 1) ([] ++ (RtoC (39/25), 0%R) :: []) (RtoC (51/40)))
          (ds PInf ([] ++ (RtoC (39/25), 0%R) :: []) PInf) [(rad ex_aoi, 633%R)] = Ok [a] /\
  coh_tmm (ns (RtoC 1) ([] ++ []) (RtoC (51/40))) (ds PInf ([] ++ []) PInf) [(rad ex_aoi, 633%R)] = Ok [a'] /\
  amp pP a = Some x /\ amp pP a' = Some y.
Proof. exact ex_zero. Qed.

(** ** C24: splitting a layer *)
Theorem C24_split_layer : forall p (n0 : C) inner1 (nL : C) (d1 d2 : R) inner2 (nN : C) dA dB dA' dB'
    (th0 lam : R) a a' x y,
  (0 <= d1)%R -> (0 <= d2)%R ->
  (forall m, layer_ok (n0 * RtoC (sin th0)) lam (nL, (d1 + d2)%R) m -> (0 <= Re (cosine m))%R ->
     (Im (phase m) <= 35)%R) ->
  coh_tmm (ns n0 (inner1 ++ (nL, d1) :: (nL, d2) :: inner2) nN)
          (ds dA (inner1 ++ (nL, d1) :: (nL, d2) :: inner2) dB) [(th0, lam)] = Ok [a] ->
  coh_tmm (ns n0 (inner1 ++ (nL, (d1 + d2)%R) :: inner2) nN)
          (ds dA' (inner1 ++ (nL, (d1 + d2)%R) :: inner2) dB') [(th0, lam)] = Ok [a'] ->
  amp p a = Some x -> amp p a' = Some y -> x = y.
Proof. exact split_layer'. Qed.
Print Assumptions C24_split_layer.

Example C24_example : forall m,
  layer_ok (RtoC 1 * RtoC (sin (rad ex_aoi))) 633 (RtoC (39/25), (100 + 50)%R) m -> (0 <= Re (cosine m))%R ->
     (Im (phase m) <= 35)%R.
Proof. exact ex_split. Qed.

(** ** C25: branches in inner layers: the code's answer is the solution for every choice *)
Theorem C25_inner_branch_irrelevant : forall p n0 inner nN dA dB th0 lam a r t front ms ms' back,
  let s := n0 * RtoC (sin th0) in
  coh_tmm (ns n0 inner nN) (ds dA inner dB) [(th0, lam)] = Ok [a] ->
  amp p a = Some (r, t) ->
  physical_stack n0 inner nN s lam front ms back ->
  physical_stack n0 inner nN s lam front ms' back ->
  cosine front = RtoC (Rabs (cos th0)) ->
  (0 <= Re (cosine back))%R -> ~ total_reflection s nN ->
  Forall (fun m => (Rabs (Im (phase m)) <= 35)%R) ms ->
  reflection_problem p front (ms ++ [back]) r t /\ reflection_problem p front (ms' ++ [back]) r t.
Proof. exact inner_branch. Qed.
Print Assumptions C25_inner_branch_irrelevant.

(** both branches exist *)
Example C25_example : forall n0 inner nN s lam front ms back,
  physical_stack n0 inner nN s lam front ms back ->
  physical_stack n0 inner nN s lam front
    (map (fun m => mkMedium (idx m) (- cosine m) (- phase m)) ms) back.
Proof. exact flip_physical. Qed.

(** ** C26: the wave in the backing *)
Theorem C26_backing_absorbing : forall p (n0 : R) inner nN dA dB th0 lam a r t front ms back,
  let s := RtoC n0 * RtoC (sin th0) in
  passive nN -> (0 < Im nN)%R ->
  coh_tmm (ns (RtoC n0) inner nN) (ds dA inner dB) [(th0, lam)] = Ok [a] ->
  amp p a = Some (r, t) ->
  physical_stack (RtoC n0) inner nN s lam front ms back ->
  cosine front = RtoC (Rabs (cos th0)) ->
  Forall (fun m => (Rabs (Im (phase m)) <= 35)%R) ms ->
  (0 < Im (idx back * cosine back)%C)%R ->
  (0 < Re (idx back * cosine back)%C)%R /\
  forall r' t', reflection_problem p front (ms ++ [back]) r' t' <-> r' = r /\ t' = t.
Proof. exact backing_decays. Qed.
Print Assumptions C26_backing_absorbing.

Theorem C26_backing_transparent : forall p (n0 : R) inner nN dA dB th0 lam a r t front ms back,
  let s := RtoC n0 * RtoC (sin th0) in
  transparent nN -> (Rabs (n0 * sin th0) < Re nN)%R ->
  coh_tmm (ns (RtoC n0) inner nN) (ds dA inner dB) [(th0, lam)] = Ok [a] ->
  amp p a = Some (r, t) ->
  physical_stack (RtoC n0) inner nN s lam front ms back ->
  cosine front = RtoC (Rabs (cos th0)) ->
  Forall (fun m => (Rabs (Im (phase m)) <= 35)%R) ms ->
  (0 < Re (idx back * cosine back)%C)%R ->
  Im (idx back * cosine back) = 0%R /\
  forall r' t', reflection_problem p front (ms ++ [back]) r' t' <-> r' = r /\ t' = t.
Proof. exact backing_outgoing. Qed.
Print Assumptions C26_backing_transparent.

(** with total reflection the code never returns the amplitude of the decaying wave *)
Theorem C26_total_reflection_wrong : forall p (n0 : R) inner nN dA dB th0 lam a r t front ms back,
  let s := RtoC n0 * RtoC (sin th0) in
  (0 < n0)%R -> transparent nN -> (Re nN < n0 * sin th0)%R ->
  coh_tmm (ns (RtoC n0) inner nN) (ds dA inner dB) [(th0, lam)] = Ok [a] ->
  amp p a = Some (r, t) ->
  physical_stack (RtoC n0) inner nN s lam front ms back ->
  cosine front = RtoC (Rabs (cos th0)) ->
  Forall (fun m => (Rabs (Im (phase m)) <= 35)%R) ms ->
  (0 < Im (idx back * cosine back)%C)%R ->
  forall r' t', reflection_problem p front (ms ++ [back]) r' t' -> r' <> r.
Proof. exact TIR_not_decaying. Qed.
Print Assumptions C26_total_reflection_wrong.

Theorem C26_backing_decays_refuted : exists (n0 nN : R) (th0 lam : R) a r t front back r' t',
  (0 < nN)%R /\ (0 < n0)%R /\ (0 < th0 < PI / 2)%R /\
  coh_tmm (ns (RtoC n0) [] (RtoC nN)) (ds PInf [] PInf) [(th0, lam)] = Ok [a] /\
  amp pS a = Some (r, t) /\
  physical_stack (RtoC n0) [] (RtoC nN) (RtoC n0 * RtoC (sin th0)) lam front [] back /\
  cosine front = RtoC (cos th0) /\
  (0 < Im (idx back * cosine back)%C)%R /\
  reflection_problem pS front [back] r' t' /\ r' <> r.
Proof. exact ex_TIR_refuted. Qed.
Print Assumptions C26_backing_decays_refuted.

(** ** C27: energy *)
Theorem C27_passive : forall p (n0 : R) inner nN dA dB th0 lam a r t front back,
  (0 < n0)%R -> (0 < lam)%R ->
  Forall (film_layer (n0 * sin th0) lam) inner -> passive nN ->
  idx front = RtoC n0 -> cosine front = RtoC (Rabs (cos th0)) ->
  idx back = nN -> snell (RtoC n0 * RtoC (sin th0)) back -> (0 <= Re (cosine back))%R ->
  coh_tmm (ns (RtoC n0) inner nN) (ds dA inner dB) [(th0, lam)] = Ok [a] ->
  amp p a = Some (r, t) ->
  (flux p back t 0 <= flux p front 1 r)%R /\ (0 <= flux p back t 0)%R /\
  flux p front 1 r = (n0 * Rabs (cos th0) * (1 - Cmod r * Cmod r))%R /\ (Cmod r <= 1)%R.
Proof. exact energy_passive'. Qed.
Print Assumptions C27_passive.

Theorem C27_lossless : forall p (n0 : R) inner nN dA dB th0 lam a r t front back,
  (0 < n0)%R -> (0 < lam)%R -> (0 <= sin th0)%R ->
  Forall (fun nd => transparent (fst nd) /\ (0 <= snd nd)%R) inner -> passive nN ->
  idx front = RtoC n0 -> cosine front = RtoC (Rabs (cos th0)) ->
  idx back = nN -> snell (RtoC n0 * RtoC (sin th0)) back -> (0 <= Re (cosine back))%R ->
  coh_tmm (ns (RtoC n0) inner nN) (ds dA inner dB) [(th0, lam)] = Ok [a] ->
  amp p a = Some (r, t) ->
  flux p back t 0 = flux p front 1 r.
Proof. exact energy_lossless. Qed.
Print Assumptions C27_lossless.

(** in numbers: R + T = 1 for a transparent backing *)
Theorem C27_lossless_RT : forall p (n0 nN : R) inner dA dB th0 lam a r t cN,
  (0 < n0)%R -> (0 < nN)%R -> (0 < lam)%R -> (0 <= sin th0)%R -> cos th0 <> 0%R ->
  Forall (fun nd => transparent (fst nd) /\ (0 <= snd nd)%R) inner ->
  (0 <= cN)%R -> (cN * cN = 1 - (n0 * sin th0 / nN) * (n0 * sin th0 / nN))%R ->
  coh_tmm (ns (RtoC n0) inner (RtoC nN)) (ds dA inner dB) [(th0, lam)] = Ok [a] ->
  amp p a = Some (r, t) ->
  (Cmod r * Cmod r + nN * cN / (n0 * Rabs (cos th0)) * (Cmod t * Cmod t) = 1)%R.
Proof. exact energy_RT. Qed.
Print Assumptions C27_lossless_RT.

Example C27_example : Forall (film_layer (1 * sin (rad ex_aoi)) 633)
   [(RtoC (39/25), 100%R); ((2, 1/10)%R, 20%R)] /\ passive (4, 1/50)%R /\
  exists a r t, coh_tmm (ns (RtoC 1) [(RtoC (39/25), 100%R); ((2, 1/10)%R, 20%R)] (4, 1/50)%R)
     (ds PInf [(RtoC (39/25), 100%R); ((2, 1/10)%R, 20%R)] PInf) [(rad ex_aoi, 633%R)] = Ok [a] /\
    amp pP a = Some (r, t).
Proof. exact ex_energy. Qed.

(** ** C28: definedness *)
Theorem C28_defined : forall p (n0 : R) inner nN dA dB th0 lam,
  (0 < n0)%R -> (0 < lam)%R -> cos th0 <> 0%R ->
  passive_film (n0 * sin th0) lam inner nN ->
  exists a r t, coh_tmm (ns (RtoC n0) inner nN) (ds dA inner dB) [(th0, lam)] = Ok [a] /\
    amp p a = Some (r, t).
Proof. exact passive_defined'. Qed.
Print Assumptions C28_defined.

Example C28_example : cos (rad ex_aoi) <> 0%R /\
  passive_film (1 * sin (rad ex_aoi)) 633 [(RtoC (39/25), 100%R); ((2, 1/10)%R, 20%R)] (4, 1/50)%R.
Proof. exact ex_defined. Qed.

(** ** C29: reciprocity *)
Theorem C29_reciprocity : forall p n0 inner nN dA dB dA' dB' th0 th1 lam a a' r t r' t',
  nN * RtoC (sin th1) = n0 * RtoC (sin th0) ->
  coh_tmm (ns n0 inner nN) (ds dA inner dB) [(th0, lam)] = Ok [a] ->
  coh_tmm (ns nN (rev inner) n0) (ds dA' (rev inner) dB') [(th1, lam)] = Ok [a'] ->
  amp p a = Some (r, t) -> amp p a' = Some (r', t') ->
  t' * (n0 * RtoC (Rabs (cos th0))) = t * (nN * RtoC (Rabs (cos th1))).
Proof. exact reciprocity. Qed.
Print Assumptions C29_reciprocity.

Example C29_example : exists th1 a a' r t r' t',
  RtoC (51/40) * RtoC (sin th1) = RtoC 1 * RtoC (sin (rad ex_aoi)) /\
  coh_tmm (ns (RtoC 1) [(RtoC (39/25), 100%R)] (RtoC (51/40))) (ds PInf [(RtoC (39/25), 100%R)] PInf)
     [(rad ex_aoi, 633%R)] = Ok [a] /\
  coh_tmm (ns (RtoC (51/40)) (rev [(RtoC (39/25), 100%R)]) (RtoC 1)) (ds PInf (rev [(RtoC (39/25), 100%R)]) PInf)
     [(th1, 633%R)] = Ok [a'] /\ amp pS a = Some (r, t) /\ amp pS a' = Some (r', t').
Proof. exact ex_reciprocity. Qed.

(** ** C30: the opaque cut-off *)
Theorem C30_opaque_cutoff : forall p (n0 : R) nF d inner nN dA dB th0 lam a r t front film ms back rx tx G tau,
  let s := RtoC n0 * RtoC (sin th0) in
  (0 < n0)%R -> (0 < lam)%R ->
  Forall (film_layer (n0 * sin th0) lam) ((nF, d) :: inner) -> passive nN ->
  coh_tmm (ns (RtoC n0) ((nF, d) :: inner) nN) (ds dA ((nF, d) :: inner) dB) [(th0, lam)] = Ok [a] ->
  amp p a = Some (r, t) ->
  physical_stack (RtoC n0) ((nF, d) :: inner) nN s lam front (film :: ms) back ->
  cosine front = RtoC (Rabs (cos th0)) ->
  (0 <= Re (cosine film))%R -> (35 < Im (phase film))%R ->
  Forall (fun m => (Rabs (Im (phase m)) <= 35)%R) ms ->
  (0 <= Re (cosine back))%R -> ~ total_reflection s nN ->
  reflection_problem p front (film :: ms ++ [back]) rx tx ->
  reflection_problem p film (ms ++ [back]) G tau ->
  (Cmod (r - rx)%C <= 4 * Cmod G * exp (-70))%R.
Proof. exact opaque_cutoff. Qed.
Print Assumptions C30_opaque_cutoff.

(** without an opaque layer nothing is changed: the cut-off only concerns Im > 35 *)
Theorem C30_cutoff_only_above : forall z : C,
  Re (clip35 z) = Re z /\ ((Im z <= 35)%R -> clip35 z = z) /\ ((35 < Im z)%R -> Im (clip35 z) = 35%R).
Proof. exact clip35_spec. Qed.
Print Assumptions C30_cutoff_only_above.

Example C30_example : exists nF d nN front film back a r t rx tx G tau,
  let s := RtoC 1 * RtoC (sin 0) in
  Forall (film_layer (1 * sin 0) 600) [(nF, d)] /\ passive nN /\
  coh_tmm (ns (RtoC 1) [(nF, d)] nN) (ds PInf [(nF, d)] PInf) [(0%R, 600%R)] = Ok [a] /\
  amp pS a = Some (r, t) /\
  physical_stack (RtoC 1) [(nF, d)] nN s 600 front [film] back /\
  cosine front = RtoC (Rabs (cos 0)) /\
  (0 <= Re (cosine film))%R /\ (35 < Im (phase film))%R /\
  (0 <= Re (cosine back))%R /\ ~ total_reflection s nN /\
  reflection_problem pS front [film; back] rx tx /\
  reflection_problem pS film [back] G tau.
Proof. exact ex_opaque. Qed.

(** ** C82: the layer table is modified *)
Theorem C82_table_after : forall AOI l0 rest w off refl,
  snd (Delta_Psi_TMM AOI (l0 :: rest) w off refl) =
  mkLayer (l_thick l0) (omap (fun z => RtoC (Re z)) (l_ri l0)) (l_rough l0) :: rest.
Proof. exact DP_table_after. Qed.
Print Assumptions C82_table_after.

Theorem C82_table_unchanged_refuted : exists AOI layers w off refl,
  snd (Delta_Psi_TMM AOI layers w off refl) <> layers.
Proof. exact ex_mutates. Qed.
Print Assumptions C82_table_unchanged_refuted.
