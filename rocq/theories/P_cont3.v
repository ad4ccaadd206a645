(** * delta itself jumps: a quarter-wave film at grazing incidence *)

Require Import Reals.
From Coquelicot Require Import Rcomplements Complex.
Require Import List Bool Arith ZArith Lra Lia Psatz.
From Verif Require Import Base Cplx M_tmm Spec_optics P_tmm P_tmm2 P_tmm3 P_tmm4 P_psidelta P_psidelta2 M_objective
  Spec_ident P_ident P_ident2 P_cont P_cont2.
Import ListNotations.
Open Scope R_scope.
Open Scope C_scope.

Definition graz : R := (asin (24 / 25) * (180 / PI))%R.
Lemma rad_graz : rad graz = asin (24 / 25).
Proof. apply deg_rad. Qed.
Lemma sin_graz : sin (rad graz) = (24 / 25)%R.
Proof. rewrite rad_graz. apply sin_asin. lra. Qed.
Lemma cos_graz : cos (rad graz) = (7 / 25)%R.
Proof.
  rewrite rad_graz, cos_asin by lra. replace (1 - Rsqr (24 / 25))%R with ((7 / 25) * (7 / 25))%R by (unfold Rsqr; lra).
  apply sqrt_square. lra.
Qed.

(** thickness (Angstrom) at which a film of index 8/5 shifts the phase by pi/2 + y *)
Definition quarter_plus (y : R) : R := (10 * 633 * (PI / 2 + y) / (2 * PI * (32 / 25)))%R.
Definition graz_film : list (C * (R -> R) * R) := [(RtoC (8 / 5), quarter_plus, 0%R)].
Definition graz_back : C := RtoC (312 / 125).

Lemma real_cos (s n c : R) : (0 < n)%R -> (0 <= c)%R -> (n * n * (c * c) = n * n - s * s)%R -> (Rabs s < n)%R ->
  code_cos (RtoC s) (RtoC n) = RtoC c.
Proof.
  intros Hn Hc E HS. symmetry. apply code_cos_unique.
  - simpl. lra.
  - intros [_ T]. rewrite <- RtoC_div in T by lra. simpl in T.
    rewrite Rabs_div in T by lra. rewrite (Rabs_pos_eq n) in T by lra.
    apply (Rmult_lt_compat_r n) in T; auto. unfold Rdiv in T. rewrite Rmult_assoc, Rinv_l in T by lra. lra.
  - rewrite <- RtoC_div by lra. rewrite <- !RtoC_mult, <- RtoC_minus. f_equal.
    apply (Rmult_eq_reg_l (n * n)); [|nra]. rewrite E. field. lra.
Qed.

Definition g_s : C := RtoC 1 * RtoC (24 / 25).
Lemma g_s_real : g_s = RtoC (24 / 25).
Proof. unfold g_s. ring. Qed.
Lemma c_air : code_cos g_s (RtoC 1) = RtoC (7 / 25).
Proof. rewrite g_s_real. apply real_cos; try lra. rewrite Rabs_pos_eq by lra. lra. Qed.
Lemma c_film : code_cos g_s (RtoC (8 / 5)) = RtoC (4 / 5).
Proof. rewrite g_s_real. apply real_cos; try lra. rewrite Rabs_pos_eq by lra. lra. Qed.
Lemma c_glass : code_cos g_s graz_back = RtoC (12 / 13).
Proof. rewrite g_s_real. unfold graz_back. apply real_cos; try lra. rewrite Rabs_pos_eq by lra. lra. Qed.

Lemma phase_film y : clip35 (raw_phase g_s 633 (RtoC (8 / 5)) (quarter_plus y / 10)) = RtoC (PI / 2 + y).
Proof.
  pose proof PI_RGT_0 as PP.
  assert (E : raw_phase g_s 633 (RtoC (8 / 5)) (quarter_plus y / 10) = RtoC (PI / 2 + y)).
  { unfold raw_phase. rewrite c_film. rewrite <- !RtoC_mult. rewrite <- RtoC_div by lra. rewrite <- RtoC_mult. f_equal.
    unfold quarter_plus. field. lra. }
  rewrite E. apply clip35_id. simpl. lra.
Qed.

Definition g_front : medium := mkMedium (RtoC 1) (RtoC (7 / 25)) 0.
Definition g_film (y : R) : medium := mkMedium (RtoC (8 / 5)) (RtoC (4 / 5)) (RtoC (PI / 2 + y)).
Definition g_glass : medium := mkMedium graz_back (RtoC (12 / 13)) 0.

(** e^(i(pi/2 + y)) *)
Lemma exp_quarter y : cexp (Ci * RtoC (PI / 2 + y)) = ((- sin y)%R, cos y) /\
  cexp (- (Ci * RtoC (PI / 2 + y))) = ((- sin y)%R, (- cos y)%R).
Proof.
  assert (CC : cos (PI / 2 + y) = (- sin y)%R) by (rewrite cos_plus, cos_PI2, sin_PI2; ring).
  assert (SS : sin (PI / 2 + y) = cos y) by (rewrite sin_plus, cos_PI2, sin_PI2; ring).
  split; unfold cexp; cbn [Re Im fst snd Cmult Copp Ci RtoC].
  - replace (0 * (PI / 2 + y) - 1 * 0)%R with 0%R by ring. rewrite exp_0.
    replace (0 * 0 + 1 * (PI / 2 + y))%R with (PI / 2 + y)%R by ring. rewrite CC, SS. f_equal; ring.
  - replace (- (0 * (PI / 2 + y) - 1 * 0))%R with 0%R by ring. rewrite exp_0.
    replace (- (0 * 0 + 1 * (PI / 2 + y)))%R with (- (PI / 2 + y))%R by ring.
    rewrite cos_neg, sin_neg, CC, SS. f_equal; ring.
Qed.

Definition g_T p y := tm p g_front [g_film y; g_glass].

Lemma g_m00 p y : m00 (g_T p y) = ia p g_front (g_film y) * (((- sin y)%R, (- cos y)%R) * ia p (g_film y) g_glass) +
  ib p g_front (g_film y) * (((- sin y)%R, cos y) * ib p (g_film y) g_glass).
Proof.
  unfold g_T. rewrite tm_cons. cbn [tm]. unfold pmat, imat, mmul, m00. cbn [phase g_film].
  destruct (exp_quarter y) as [-> ->]. ring.
Qed.
Lemma g_m10 p y : m10 (g_T p y) = ib p g_front (g_film y) * (((- sin y)%R, (- cos y)%R) * ia p (g_film y) g_glass) +
  ia p g_front (g_film y) * (((- sin y)%R, cos y) * ib p (g_film y) g_glass).
Proof.
  unfold g_T. rewrite tm_cons. cbn [tm]. unfold pmat, imat, mmul, m10. cbn [phase g_film].
  destruct (exp_quarter y) as [-> ->]. ring.
Qed.

Lemma ia_S1 y : ia pS g_front (g_film y) = RtoC (39 / 14).
Proof. unfold ia, g_front, g_film. cbn [idx cosine]. rewrite <- !RtoC_mult, <- RtoC_plus, <- RtoC_div by lra. f_equal. field. Qed.
Lemma ib_S1 y : ib pS g_front (g_film y) = RtoC (- (25 / 14)).
Proof. unfold ib, g_front, g_film. cbn [idx cosine]. rewrite <- !RtoC_mult, <- RtoC_minus, <- RtoC_div by lra. f_equal. field. Qed.
Lemma ia_P1 y : ia pP g_front (g_film y) = RtoC (78 / 35).
Proof. unfold ia, g_front, g_film. cbn [idx cosine]. rewrite <- !RtoC_mult, <- RtoC_plus, <- RtoC_div by lra. f_equal. field. Qed.
Lemma ib_P1 y : ib pP g_front (g_film y) = RtoC (- (22 / 35)).
Proof. unfold ib, g_front, g_film. cbn [idx cosine]. rewrite <- !RtoC_mult, <- RtoC_minus, <- RtoC_div by lra. f_equal. field. Qed.
Lemma ia_S2 y : ia pS (g_film y) g_glass = RtoC (7 / 5).
Proof. unfold ia, g_glass, g_film, graz_back. cbn [idx cosine]. rewrite <- !RtoC_mult, <- RtoC_plus, <- RtoC_div by lra. f_equal. field. Qed.
Lemma ib_S2 y : ib pS (g_film y) g_glass = RtoC (- (2 / 5)).
Proof. unfold ib, g_glass, g_film, graz_back. cbn [idx cosine]. rewrite <- !RtoC_mult, <- RtoC_minus, <- RtoC_div by lra. f_equal. field. Qed.
Lemma ia_P2 y : ia pP (g_film y) g_glass = RtoC (441 / 325).
Proof. unfold ia, g_glass, g_film, graz_back. cbn [idx cosine]. rewrite <- !RtoC_mult, <- RtoC_plus, <- RtoC_div by lra. f_equal. field. Qed.
Lemma ib_P2 y : ib pP (g_film y) g_glass = RtoC (66 / 325).
Proof. unfold ib, g_glass, g_film, graz_back. cbn [idx cosine]. rewrite <- !RtoC_mult, <- RtoC_minus, <- RtoC_div by lra. f_equal. field. Qed.

(** the matrix elements, up to real factors *)
Lemma el_s y : m00 (g_T pS y) = RtoC (1 / 70) * ((- (323 * sin y))%R, (- (223 * cos y))%R) /\
  m10 (g_T pS y) = RtoC (1 / 70) * ((253 * sin y)%R, (97 * cos y)%R).
Proof.
  rewrite g_m00, g_m10, ia_S1, ib_S1, ia_S2, ib_S2.
  split; apply C_eq; cbn [Re Im fst snd RtoC Cmult Cplus]; field.
Qed.
Lemma el_p y : m00 (g_T pP y) = RtoC (1 / 11375) * ((- (32946 * sin y))%R, (- (35850 * cos y))%R) /\
  m10 (g_T pP y) = RtoC (1 / 11375) * ((4554 * sin y)%R, (14850 * cos y)%R).
Proof.
  rewrite g_m00, g_m10, ia_P1, ib_P1, ia_P2, ib_P2.
  split; apply C_eq; cbn [Re Im fst snd RtoC Cmult Cplus]; field.
Qed.

Lemma trig_nz (a b y : R) : (a <> 0)%R -> (b <> 0)%R -> (((a * sin y)%R, (b * cos y)%R) : C) <> 0.
Proof.
  intros Ha Hb E. pose proof (f_equal Re E) as E1. pose proof (f_equal Im E) as E2. cbn [Re Im fst snd RtoC] in E1, E2.
  pose proof (sin2_cos2 y) as H. unfold Rsqr in H.
  assert (sin y = 0%R) by (apply Rmult_integral in E1 as [|]; lra).
  assert (cos y = 0%R) by (apply Rmult_integral in E2 as [|]; lra). rewrite H0, H1 in H. lra.
Qed.

Lemma g_amp p y : amp p (tmm_point (ns (RtoC (Re (RtoC 1))) (nm (film_at graz_film y)) graz_back)
    (ds PInf (nm (film_at graz_film y)) PInf) true (rad graz) 633) =
  Some (m10 (g_T p y) / m00 (g_T p y), 1 / m00 (g_T p y)).
Proof.
  apply tmm_point_iff. rewrite sin_graz. cbn [Re RtoC fst]. fold g_s.
  assert (E1 : code_end g_s (RtoC 1) = g_front) by (unfold code_end; rewrite c_air; reflexivity).
  assert (E2 : code_rest g_s 633 true (nm (film_at graz_film y)) graz_back = [g_film y; g_glass]).
  { unfold code_rest, nm, film_at, graz_film. cbn [map app fst snd]. unfold code_layer, code_end. cbn [fst snd].
    rewrite phase_film, c_film, c_glass. reflexivity. }
  rewrite E1, E2.
  assert (NZ : forall x : R, (x <> 0)%R -> RtoC x <> 0) by (intros x Hx X; apply RtoC_inj in X; auto).
  split; [|split; [|split; [|split]]].
  - split; [apply NZ; lra|]. split; [|apply NZ; lra]. constructor; [|constructor]. cbn [fst]. apply NZ. lra.
  - intros _. lra.
  - cbn [good]. unfold regular, fden, g_front, g_film, g_glass, graz_back. cbn [idx cosine].
    destruct p; rewrite <- ?RtoC_mult, <- ?RtoC_plus; repeat split; apply NZ; lra.
  - fold (g_T p y). destruct p.
    + destruct (el_s y) as [-> _]. apply Cmult_neq_0; [apply NZ; lra|].
      replace (- (323 * sin y))%R with ((-323) * sin y)%R by ring. replace (- (223 * cos y))%R with ((-223) * cos y)%R by ring.
      apply trig_nz; lra.
    + destruct (el_p y) as [-> _]. apply Cmult_neq_0; [apply NZ; lra|].
      replace (- (32946 * sin y))%R with ((-32946) * sin y)%R by ring. replace (- (35850 * cos y))%R with ((-35850) * cos y)%R by ring.
      apply trig_nz; lra.
  - split; reflexivity.
Qed.

Definition g_rs y : C := m10 (g_T pS y) / m00 (g_T pS y).
Definition g_rp y : C := m10 (g_T pP y) / m00 (g_T pP y).

Definition g_num y : C := ((8335338 * (sin y * sin y) - 3477450 * (cos y * cos y))%R, (12265812 * (sin y * cos y))%R).
Definition g_den y : C := ((1470942 * (sin y * sin y) - 3311550 * (cos y * cos y))%R, (5812092 * (sin y * cos y))%R).

Lemma g_el_nz y : m00 (g_T pS y) <> 0 /\ m10 (g_T pS y) <> 0 /\ m00 (g_T pP y) <> 0 /\ m10 (g_T pP y) <> 0.
Proof.
  assert (NZ : forall x : R, (x <> 0)%R -> RtoC x <> 0) by (intros x Hx X; apply RtoC_inj in X; auto).
  destruct (el_s y) as [-> ->]. destruct (el_p y) as [-> ->].
  replace (- (323 * sin y))%R with ((-323) * sin y)%R by ring. replace (- (223 * cos y))%R with ((-223) * cos y)%R by ring.
  replace (- (32946 * sin y))%R with ((-32946) * sin y)%R by ring. replace (- (35850 * cos y))%R with ((-35850) * cos y)%R by ring.
  repeat split; (apply Cmult_neq_0; [apply NZ; lra|apply trig_nz; lra]).
Qed.

Lemma g_r_nz y : g_rs y <> 0 /\ g_rp y <> 0.
Proof.
  destruct (g_el_nz y) as (A & B & D & F). unfold g_rs, g_rp. split; intros E.
  - apply B. transitivity (m10 (g_T pS y) / m00 (g_T pS y) * m00 (g_T pS y)); [field; auto|rewrite E; ring].
  - apply F. transitivity (m10 (g_T pP y) / m00 (g_T pP y) * m00 (g_T pP y)); [field; auto|rewrite E; ring].
Qed.

Lemma g_z y : (1 / (- g_rp y / g_rs y)) * g_den y = - g_num y /\ g_den y <> 0.
Proof.
  destruct (g_el_nz y) as (A & B & D & F). destruct (el_s y) as [E1 E2]. destruct (el_p y) as [E3 E4].
  assert (P : g_den y = RtoC (- (70 * 11375)) * (m00 (g_T pS y) * m10 (g_T pP y))).
  { rewrite E1, E4. apply C_eq; cbn [Re Im fst snd RtoC Cmult g_den]; field. }
  assert (Q : g_num y = RtoC (- (70 * 11375)) * (m10 (g_T pS y) * m00 (g_T pP y))).
  { rewrite E2, E3. apply C_eq; cbn [Re Im fst snd RtoC Cmult g_num]; field. }
  assert (NZ : RtoC (- (70 * 11375)) <> 0) by (intros X; apply RtoC_inj in X; lra).
  split; [|rewrite P; repeat apply Cmult_neq_0; auto].
  rewrite P, Q. unfold g_rs, g_rp. field. auto.
Qed.

Lemma g_z_sign y : (- (PI / 2) < y < PI / 2)%R ->
  let z := 1 / (- g_rp y / g_rs y) in
  z <> 0 /\ (y < 0 -> Im z < 0)%R /\ (y = 0 -> Im z = 0 /\ Re z < 0)%R.
Proof.
  intros HY z. destruct (g_z y) as [E N]. fold z in E.
  assert (CK : (0 < cos y)%R) by (apply cos_gt_0; lra).
  assert (EZ : z = - g_num y / g_den y) by (rewrite <- E; field; auto).
  pose proof (Cmod2_nz _ N) as M.
  assert (MP : (0 < Re (g_den y) * Re (g_den y) + Im (g_den y) * Im (g_den y))%R) by nra.
  assert (IZ : (Im z * (Re (g_den y) * Re (g_den y) + Im (g_den y) * Im (g_den y)) =
    sin y * cos y * (30402448000000 * 0 + (8335338 * 5812092 - 12265812 * 1470942) * (sin y * sin y) + (12265812 * 3311550 - 3477450 * 5812092) * (cos y * cos y)))%R).
  { rewrite EZ. unfold Cdiv, Cinv. set (dd := (fst (g_den y) ^ 2 + snd (g_den y) ^ 2)%R).
    assert (DD : dd = (Re (g_den y) * Re (g_den y) + Im (g_den y) * Im (g_den y))%R) by (unfold dd, Re, Im; ring).
    cbn [Im Cmult Copp snd fst]. rewrite <- DD.
    assert (dd <> 0)%R by (rewrite DD; lra).
    transitivity ((- fst (g_num y)) * (- snd (g_den y)) + (- snd (g_num y)) * fst (g_den y))%R; [field; auto|].
    cbn [fst snd g_num g_den]. ring. }
  assert (RZ : y = 0%R -> (Re z < 0)%R).
  { intros Y0. rewrite EZ. unfold Cdiv, Cinv. set (dd := (fst (g_den y) ^ 2 + snd (g_den y) ^ 2)%R).
    assert (DD : dd = (Re (g_den y) * Re (g_den y) + Im (g_den y) * Im (g_den y))%R) by (unfold dd, Re, Im; ring).
    cbn [Re Cmult Copp snd fst]. assert (DP : (0 < / dd)%R) by (apply Rinv_0_lt_compat; lra).
    cbn [fst snd g_num g_den]. rewrite Y0, sin_0, cos_0.
    match goal with |- (?a < 0)%R => replace a with ((- (3477450 * 3311550)) * / dd)%R by (field; lra) end. nra. }
  split; [|split].
  - intros Z0. assert (X : g_num y = 0) by (transitivity (- (z * g_den y)); [rewrite E; ring|rewrite Z0; ring]).
    destruct (g_el_nz y) as (A & B & D & F). destruct (el_s y) as [E1 E2]. destruct (el_p y) as [E3 E4].
    assert (Q : g_num y = RtoC (- (70 * 11375)) * (m10 (g_T pS y) * m00 (g_T pP y))).
    { rewrite E2, E3. apply C_eq; cbn [Re Im fst snd RtoC Cmult g_num]; field. }
    rewrite Q in X. revert X. repeat apply Cmult_neq_0; auto. intros X; apply RtoC_inj in X; lra.
  - intros Hy. assert (SY : (sin y < 0)%R).
    { apply sin_lt_0_var; lra. }
    set (W := (30402448000000 * 0 + (8335338 * 5812092 - 12265812 * 1470942) * (sin y * sin y) + (12265812 * 3311550 - 3477450 * 5812092) * (cos y * cos y))%R) in *.
    assert (WP : (0 < W)%R).
    { unfold W. assert (0 <= sin y * sin y)%R by nra. assert (0 < cos y * cos y)%R by nra. nra. }
    assert (sin y * cos y * W < 0)%R.
    { assert (0 < - sin y * cos y * W)%R by (repeat apply Rmult_lt_0_compat; lra). lra. }
    apply Rnot_le_lt. intros L. assert (0 <= Im z * (Re (g_den y) * Re (g_den y) + Im (g_den y) * Im (g_den y)))%R by (apply Rmult_le_pos; lra). lra.
  - intros Y0. split; [|auto]. assert (S0 : sin y = 0%R) by (rewrite Y0; apply sin_0). rewrite S0 in IZ.
    assert (X : (Im z * (Re (g_den y) * Re (g_den y) + Im (g_den y) * Im (g_den y)) = 0)%R) by (rewrite IZ; ring).
    apply Rmult_integral in X as [|]; [auto|lra].
Qed.

Lemma g_delta y : delta_at 0 (RtoC 1) 0 graz_film 0 graz_back 0 graz 633 0 false y =
  Some ((carg (1 / (- g_rp y / g_rs y))%C + PI) * (180 / PI) + 0)%R.
Proof.
  pose proof (psi_delta_at 0 (RtoC 1) 0 graz_film 0 graz_back 0 graz 633 0 false y) as PD.
  unfold DP_one, psi_delta in PD. pose proof (g_amp pS y) as AS. pose proof (g_amp pP y) as AP. cbn [amp] in AS, AP.
  rewrite AS, AP in PD. fold (g_rs y) (g_rp y) in PD. destruct (g_r_nz y) as [NS NP].
  unfold delta_of in PD. rewrite cdiv_some in PD by auto. cbn [obind] in PD. rewrite cdiv_some in PD.
  - cbn [obind] in PD. congruence.
  - intros E. apply NP. transitivity (- (- g_rp y / g_rs y * g_rs y)); [field; auto|rewrite E; ring].
Qed.

Lemma carg_neg (z : C) : z <> 0 -> (Im z < 0)%R -> (carg z < 0)%R.
Proof.
  intros NZ H. pose proof (carg_dir z NZ) as [_ S1]. pose proof (carg_bounds z). pose proof (Cmod_pos z NZ).
  apply Rnot_le_lt. intros L. assert (0 <= sin (carg z))%R by (apply sin_ge_0; lra).
  assert (Im z / Cmod z < 0)%R; [|lra]. unfold Rdiv. assert (0 < / Cmod z)%R by (apply Rinv_0_lt_compat; auto). nra.
Qed.

Lemma carg_cut (z : C) : (Im z = 0)%R -> (Re z < 0)%R -> carg z = PI.
Proof.
  intros HI HR. apply (carg_unique z (- Re z) PI); [lra| |].
  - pose proof PI_RGT_0. lra.
  - rewrite cos_PI, sin_PI. apply C_eq; cbn [Re Im fst snd]; [change (fst z) with (Re z); ring|].
    change (snd z) with (Im z). rewrite HI. ring.
Qed.

Theorem delta_jumps :
  Forall (fun l => continuity_pt (snd (fst l)) 0) graz_film /\
  coh_tmm (ns (RtoC (Re (RtoC 1))) (nm (film_at graz_film 0)) graz_back) (ds PInf (nm (film_at graz_film 0)) PInf)
    [(rad graz, 633%R)] = Ok [mkAmp (Some (g_rs 0, 1 / m00 (g_T pS 0))) (Some (g_rp 0, 1 / m00 (g_T pP 0)))] /\
  g_rs 0 <> 0 /\ g_rp 0 <> 0 /\
  ~ settles (delta_at 0 (RtoC 1) 0 graz_film 0 graz_back 0 graz 633 0 false) 0.
Proof.
  pose proof PI_RGT_0 as PP.
  split.
  { constructor; [|constructor]. cbn [fst snd]. unfold quarter_plus.
    apply derivable_continuous_pt. reg. }
  split.
  { rewrite coh_tmm_real_ok. cbn [map fst snd]. f_equal. f_equal.
    pose proof (g_amp pS 0) as AS. pose proof (g_amp pP 0) as AP. cbn [amp] in AS, AP.
    set (a := tmm_point _ _ _ _ _) in *. destruct a as [a1 a2]. cbn [amp_s amp_p] in *. rewrite AS, AP. reflexivity. }
  destruct (g_r_nz 0) as [NS NP]. split; [auto|]. split; [auto|].
  intros (v & V & H). destruct (H 90 ltac:(lra)) as (eta & He & HE).
  set (y := (- Rmin (eta / 2) 1)%R).
  assert (Y : (- 1 <= y < 0)%R).
  { unfold y. pose proof (Rmin_r (eta / 2) 1). assert (0 < Rmin (eta / 2) 1)%R by (apply Rmin_glb_lt; lra). lra. }
  assert (YE : (Rabs (y - 0) < eta)%R).
  { rewrite Rminus_0_r, Rabs_left by lra. unfold y. pose proof (Rmin_l (eta / 2) 1). lra. }
  destruct (HE y YE) as (v' & V' & HV).
  rewrite g_delta in V, V'.
  assert (E : v = ((carg (1 / (- g_rp 0 / g_rs 0))%C + PI) * (180 / PI) + 0)%R) by congruence.
  assert (E' : v' = ((carg (1 / (- g_rp y / g_rs y))%C + PI) * (180 / PI) + 0)%R) by congruence.
  assert (P2 : (1 < PI / 2)%R) by (pose proof PI2_1; lra).
  destruct (g_z_sign 0 ltac:(lra)) as (_ & _ & Z0). destruct (Z0 eq_refl) as [ZI ZR].
  destruct (g_z_sign y ltac:(lra)) as (ZN & Z1 & _). specialize (Z1 ltac:(lra)).
  rewrite (carg_cut _ ZI ZR) in E.
  pose proof (carg_neg _ ZN Z1) as CN. set (q := carg (1 / (- g_rp y / g_rs y))%C) in *.
  assert (C180 : (0 < 180 / PI)%R) by (apply Rdiv_lt_0_compat; lra).
  assert (PI2 : (PI * (180 / PI) = 180)%R) by (field; lra).
  assert (v = 360)%R by (rewrite E; transitivity (2 * (PI * (180 / PI)))%R; [ring|rewrite PI2; ring]).
  assert (v' < 180)%R by (rewrite E'; nra).
  apply Rabs_def2 in HV. lra.
Qed.
