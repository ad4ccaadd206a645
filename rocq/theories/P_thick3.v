(** * Two thicknesses within an interference order with the same psi and delta; other cases *)

Require Import Reals.
From Coquelicot Require Import Rcomplements Complex.
Require Import List Bool Arith ZArith Lra Lia Psatz.
From Verif Require Import Base Cplx M_tmm Spec_optics P_tmm P_tmm2 P_tmm3 P_tmm4 P_psidelta P_psidelta2 P_film P_examples M_objective
  Spec_ident P_ident P_ident2 P_ident3 P_cont P_cont2 P_cont3 P_identex Spec_thick P_thick P_thick2.
Import ListNotations.
Open Scope R_scope.
Open Scope C_scope.

(** ** air, a film of index 8/5, a backing of index 26/25, sin = 24/25 *)
Definition low_back : C := RtoC (26 / 25).
Lemma c_low : code_cos g_s low_back = RtoC (5 / 13).
Proof. rewrite g_s_real. unfold low_back. apply real_cos; try lra. rewrite Rabs_pos_eq by lra. lra. Qed.
Definition g_low : medium := mkMedium low_back (RtoC (5 / 13)) 0.
Lemma ia_S3 y : ia pS (g_film y) g_low = RtoC (21 / 32).
Proof. unfold ia, g_low, g_film, low_back. cbn [idx cosine]. rewrite <- !RtoC_mult, <- RtoC_plus, <- RtoC_div by lra. f_equal. field. Qed.
Lemma ib_S3 y : ib pS (g_film y) g_low = RtoC (11 / 32).
Proof. unfold ib, g_low, g_film, low_back. cbn [idx cosine]. rewrite <- !RtoC_mult, <- RtoC_minus, <- RtoC_div by lra. f_equal. field. Qed.
Lemma ia_P3 y : ia pP (g_film y) g_low = RtoC (147 / 260).
Proof. unfold ia, g_low, g_film, low_back. cbn [idx cosine]. rewrite <- !RtoC_mult, <- RtoC_plus, <- RtoC_div by lra. f_equal. field. Qed.
Lemma ib_P3 y : ib pP (g_film y) g_low = RtoC (11 / 130).
Proof. unfold ib, g_low, g_film, low_back. cbn [idx cosine]. rewrite <- !RtoC_mult, <- RtoC_minus, <- RtoC_div by lra. f_equal. field. Qed.

Definition zq (y : R) : C := turn (RtoC (PI / 2 + y)).
Lemma zq_mod y : Cmod (zq y) = 1%R.
Proof. unfold zq. rewrite turn_mod. replace (- 2 * Im (RtoC (PI / 2 + y)))%R with 0%R by (simpl; ring). apply exp_0. Qed.
Lemma zq_inv y : zq y * zq (- y) = 1 /\ zq y + zq (- y) = RtoC (- 2 * cos (2 * y)).
Proof.
  unfold zq. rewrite !turn_exp. split.
  - rewrite <- cexp_add. unfold cexp. simpl.
    match goal with |- (?a, ?b) = _ => replace a with (exp 0 * cos (2 * PI))%R; [replace b with (exp 0 * sin (2 * PI))%R|] end.
    + rewrite exp_0, cos_2PI, sin_2PI. apply C_eq; simpl; ring.
    + f_equal; f_equal; field.
    + f_equal; f_equal; field.
  - unfold cexp. simpl.
    assert (A : forall u, (0 * (2 * (PI / 2 + u) - 0 * 0) - 1 * (2 * 0 + 0 * (PI / 2 + u)) = 0)%R) by (intros; ring).
    assert (B : forall u, (0 * (2 * 0 + 0 * (PI / 2 + u)) + 1 * (2 * (PI / 2 + u) - 0 * 0) = 2 * u + PI)%R) by (intros; field).
    rewrite !A, !B, exp_0. replace (2 * - y)%R with (- (2 * y))%R by ring.
    rewrite !neg_cos, !neg_sin, cos_neg, sin_neg. apply C_eq; simpl; ring.
Qed.

Lemma combo_nz (a b : R) (z : C) : Cmod z = 1%R -> (Rabs b < Rabs a)%R -> RtoC a + RtoC b * z <> 0.
Proof.
  intros M L E. assert (K : RtoC a = RtoC (- b) * z).
  { transitivity (RtoC a + RtoC b * z - RtoC b * z); [ring|]. rewrite E, RtoC_opp. ring. }
  apply (f_equal Cmod) in K. rewrite Cmod_mult, !Cmod_R, M, Rabs_Ropp in K. lra.
Qed.

Definition l_T p y := tm p g_front [g_film y; g_low].
Lemma l_split p y : l_T p y = mmul (imat p g_front (g_film y)) (mmul (pmat (RtoC (PI / 2 + y))) (imat p (g_film y) g_low)).
Proof. reflexivity. Qed.
Lemma l_s y : m00 (l_T pS y) = cexp (- (Ci * RtoC (PI / 2 + y))) * (RtoC (117 / 64) + RtoC (- (275 / 448)) * zq y) /\
  m10 (l_T pS y) = cexp (- (Ci * RtoC (PI / 2 + y))) * (RtoC (- (75 / 64)) + RtoC (429 / 448) * zq y).
Proof.
  rewrite l_split. destruct (turn_entries (imat pS g_front (g_film y)) (imat pS (g_film y) g_low) (RtoC (PI / 2 + y))) as [-> ->].
  cbn [imat m00 m01 m10 m11]. rewrite ia_S1, ib_S1, ia_S3, ib_S3, <- !RtoC_mult. fold (zq y).
  split; f_equal; f_equal; try (f_equal; field); f_equal; f_equal; field.
Qed.
Lemma l_p y : m00 (l_T pP y) = cexp (- (Ci * RtoC (PI / 2 + y))) * (RtoC (63 / 50) + RtoC (- (121 / 2275)) * zq y) /\
  m10 (l_T pP y) = cexp (- (Ci * RtoC (PI / 2 + y))) * (RtoC (- (231 / 650)) + RtoC (33 / 175) * zq y).
Proof.
  rewrite l_split. destruct (turn_entries (imat pP g_front (g_film y)) (imat pP (g_film y) g_low) (RtoC (PI / 2 + y))) as [-> ->].
  cbn [imat m00 m01 m10 m11]. rewrite ia_P1, ib_P1, ia_P3, ib_P3, <- !RtoC_mult. fold (zq y).
  split; f_equal; f_equal; try (f_equal; field); f_equal; f_equal; field.
Qed.

Definition num_s y : C := RtoC (- (75 / 64)) + RtoC (429 / 448) * zq y.
Definition den_s y : C := RtoC (117 / 64) + RtoC (- (275 / 448)) * zq y.
Definition num_p y : C := RtoC (- (231 / 650)) + RtoC (33 / 175) * zq y.
Definition den_p y : C := RtoC (63 / 50) + RtoC (- (121 / 2275)) * zq y.
Lemma l_nz y : num_s y <> 0 /\ den_s y <> 0 /\ num_p y <> 0 /\ den_p y <> 0.
Proof.
  repeat split; apply combo_nz; try apply zq_mod; rewrite ?Rabs_Ropp, !Rabs_pos_eq by lra; lra.
Qed.

Lemma l_amp p y : exists t, amp p (amps (RtoC (Re (RtoC 1))) [] (RtoC (8 / 5)) (quarter_plus y / 10) [] low_back (rad graz) 633) =
  Some (match p with pS => num_s y / den_s y | pP => num_p y / den_p y end, t).
Proof.
  exists (1 / m00 (l_T p y)). unfold amps. apply tmm_point_iff. rewrite sin_graz. cbn [Re RtoC fst app]. fold g_s.
  assert (E1 : code_end g_s (RtoC 1) = g_front) by (unfold code_end; rewrite c_air; reflexivity).
  assert (E2 : code_rest g_s 633 true [(RtoC (8 / 5), (quarter_plus y / 10)%R)] low_back = [g_film y; g_low]).
  { unfold code_rest. cbn [map app fst snd]. unfold code_layer, code_end. cbn [fst snd]. rewrite phase_film, c_film, c_low. reflexivity. }
  rewrite E1, E2. fold (l_T p y).
  assert (NZ : forall x : R, (x <> 0)%R -> RtoC x <> 0) by (intros x Hx X; apply RtoC_inj in X; auto).
  pose proof (l_nz y) as (N1 & N2 & N3 & N4). pose proof (cexp_neq_0 (- (Ci * RtoC (PI / 2 + y)))) as X.
  assert (M : m00 (l_T p y) <> 0).
  { destruct p; [destruct (l_s y) as [-> _]|destruct (l_p y) as [-> _]]; apply Cmult_neq_0; auto. }
  split; [|split; [|split; [|split]]].
  - split; [apply NZ; lra|]. split; [|apply NZ; lra]. constructor; [|constructor]. cbn [fst]. apply NZ. lra.
  - intros _. lra.
  - cbn [good]. unfold regular, fden, g_front, g_film, g_low, low_back. cbn [idx cosine].
    destruct p; rewrite <- ?RtoC_mult, <- ?RtoC_plus; repeat split; apply NZ; lra.
  - exact M.
  - split; [|reflexivity]. destruct p; [destruct (l_s y) as [-> ->]|destruct (l_p y) as [-> ->]];
      [fold (num_s y) (den_s y)|fold (num_p y) (den_p y)]; field; auto.
Qed.

(** y with cos 2y = -733/1617 *)
Definition y0 : R := (acos (- (733 / 1617)) / 2)%R.
Lemma y0_facts : cos (2 * y0) = (- (733 / 1617))%R /\ (0 < y0 < PI / 2)%R.
Proof.
  assert (C : cos (2 * y0) = (- (733 / 1617))%R) by (unfold y0; replace (2 * (acos (- (733 / 1617)) / 2))%R with (acos (- (733 / 1617))) by field; apply cos_acos; lra).
  split; [exact C|]. pose proof (acos_bound (- (733 / 1617))) as [B1 B2]. pose proof PI_RGT_0.
  assert (0 <> 2 * y0)%R by (intros K; rewrite <- K, cos_0 in C; lra).
  assert (PI <> 2 * y0)%R by (intros K; rewrite <- K, cos_PI in C; lra).
  unfold y0 in *. lra.
Qed.
Lemma same_rho : num_p y0 / den_p y0 / (num_s y0 / den_s y0) = num_p (- y0) / den_p (- y0) / (num_s (- y0) / den_s (- y0)).
Proof.
  pose proof (l_nz y0) as (N1 & N2 & N3 & N4). pose proof (l_nz (- y0)) as (M1 & M2 & M3 & M4).
  destruct (zq_inv y0) as [I J]. rewrite (proj1 y0_facts) in J.
  replace (- 2 * - (733 / 1617))%R with (1466 / 1617)%R in J by field.
  assert (K : num_p y0 * den_s y0 * (den_p (- y0) * num_s (- y0)) = num_p (- y0) * den_s (- y0) * (den_p y0 * num_s y0)).
  { unfold num_p, den_p, num_s, den_s. set (z := zq y0) in *. set (z' := zq (- y0)) in *. clearbody z z'. apply minus_0.
    set (n0 := RtoC (- (231 / 650))). set (n1 := RtoC (33 / 175)). set (d0 := RtoC (63 / 50)). set (d1 := RtoC (- (121 / 2275))).
    set (s0 := RtoC (- (75 / 64))). set (s1 := RtoC (429 / 448)). set (t0 := RtoC (117 / 64)). set (t1 := RtoC (- (275 / 448))).
    transitivity ((z - z') * (
      ((n0 * t1 + n1 * t0) * (d0 * s0) - n0 * t0 * (d0 * s1 + d1 * s0)) +
      (z + z') * (n1 * t1 * (d0 * s0) - n0 * t0 * (d1 * s1)) +
      z * z' * (n1 * t1 * (d0 * s1 + d1 * s0) - (n0 * t1 + n1 * t0) * (d1 * s1)))); [ring|].
    rewrite I, J. unfold n0, n1, d0, d1, s0, s1, t0, t1.
    match goal with |- _ * ?e = _ => assert (Z : e = 0) by (apply C_eq; simpl; field); rewrite Z end. ring. }
  apply (Cmult_reg_l (den_p y0 * num_s y0 * (den_p (- y0) * num_s (- y0)))); [repeat apply Cmult_neq_0; auto|].
  transitivity (num_p y0 * den_s y0 * (den_p (- y0) * num_s (- y0))); [field; auto|].
  rewrite K. field. auto.
Qed.

Definition low_gives := gives 0 (RtoC 1) 0 [] (RtoC (8 / 5)) 0 [] 0 low_back 0 graz 633 0.
Lemma two_thicknesses refl : exists psi delta, low_gives refl (quarter_plus y0) psi delta /\ low_gives refl (quarter_plus (- y0)) psi delta.
Proof.
  destruct (l_amp pS y0) as [ts A1]. destruct (l_amp pP y0) as [tp A2]. destruct (l_amp pS (- y0)) as [ts' B1]. destruct (l_amp pP (- y0)) as [tp' B2].
  cbn [amp] in A1, A2, B1, B2.
  pose proof (l_nz y0) as (N1 & N2 & N3 & N4). pose proof (l_nz (- y0)) as (M1 & M2 & M3 & M4).
  set (rs := num_s y0 / den_s y0) in *. set (rp := num_p y0 / den_p y0) in *.
  set (rs' := num_s (- y0) / den_s (- y0)) in *. set (rp' := num_p (- y0) / den_p (- y0)) in *.
  assert (D : forall a b : C, a <> 0 -> b <> 0 -> a / b <> 0).
  { intros a b Ha Hb E. apply Ha. transitivity (b * (a / b)); [field; auto|]. rewrite E. ring. }
  assert (R1 : rs <> 0) by (apply D; auto). assert (R2 : rp <> 0) by (apply D; auto).
  assert (R3 : rs' <> 0) by (apply D; auto). assert (R4 : rp' <> 0) by (apply D; auto).
  pose proof same_rho as E. fold rs rp rs' rp' in E.
  destruct (psi_delta_spec 0 rs rp R1 R2) as (psi & delta & P & Dl & _).
  assert (DR : exists delta, delta_of refl 0 rs rp = Some delta).
  { destruct refl; [destruct (delta_reflect 0 rs rp delta Dl) as (x & X & _); exists x; auto|exists delta; auto]. }
  destruct DR as [delta' Dr]. exists psi, delta'. split; apply gives_am; unfold psi_delta; change (nm []) with (@nil (C * R)).
  - rewrite A1, A2, P, Dr. reflexivity.
  - rewrite B1, B2. rewrite (psi_ratio rs' rp' rs rp (rp / rs)), (delta_ratio refl 0 rs' rp' rs rp (rp / rs)); auto; try (field; auto).
    + rewrite P, Dr. reflexivity.
    + rewrite E. field. auto.
    + rewrite E. field. auto.
Qed.

Lemma low_distinguishable : distinguishable (Re (RtoC 1) * sin (rad graz)) 633 (RtoC (8 / 5)) [quarter_plus y0; quarter_plus (- y0)].
Proof.
  pose proof y0_facts as [_ B]. pose proof PI_RGT_0 as PP.
  assert (KP : (0 < 2 * PI * (32 / 25))%R) by nra.
  split.
  - constructor; [|constructor; [intros []|constructor]]. intros [E|[]]. unfold quarter_plus in E.
    apply (Rmult_eq_compat_r (2 * PI * (32 / 25))) in E. unfold Rdiv in E. rewrite !(Rmult_assoc _ (/ _)), Rinv_l in E by lra. lra.
  - left. destruct ex_order as (O & T & S & _). split; [exact T|]. split; [exact S|]. exists 0%R. rewrite O.
    assert (K : forall y, (- (PI / 2) < y < PI / 2)%R -> (0 <= quarter_plus y < 0 + 6330 / (2 * (32 / 25)))%R).
    { intros y Y. unfold quarter_plus. split.
      - apply Rlt_le, Rdiv_lt_0_compat; nra.
      - replace (0 + 6330 / (2 * (32 / 25)))%R with (6330 * PI / (2 * PI * (32 / 25)))%R by (field; lra).
        unfold Rdiv. apply Rmult_lt_compat_r; [apply Rinv_0_lt_compat; exact KP|]. lra. }
    constructor; [apply K; lra|]. constructor; [apply K; lra|constructor].
Qed.

Theorem unique_refuted : exists (nA nL nB : C) aoi w d d',
  (0 < Re nA)%R /\ (0 < aoi < 90)%R /\ (0 < w)%R /\ passive nL /\ passive nB /\ nL <> RtoC (Re nA) /\ nL <> nB /\
  distinguishable (Re nA * sin (rad aoi)) w nL [d; d'] /\
  forall refl, exists psi delta, gives 0 nA 0 [] nL 0 [] 0 nB 0 aoi w 0 refl d psi delta /\ gives 0 nA 0 [] nL 0 [] 0 nB 0 aoi w 0 refl d' psi delta.
Proof.
  exists (RtoC 1), (RtoC (8 / 5)), low_back, graz, 633%R, (quarter_plus y0), (quarter_plus (- y0)).
  split; [simpl; lra|]. split.
  - assert (B : (0 < rad graz < PI / 2)%R).
    { rewrite rad_graz. pose proof (asin_bound (24 / 25)) as [B1 B2]. pose proof sin_graz as X. rewrite rad_graz in X. pose proof PI_RGT_0. split.
      - apply Rnot_le_lt. intros L. assert (sin (asin (24 / 25)) <= 0)%R; [|lra]. rewrite <- sin_0. apply sin_incr_1; lra.
      - destruct B2 as [L|E]; [exact L|]. rewrite E, sin_PI2 in X. lra. }
    pose proof PI_RGT_0. unfold rad in B. split; [nra|].
    apply (Rmult_lt_reg_r (PI / 180)); [lra|]. lra.
  - split; [lra|]. split; [split; simpl; lra|]. split; [split; simpl; lra|].
    split; [intros E; apply RtoC_inj in E; simpl in E; lra|]. split; [intros E; apply RtoC_inj in E; lra|].
    split; [exact low_distinguishable|]. exact two_thicknesses.
Qed.

(** ** a film of the index of the backing: all thicknesses alike *)
Lemma same_backing p (n0 nB : C) th0 lam d r t : (lam <> 0)%R -> nB * code_cos (n0 * RtoC (sin th0)) nB <> 0 ->
  amp p (tmm_point (ns n0 [] nB) (ds PInf [] PInf) true th0 lam) = Some (r, t) ->
  exists t', amp p (amps n0 [] nB d [] nB th0 lam) = Some (r, t').
Proof.
  intros L G H. apply tmm_point_iff in H. set (S := n0 * RtoC (sin th0)) in *. cbn [code_rest map app] in H.
  destruct H as ((Z0 & _ & ZB) & _ & (G1 & G2 & _) & M & -> & _).
  cbn [tm] in M |- *. set (f := code_end S n0) in *. set (b := code_end S nB) in *.
  set (ph := ph_of n0 nB d th0 lam).
  assert (E : tm p f [mkMedium nB (code_cos S nB) ph; b] = mmul (imat p f b) (mmul (pmat ph) (imat p b b))) by reflexivity.
  assert (GC : code_cos S nB <> 0) by (intros X; apply G; rewrite X; ring).
  assert (A : ia p b b = 1) by (destruct p; cbn [ia b code_end idx cosine]; field; (split; [exact GC|exact ZB])).
  assert (B : ib p b b = 0) by (destruct p; cbn [ib b code_end idx cosine]; field; (split; [exact GC|exact ZB])).
  destruct (turn_entries (imat p f b) (imat p b b) ph) as [T0 T1]. cbn [imat m00 m01 m10 m11] in T0, T1, M |- *. rewrite A, B in T0, T1.
  pose proof (cexp_neq_0 (- (Ci * ph))) as X.
  eexists. unfold amps. cbn [app]. apply tmm_point_iff. fold S. cbn [code_rest map app]. fold f b.
  change (code_layer S lam true (nB, d)) with (mkMedium nB (code_cos S nB) ph).
  split; [split; [exact Z0|]; split; [constructor; [exact ZB|constructor]|exact ZB]|]. split; [intros _; exact L|].
  split; [|rewrite E; unfold imat at 1; fold (imat p f b); split; [|split; [|reflexivity]]].
  - cbn [good]. split; [exact G1|]. split; [destruct p; exact G2|]. split; [exact G|]. split; [|exact Logic.I].
    assert (D : fden p (mkMedium nB (code_cos S nB) ph) b = 2 * (nB * code_cos S nB)) by (destruct p; cbn [fden b code_end idx cosine]; ring).
    rewrite D. apply Cmult_neq_0; [exact C2_neq_0|exact G].
  - rewrite T0. apply Cmult_neq_0; [exact X|]. intros K. apply M. rewrite <- K. ring.
  - cbn [imat m00 m10]. rewrite T0, T1. replace (ia p f b * 1 + ib p f b * 0 * turn ph) with (ia p f b) by ring.
    replace (ib p f b * 1 + ia p f b * 0 * turn ph) with (ib p f b) by ring. field. auto.
Qed.

Lemma transparent_all : exists psi delta, distinguishable (Re (RtoC 1) * sin (rad ex_aoi)) 633 (RtoC (8 / 5)) [1; 2; 3]%R /\
  Forall (fun d => gives 0 (RtoC 1) 0 [] (RtoC (8 / 5)) 0 [] 0 (RtoC (8 / 5)) 0 ex_aoi 633 0 false d psi delta) [1; 2; 3]%R.
Proof.
  assert (SN : sin (rad ex_aoi) = (3 / 5)%R) by (unfold ex_aoi; rewrite deg_rad; exact sin35).
  destruct (brewster 0 (RtoC 1) 0 0 (RtoC (8 / 5)) 0 ex_aoi 633 0 false) as (psi & od & E & B1 & B2);
    [simpl; lra|apply ex_aoi_range|lra|split; simpl; lra|intros X; apply RtoC_inj in X; simpl in X; lra|].
  destruct od as [delta|].
  2:{ exfalso. destruct B2 as [_ B2]. specialize (B2 eq_refl). apply B1 in B2 as [_ B2]. simpl in B2.
      pose proof ex_aoi_range as AR. pose proof (rad_range ex_aoi AR) as RR. pose proof (cos_gt_0 (rad ex_aoi)) as CP.
      specialize (CP ltac:(lra) ltac:(lra)). unfold tan in B2. rewrite SN in B2. pose proof (sin2_cos2 (rad ex_aoi)) as Q. unfold Rsqr in Q. rewrite SN in Q.
      assert (cos (rad ex_aoi) = 4 / 5)%R by nra. rewrite H in B2. lra. }
  exists psi, delta. split.
  - rewrite SN. split.
    + repeat constructor; cbn; intuition lra.
    + left. split; [split; simpl; lra|]. split; [rewrite Rabs_pos_eq; simpl; lra|]. exists 0%R.
      assert (Q : (3 < 10 * order_thickness (Re (RtoC (8 / 5))) (Re (RtoC 1) * (3 / 5)) 633)%R).
      { unfold order_thickness. cbn [Re RtoC fst].
        set (q := sqrt (8 / 5 * (8 / 5) - 1 * (3 / 5) * (1 * (3 / 5)))).
        assert (q0 : (0 < q)%R) by (apply sqrt_lt_R0; lra). assert (q2 : (q < 2)%R).
        { rewrite <- (sqrt_square 2) by lra. apply sqrt_lt_1; lra. }
        apply (Rmult_lt_reg_r (2 * q)); [lra|]. replace (10 * (633 / (2 * q)) * (2 * q))%R with 6330%R by (field; lra). nra. }
      repeat constructor; lra.
  - rewrite DP_map in E. cbn [map] in E. injection E as E. unfold DP_one in E.
    pose proof (psi_delta_Some _ _ _ _ _ E) as (rs & ts & rp & tp & A1 & A2 & N1 & N2 & P & D).
    assert (G : RtoC (8 / 5) * code_cos (RtoC (Re (RtoC 1)) * RtoC (sin (rad ex_aoi))) (RtoC (8 / 5)) <> 0).
    { intros K. assert (K2 : RtoC (8 / 5) * RtoC (8 / 5) = RtoC (3 / 5) * RtoC (3 / 5)).
      { pose proof (code_cos_sq (RtoC (Re (RtoC 1)) * RtoC (sin (rad ex_aoi))) (RtoC (8 / 5))) as Q. rewrite SN in Q, K.
        assert (Z : RtoC (8 / 5) <> 0) by (intros X; apply RtoC_inj in X; lra).
        assert (F : code_cos (RtoC (Re (RtoC 1)) * RtoC (3 / 5)) (RtoC (8 / 5)) = 0) by (apply (cancel (RtoC (8 / 5))); auto).
        rewrite F in Q. apply minus_0. transitivity (RtoC (8 / 5) * RtoC (8 / 5) * (1 - RtoC (Re (RtoC 1)) * RtoC (3 / 5) / RtoC (8 / 5) * (RtoC (Re (RtoC 1)) * RtoC (3 / 5) / RtoC (8 / 5)))).
        - cbn [Re RtoC fst]. field. auto.
        - rewrite <- Q. ring. }
      apply (f_equal Re) in K2. simpl in K2. lra. }
    apply Forall_forall. intros d _. apply gives_am. unfold psi_delta. change (nm []) with (@nil (C * R)).
    destruct (same_backing pS _ _ _ 633 (d / 10) rs ts ltac:(lra) G A1) as [t1 X1].
    destruct (same_backing pP _ _ _ 633 (d / 10) rp tp ltac:(lra) G A2) as [t2 X2]. cbn [amp] in X1, X2.
    rewrite X1, X2, P, D. reflexivity.
Qed.

(** thin absorbing films *)
Lemma absorbing_apart : distinguishable (Re (RtoC 1) * sin (rad ex_aoi)) 633 (2, 1 / 10)%R [1; 2; 3]%R.
Proof.
  assert (SN : sin (rad ex_aoi) = (3 / 5)%R) by (unfold ex_aoi; rewrite deg_rad; exact sin35). rewrite SN.
  split; [repeat constructor; cbn; intuition lra|]. right. split; [left; simpl; lra|].
  assert (K : forall d, (1 <= d <= 3)%R -> uncut (Re (RtoC 1) * (3 / 5)) 633 (2, 1 / 10)%R d).
  { intros d Dd m (E1 & (_ & E2) & E3). rewrite E3. cbn [fst snd]. cbn [fst] in E1. rewrite E1 in E2.
    set (q := (2, 1 / 10)%R * cosine m).
    assert (Q : q * q = (2, 1 / 10)%R * (2, 1 / 10)%R - RtoC (Re (RtoC 1) * (3 / 5)) * RtoC (Re (RtoC 1) * (3 / 5))).
    { unfold q. transitivity ((2, 1 / 10)%R * (2, 1 / 10)%R * (cosine m * cosine m)); [ring|]. rewrite E2. field.
      intros X. apply (f_equal Re) in X. simpl in X. lra. }
    assert (E : 2 * PI * (2, 1 / 10)%R * cosine m * (d / 10)%R / 633%R = RtoC (2 * PI * (d / 10) / 633) * q).
    { unfold q. rewrite (RtoC_div (2 * PI * (d / 10)) 633) by lra. rewrite !RtoC_mult. field. }
    rewrite E. clear E E3 E2 E1. clearbody q. apply (f_equal Re) in Q as Q1. apply (f_equal Im) in Q as Q2.
    destruct q as [a b]. simpl in Q1, Q2 |- *.
    assert (B : (b * b <= 1)%R) by nra. assert (B1 : (b <= 1)%R) by nra.
    assert (PP : (0 < PI <= 4)%R) by (split; [apply PI_RGT_0|apply PI_4]).
    assert (F : (0 <= 2 * PI * (d / 10) / 633 <= 1)%R).
    { split; [apply Rle_mult_inv_pos; nra|]. apply (Rmult_le_reg_r 633); [lra|]. unfold Rdiv at 1. rewrite Rmult_assoc, Rinv_l by lra. nra. }
    nra. }
  constructor; [apply K; lra|]. constructor; [apply K; lra|]. constructor; [apply K; lra|constructor].
Qed.
