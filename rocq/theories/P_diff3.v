(** * Slopes: difference quotients, the kink at a perfect fit, the critical angle *)

Require Import Reals.
From Coquelicot Require Import Coquelicot.
Require Import List Bool Arith ZArith Lra Lia Psatz.
From Verif Require Import Base Cplx M_tmm M_objective Spec_optics P_tmm P_tmm2 P_tmm3 P_tmm4 P_psidelta P_psidelta2 P_examples Spec_ident P_ident P_ident2 P_ident3
  P_cont P_cont2 P_cont3 P_identex Spec_diff P_diff P_diff2.
Import ListNotations.
Open Scope R_scope.

(** ** Difference quotients *)
Theorem central (g : R -> option R) x l : has_slope g x l ->
  forall eps, 0 < eps -> exists eta, 0 < eta /\ forall h, 0 < h < eta ->
    exists u v, g (x + h) = Some u /\ g (x - h) = Some v /\ Rabs ((u - v) / (2 * h) - l) < eps.
Proof.
  intros (v0 & V & H) eps He. destruct (H eps He) as (eta & Ht & HE). exists eta. split; [exact Ht|]. intros h Hh.
  destruct (HE h ltac:(lra) ltac:(rewrite Rabs_pos_eq; lra)) as (u & U & BU).
  destruct (HE (- h) ltac:(lra) ltac:(rewrite Rabs_Ropp, Rabs_pos_eq; lra)) as (v & W & BV).
  exists u, v. split; [exact U|]. split; [exact W|]. apply Rabs_def2 in BU. apply Rabs_def2 in BV.
  replace ((u - v) / (2 * h) - l) with (((u - v0) / h - l + ((v - v0) / - h - l)) / 2) by (field; lra).
  apply Rabs_def1; lra.
Qed.

Lemma slope_unique (g : R -> option R) x l l' : has_slope g x l -> has_slope g x l' -> l = l'.
Proof.
  intros (v & V & H) (v' & V' & H'). assert (v = v') by congruence. subst v'.
  destruct (Req_dec l l') as [|N]; [assumption|exfalso]. set (e := Rabs (l - l') / 2).
  assert (E : 0 < e) by (unfold e; pose proof (Rabs_pos_lt (l - l') ltac:(lra)); lra).
  destruct (H e E) as (a & A & HA). destruct (H' e E) as (b & B & HB). set (h := Rmin a b / 2).
  assert (M : 0 < Rmin a b) by (apply Rmin_glb_lt; assumption). pose proof (Rmin_l a b). pose proof (Rmin_r a b).
  destruct (HA h ltac:(unfold h; lra) ltac:(rewrite Rabs_pos_eq; unfold h; lra)) as (u & U & BU).
  destruct (HB h ltac:(unfold h; lra) ltac:(rewrite Rabs_pos_eq; unfold h; lra)) as (w & W & BW).
  assert (u = w) by congruence. subst w. clear - BU BW. set (q := (u - v) / h) in *.
  assert (Rabs (l - l') < e + e); [|unfold e in *; lra]. replace (l - l') with (q - l' - (q - l)) by ring.
  eapply Rle_lt_trans; [apply Rabs_triang|]. rewrite Rabs_Ropp. lra.
Qed.

(** ** At a perfect fit *)
Lemma circ_near m d : Rabs (m - d) <= 180 -> circular_distance m d 360 = Rabs (m - d).
Proof. intros H. unfold circular_distance. apply Rmin_left. lra. Qed.

Theorem kink (g : R -> option R) x l m : has_slope g x l -> g x = Some m ->
  (slopes (fun y => omap (fun d => circular_distance m d 360) (g y)) x <-> l = 0) /\
  (forall eps, 0 < eps -> exists eta, 0 < eta /\ forall h, 0 < h < eta ->
    exists u v, omap (fun d => circular_distance m d 360) (g (x + h)) = Some u /\ omap (fun d => circular_distance m d 360) (g (x - h)) = Some v /\
      Rabs ((u - v) / (2 * h)) < eps).
Proof.
  intros (v & V & H) G. assert (v = m) by congruence. subst v. clear G.
  assert (Q : forall eps, 0 < eps -> exists eta, 0 < eta /\ forall h, h <> 0 -> Rabs h < eta -> exists v', g (x + h) = Some v' /\
     Rabs ((v' - m) / h - l) < eps /\ circular_distance m v' 360 = Rabs ((v' - m) / h) * Rabs h).
  { intros eps He. destruct (H eps He) as (eta & Ht & HE). exists (Rmin eta (180 / (Rabs l + eps))).
    assert (P : 0 < Rabs l + eps) by (pose proof (Rabs_pos l); lra).
    split; [apply Rmin_glb_lt; [assumption|apply Rdiv_lt_0_compat; lra]|]. intros h Hn Hh.
    destruct (HE h Hn) as (v' & V' & B); [eapply Rlt_le_trans; [exact Hh|apply Rmin_l]|]. exists v'. split; [exact V'|]. split; [exact B|].
    assert (EQ : Rabs (m - v') = Rabs ((v' - m) / h) * Rabs h).
    { rewrite <- Rabs_mult. replace ((v' - m) / h * h) with (- (m - v')) by (field; exact Hn). symmetry. apply Rabs_Ropp. }
    rewrite circ_near; [exact EQ|]. rewrite EQ.
    assert (B1 : Rabs ((v' - m) / h) <= Rabs l + eps).
    { replace ((v' - m) / h) with ((v' - m) / h - l + l) by ring. eapply Rle_trans; [apply Rabs_triang|lra]. }
    assert (B2 : Rabs h <= 180 / (Rabs l + eps)) by (apply Rlt_le; eapply Rlt_le_trans; [exact Hh|apply Rmin_r]).
    replace 180 with ((Rabs l + eps) * (180 / (Rabs l + eps))) by (field; lra). apply Rmult_le_compat; auto; apply Rabs_pos. }
  assert (C0 : circular_distance m m 360 = 0) by (rewrite circ_near; replace (m - m) with 0 by ring; rewrite Rabs_R0; lra).
  assert (LIP : forall a b, Rabs (Rabs a - Rabs b) <= Rabs (a - b)) by (intros; apply Rabs_triang_inv2).
  split; [split|].
  - intros (l' & v' & W & K). rewrite V in W. cbn [omap] in W. assert (v' = 0) by (rewrite C0 in W; congruence). subst v'. clear W.
    destruct (Req_dec l 0) as [|N]; [assumption|exfalso]. assert (LP : 0 < Rabs l) by (apply Rabs_pos_lt; exact N). set (e := Rabs l / 4). assert (E : 0 < e) by (unfold e; lra).
    destruct (Q e E) as (a & A & HA). destruct (K e E) as (b & B & HB). set (h := Rmin a b / 2).
    assert (M : 0 < Rmin a b) by (apply Rmin_glb_lt; assumption). pose proof (Rmin_l a b). pose proof (Rmin_r a b).
    assert (AH : Rabs h = h) by (apply Rabs_pos_eq; unfold h; lra). assert (AH' : Rabs (- h) = h) by (rewrite Rabs_Ropp; exact AH). assert (HP : 0 < h) by (unfold h; lra).
    destruct (HA h ltac:(lra) ltac:(rewrite AH; unfold h; lra)) as (u & U & BU & CU).
    destruct (HA (- h) ltac:(lra) ltac:(rewrite AH'; unfold h; lra)) as (w & W & BW & CW).
    destruct (HB h ltac:(lra) ltac:(rewrite AH; unfold h; lra)) as (u' & U' & BU').
    destruct (HB (- h) ltac:(lra) ltac:(rewrite AH'; unfold h; lra)) as (w' & W' & BW').
    rewrite U in U'. rewrite W in W'. cbn [omap] in U', W'. rewrite CU, AH in U'. rewrite CW, AH' in W'.
    assert (EU : u' = Rabs ((u - m) / h) * h) by congruence. assert (EW : w' = Rabs ((w - m) / - h) * h) by congruence.
    rewrite EU in BU'. rewrite EW in BW'. set (p := (u - m) / h) in *. set (q := (w - m) / - h) in *.
    replace ((Rabs p * h - 0) / h) with (Rabs p) in BU' by (field; lra). replace ((Rabs q * h - 0) / - h) with (- Rabs q) in BW' by (field; lra).
    pose proof (LIP p l) as LP1. pose proof (LIP q l) as LQ1.
    assert (X1 : Rabs (Rabs p - Rabs l) < e) by lra. assert (X2 : Rabs (Rabs q - Rabs l) < e) by lra.
    apply Rabs_def2 in X1. apply Rabs_def2 in X2. apply Rabs_def2 in BU'. apply Rabs_def2 in BW'. unfold e in *. lra.
  - intros ->. exists 0, 0. split; [rewrite V; cbn [omap]; rewrite C0; reflexivity|]. intros eps He. destruct (Q eps He) as (eta & Ht & HE). exists eta. split; [exact Ht|].
    intros h Hn Hh. destruct (HE h Hn Hh) as (v' & V' & B & CV). exists (circular_distance m v' 360). split; [rewrite V'; reflexivity|]. rewrite Rminus_0_r in B.
    rewrite CV, !Rminus_0_r. unfold Rdiv at 1. rewrite !Rabs_mult, !Rabs_Rabsolu, Rabs_inv, Rmult_assoc, Rinv_r by (apply Rabs_no_R0; exact Hn). lra.
  - intros eps He. destruct (Q eps He) as (eta & Ht & HE). exists eta. split; [exact Ht|]. intros h Hh.
    assert (AH : Rabs h = h) by (apply Rabs_pos_eq; lra). assert (AH' : Rabs (- h) = h) by (rewrite Rabs_Ropp; exact AH).
    destruct (HE h ltac:(lra) ltac:(rewrite AH; lra)) as (u & U & BU & CU).
    destruct (HE (- h) ltac:(lra) ltac:(rewrite AH'; lra)) as (w & W & BW & CW).
    exists (circular_distance m u 360), (circular_distance m w 360). split; [rewrite U; reflexivity|]. split; [change (x - h) with (x + - h); rewrite W; reflexivity|].
    rewrite CU, CW, AH, AH'. set (p := (u - m) / h) in *. set (q := (w - m) / - h) in *.
    replace ((Rabs p * h - Rabs q * h) / (2 * h)) with ((Rabs p - Rabs l - (Rabs q - Rabs l)) / 2) by (field; lra).
    pose proof (LIP p l) as LP1. pose proof (LIP q l) as LQ1.
    assert (X1 : Rabs (Rabs p - Rabs l) < eps) by lra. assert (X2 : Rabs (Rabs q - Rabs l) < eps) by lra.
    apply Rabs_def2 in X1. apply Rabs_def2 in X2. apply Rabs_def1; lra.
Qed.

(** ** A film whose thickness varies *)
Definition thick_film : films := [(fun _ => RtoC (8 / 5), quarter_plus, 0)].
Definition thick_table (y : R) := table 0 (RtoC 1) 0 (film_of thick_film y) 0 graz_back 0.

Lemma const_sine (sn : R -> C) x c : (forall y, sn y = c) -> sine_ok sn x.
Proof. intros H. left. exists (mkposreal 1 Rlt_0_1). intros y _. rewrite !H. reflexivity. Qed.

Lemma thick_smooth x : smooth_stack (fun _ => RtoC 1) thick_film (fun _ => graz_back) (rad graz) 633 x.
Proof.
  split; [apply ex_derive_const|]. split; [split; apply ex_derive_const|]. split; [eapply const_sine; reflexivity|].
  constructor; [|constructor]. cbn [fst snd]. split; [split; apply ex_derive_const|]. split; [unfold quarter_plus; auto_derive; auto|].
  split; [eapply const_sine; reflexivity|].
  intros q Q. rewrite sin_graz in Q. cbn [Re RtoC fst] in Q.
  assert (Im q = 0).
  { apply (f_equal Im) in Q as Q1. apply (f_equal Re) in Q as Q2. destruct q as [a b]. cbn [Re Im fst snd Cmult Cminus Cplus Copp RtoC] in *. nra. }
  rewrite H. unfold Rdiv. rewrite !Rmult_0_r, !Rmult_0_l. lra.
Qed.

Lemma thick_amp x : exists ts tp, coh_tmm (ns (RtoC (Re (RtoC 1))) (nm (film_of thick_film x)) graz_back) (ds PInf (nm (film_of thick_film x)) PInf) [(rad graz, 633)]
    = Ok [mkAmp (Some (g_rs x, ts)) (Some (g_rp x, tp))].
Proof.
  do 2 eexists. rewrite coh_tmm_real_ok. cbn [map fst snd]. f_equal. f_equal.
  pose proof (g_amp pS x) as AS. pose proof (g_amp pP x) as AP. cbn [amp] in AS, AP.
  change (film_of thick_film x) with (film_at graz_film x). set (a := tmm_point _ _ _ _ _) in *. destruct a as [a1 a2]. cbn [amp_s amp_p] in *. rewrite AS, AP. reflexivity.
Qed.

Definition thick_value (x : R) : R := (carg (1 / (- g_rp x / g_rs x))%C + PI) * (180 / PI) + 0.
Lemma thick_delta x : delta_on thick_table graz 633 0 false x = Some (thick_value x).
Proof. exact (g_delta x). Qed.

Lemma thick_below x : - (PI / 2) < x < 0 -> 0 < thick_value x < 180.
Proof.
  intros HX. destruct (g_z_sign x ltac:(lra)) as (Z & N & _). specialize (N ltac:(lra)). pose proof (carg_neg _ Z N) as CN.
  pose proof (carg_bounds (1 / (- g_rp x / g_rs x))%C) as B. pose proof PI_RGT_0. unfold thick_value.
  assert (C180 : 0 < 180 / PI) by (apply Rdiv_lt_0_compat; lra). assert (PI2 : PI * (180 / PI) = 180) by (field; lra). split; nra.
Qed.

Lemma thick_slopes x : - (PI / 2) < x < 0 -> slopes (delta_on thick_table graz 633 0 false) x.
Proof.
  intros HX. destruct (thick_amp x) as (ts & tp & A). destruct (g_r_nz x) as [NS NP].
  refine (delta_slope 0 0 0 0 (fun _ => RtoC 1) thick_film (fun _ => graz_back) graz 633 0 x (g_rs x) ts (g_rp x) tp (thick_smooth x) A NS NP (thick_value x) (thick_delta x) _).
  pose proof (thick_below x HX). lra.
Qed.

Lemma slope_derive (g : R -> option R) (q : R -> R) x l : (forall y, g y = Some (q y)) -> has_slope g x l -> derivable_pt_lim q x l.
Proof.
  intros G (v & V & H) eps He. destruct (H eps He) as (eta & Ht & HE). exists (mkposreal eta Ht). intros h Hn Hh.
  destruct (HE h Hn Hh) as (v' & V' & B). rewrite G in V, V'. assert (v = q x) by congruence. assert (v' = q (x + h)) by congruence. subst. exact B.
Qed.

(** the thickness does change delta *)
Theorem thick_steep : exists x l, - (PI / 2) < x < 0 /\ has_slope (delta_on thick_table graz 633 0 false) x l /\ l <> 0.
Proof.
  assert (P2 : 1 < PI / 2) by (pose proof PI2_1; lra). pose proof (thick_below (-1) ltac:(lra)) as B1.
  destruct (thick_amp 0) as (ts & tp & A). destruct (g_r_nz 0) as [NS NP].
  destruct (delta_jumps) as (FC & _).
  destruct (residual_continuous 0 (RtoC 1) 0 graz_film 0 graz_back 0 graz 633 0 0 _ _ _ _ 360 FC A NS NP ltac:(lra)) as (v & V & H).
  rewrite g_delta in V. cbn [omap] in V. destruct (g_z_sign 0 ltac:(lra)) as (_ & _ & Z0). destruct (Z0 eq_refl) as [ZI ZR]. rewrite (carg_cut _ ZI ZR) in V.
  pose proof PI_RGT_0. replace ((PI + PI) * (180 / PI) + 0) with 360 in V by (field; lra).
  assert (v = 0). { unfold circular_distance in V. rewrite Rminus_eq_0, Rabs_R0, Rmin_left in V by lra. congruence. } subst v. clear V.
  destruct (H (thick_value (-1)) ltac:(lra)) as (eta & He & HE).
  set (y := (- Rmin (eta / 2) (1 / 2))).
  assert (Y : -1 < y < 0). { unfold y. pose proof (Rmin_r (eta / 2) (1 / 2)). assert (0 < Rmin (eta / 2) (1 / 2)) by (apply Rmin_glb_lt; lra). lra. }
  assert (YE : Rabs (y - 0) < eta). { rewrite Rminus_0_r, Rabs_left by lra. unfold y. pose proof (Rmin_l (eta / 2) (1 / 2)). lra. }
  destruct (HE y YE) as (v' & V' & HV). rewrite g_delta in V'. cbn [omap] in V'. fold (thick_value y) in V'. pose proof (thick_below y ltac:(lra)) as By.
  assert (E : circular_distance 360 (thick_value y) 360 = thick_value y).
  { unfold circular_distance. rewrite Rabs_pos_eq by lra. rewrite Rmin_right by lra. lra. }
  rewrite E in V'. assert (v' = thick_value y) by congruence. subst v'. rewrite Rminus_0_r in HV. rewrite Rabs_pos_eq in HV by lra.
  assert (DV : forall c, -1 <= c <= y -> exists l, has_slope (delta_on thick_table graz 633 0 false) c l) by (intros c Hc; apply thick_slopes; lra).
  assert (DD : forall c l, has_slope (delta_on thick_table graz 633 0 false) c l -> is_derive thick_value c l).
  { intros c l L. apply is_derive_Reals. exact (slope_derive _ _ _ _ thick_delta L). }
  destruct (MVT_gen thick_value (-1) y (Derive thick_value)) as (c & Hc & EC).
  - rewrite Rmin_left, Rmax_right by lra. intros c Hc. destruct (DV c ltac:(lra)) as [l L]. apply DD in L. rewrite (is_derive_unique _ _ _ L). exact L.
  - rewrite Rmin_left, Rmax_right by lra. intros c Hc. destruct (DV c ltac:(lra)) as [l L]. apply DD in L. apply continuity_pt_filterlim. apply (ex_derive_continuous (V := R_NormedModule)). exists l. exact L.
  - rewrite Rmin_left, Rmax_right in Hc by lra. destruct (DV c ltac:(lra)) as [l L]. exists c, l. split; [lra|]. split; [exact L|]. apply DD in L. rewrite (is_derive_unique _ _ _ L) in EC. intros ->. lra.
Qed.

(** ** An absorbing substrate whose index varies *)
Definition sub_index (y : R) : C := (2 + y, 1 / 10).
Definition sub_table (y : R) := table 0 (RtoC 1) 0 (film_of [] y) 0 (sub_index y) 0.

Lemma defined_amp tA (nA : C) rA inner tB nB rB aoi w off refl psi delta :
  fst (Delta_Psi_TMM [aoi] (table tA nA rA inner tB nB rB) w off refl) = Ok [(psi, Some delta)] ->
  exists rs ts rp tp : C, coh_tmm (ns (RtoC (Re nA)) (nm inner) nB) (ds PInf (nm inner) PInf) [(rad aoi, w)] = Ok [mkAmp (Some (rs, ts)) (Some (rp, tp))] /\
    rs <> 0%C /\ rp <> 0%C.
Proof.
  rewrite DP_map, coh_tmm_real_ok. cbn [map fst snd]. unfold DP_one, psi_delta. destruct (tmm_point _ _ _ _ _) as [[[rs ts]|] [[rp tp]|]]; cbn [amp_s amp_p]; intros H; try discriminate.
  assert (D : delta_of refl off rs rp = Some delta) by congruence. exists rs, ts, rp, tp. split; [reflexivity|]. unfold delta_of in D.
  destruct (cdiv (- rp)%C rs) as [q|] eqn:Q; [|discriminate]. cbn [obind] in D. destruct (cdiv 1%C q) as [z|] eqn:Z; [|discriminate].
  apply cdiv_inv in Q as [Q1 Q2]. apply cdiv_inv in Z as [Z1 _]. split; [exact Q1|]. intros E. apply Z1. rewrite Q2, E. field. exact Q1.
Qed.

Lemma sub_smooth : smooth_stack (fun _ => RtoC 1) [] sub_index (rad ex_aoi) 633 0.
Proof.
  split; [apply ex_derive_const|]. split; [split; unfold sub_index; cbn [Re Im fst snd]; auto_derive; auto|]. split; [|constructor].
  right. intros [E _]. revert E. rewrite rad_ex, sin35. unfold sub_index. cbn [Re Im fst snd Cdiv Cmult Cinv RtoC]. lra.
Qed.
Lemma sub_defined refl : exists psi delta rs ts rp tp,
  psi_on sub_table ex_aoi 633 0 refl 0 = Some psi /\ delta_on sub_table ex_aoi 633 0 refl 0 = Some delta /\
  coh_tmm (ns (RtoC (Re (RtoC 1))) (nm (film_of [] 0)) (sub_index 0)) (ds PInf (nm (film_of [] 0)) PInf) [(rad ex_aoi, 633)]
    = Ok [mkAmp (Some (rs, ts)) (Some (rp, tp))] /\ rs <> 0%C /\ rp <> 0%C.
Proof.
  destruct (ex_bare refl) as (psi & delta & _ & _ & _ & H). assert (E : sub_index 0 = (2, 1 / 10)) by (unfold sub_index; rewrite Rplus_0_r; reflexivity).
  destruct (defined_amp _ _ _ _ _ _ _ _ _ _ _ _ _ H) as (rs & ts & rp & tp & A). exists psi, delta, rs, ts, rp, tp.
  unfold psi_on, delta_on, sub_table. rewrite E. cbn [film_of map]. rewrite H. split; [reflexivity|]. split; [reflexivity|]. exact A.
Qed.

(** ** At the critical angle *)
Definition crit_index (y : R) : C := RtoC (6 / 5 + y).
Definition crit_table (y : R) := table 0 (RtoC 2) 0 (film_of [] y) 0 (crit_index y) 0.

Lemma crit_psi y : 0 <= y < 1 / 10 -> let n := 6 / 5 + y in exists c od, 0 <= c /\ n * n * (c * c) = n * n - 36 / 25 /\
  fst (Delta_Psi_TMM [ex_aoi] (crit_table y) 633 0 false) = Ok [(Some (atan (Rabs ((4 / 5 * n - 2 * c) / (4 / 5 * n + 2 * c) / ((8 / 5 - n * c) / (8 / 5 + n * c)))) * (180 / PI)), od)] /\
  exists rs ts rp tp, coh_tmm (ns (RtoC (Re (RtoC 2))) (nm (film_of [] y)) (crit_index y)) (ds PInf (nm (film_of [] y)) PInf) [(rad ex_aoi, 633)]
    = Ok [mkAmp (Some (rs, ts)) (Some (rp, tp))] /\ rs <> 0%C /\ rp <> 0%C.
Proof.
  intros HY n. set (c := sqrt (n * n - 36 / 25) / n). assert (NP : 6 / 5 <= n < 13 / 10) by (unfold n; lra).
  assert (NN : 0 <= n * n - 36 / 25) by nra.
  assert (C0 : 0 <= c) by (unfold c; apply Rdiv_le_0_compat; [apply sqrt_pos|lra]).
  assert (C2 : n * n * (c * c) = n * n - 36 / 25).
  { unfold c. transitivity (sqrt (n * n - 36 / 25) * sqrt (n * n - 36 / 25)); [field; lra|apply sqrt_sqrt; exact NN]. }
  assert (CC : code_cos (RtoC (Re (RtoC 2)) * RtoC (sin (rad ex_aoi)))%C (crit_index y) = RtoC c).
  { rewrite rad_ex, sin35. cbn [Re RtoC fst]. unfold crit_index. fold n. symmetry. rewrite <- RtoC_mult. apply code_cos_unique.
    - cbn [Re RtoC fst]. exact C0.
    - intros [_ T]. rewrite <- RtoC_div in T by lra. cbn [Re RtoC fst] in T. rewrite Rabs_pos_eq in T by (apply Rdiv_le_0_compat; lra).
      apply (Rmult_lt_compat_r n) in T; [|lra]. unfold Rdiv in T. rewrite Rmult_assoc, Rinv_l in T by lra. lra.
    - rewrite <- RtoC_div by lra. rewrite <- !RtoC_mult, <- RtoC_minus. f_equal. apply (Rmult_eq_reg_l (n * n)); [|nra]. rewrite C2. field. lra. }
  assert (NC : n * c < 8 / 5). { assert (n * c * (n * c) < 8 / 5 * (8 / 5)) by nra. assert (0 <= n * c) by nra. nra. }
  assert (NQ : 0 < 4 / 5 * n - 2 * c).
  { assert (c * c < 4 / 25 * (n * n)); [|nra]. assert (n * n * (c * c) < n * n * (4 / 25 * (n * n))); [|nra]. rewrite C2. assert (36/25 <= n * n < 169 / 100) by nra. nra. }
  pose proof (ex_aoi_range) as AR. assert (PN : passive (crit_index y)) by (unfold crit_index; split; cbn [Re Im RtoC fst snd]; lra).
  destruct (passive_amp pS (Re (RtoC 2)) [] (crit_index y) PInf PInf (rad ex_aoi) 633 ltac:(simpl; lra) ltac:(lra) ltac:(rewrite rad_ex, cos35; lra) (passive_film_nil _ _ _ PN)) as (rs & ts & AS).
  destruct (passive_amp pP (Re (RtoC 2)) [] (crit_index y) PInf PInf (rad ex_aoi) 633 ltac:(simpl; lra) ltac:(lra) ltac:(rewrite rad_ex, cos35; lra) (passive_film_nil _ _ _ PN)) as (rp & tp & AP).
  pose proof (bare_amp pS _ _ _ _ _ _ _ _ _ AS) as (_ & _ & _ & _ & E1). pose proof (bare_amp pP _ _ _ _ _ _ _ _ _ AP) as (_ & _ & _ & _ & E2).
  rewrite CC in E1, E2. rewrite rad_ex, cos35 in E1, E2. rewrite Rabs_pos_eq in E1, E2 by lra. unfold crit_index in E1, E2. fold n in E1, E2. cbn [Re RtoC fst] in E1, E2.
  rewrite <- !RtoC_mult, <- RtoC_minus, <- RtoC_plus, <- RtoC_div in E1 by nra. rewrite <- !RtoC_mult, <- RtoC_minus, <- RtoC_plus, <- RtoC_div in E2 by nra.
  assert (RS : (2 * (4 / 5) - n * c) / (2 * (4 / 5) + n * c) <> 0).
  { apply Rmult_integral_contrapositive_currified; [lra|]. apply Rinv_neq_0_compat. nra. }
  assert (RP : (n * (4 / 5) - 2 * c) / (n * (4 / 5) + 2 * c) <> 0).
  { apply Rmult_integral_contrapositive_currified; [lra|]. apply Rinv_neq_0_compat. nra. }
  assert (NS : rs <> 0%C) by (rewrite E1; intros X; apply RtoC_inj in X; auto). assert (NPP : rp <> 0%C) by (rewrite E2; intros X; apply RtoC_inj in X; auto).
  exists c. eexists. split; [exact C0|]. split; [exact C2|]. split.
  - unfold crit_table. rewrite DP_map. cbn [map]. unfold DP_one, psi_delta. cbn [film_of nm map]. cbn [amp] in AS, AP. rewrite AS, AP. unfold psi_of.
    destruct (Ceq_dec rs 0) as [|_]; [contradiction|]. rewrite E1, E2, <- RtoC_div, Cmod_R by exact RS.
    replace (2 * (4 / 5)) with (8 / 5) by lra. rewrite (Rmult_comm n (4 / 5)). reflexivity.
  - exists rs, ts, rp, tp. split; [|split; assumption]. rewrite coh_tmm_real_ok. cbn [film_of nm map fst snd]. f_equal. f_equal. cbn [amp] in AS, AP.
    set (a := tmm_point _ _ _ _ _) in *. destruct a as [a1 a2]. cbn [amp_s amp_p] in *. rewrite AS, AP. reflexivity.
Qed.

Lemma atan_gap t : 0 <= t <= 1 -> (1 - t) / 2 <= PI / 4 - atan t.
Proof.
  intros HT. rewrite <- atan_1. destruct (MVT_gen atan t 1 (fun u => / (1 + u ^ 2))) as (c & Hc & E).
  - intros u _. apply is_derive_Reals. apply derivable_pt_lim_atan.
  - intros u _. apply derivable_continuous_pt. apply derivable_pt_atan.
  - rewrite Rmin_left, Rmax_right in Hc by lra. rewrite E. assert (/ 2 <= / (1 + c ^ 2)) by (apply Rinv_le_contravar; nra). nra.
Qed.

Theorem critical_steep : ~ slopes (psi_on crit_table ex_aoi 633 0 false) 0.
Proof.
  intros (l & v & V & H). pose proof PI_RGT_0 as PP. pose proof PI_4 as P4.
  assert (V45 : v = 45).
  { destruct (crit_psi 0 ltac:(lra)) as (c & od & C0 & C2 & E & _). unfold psi_on in V. rewrite E in V.
    assert (c = 0) by nra. subst c. replace ((4 / 5 * (6 / 5 + 0) - 2 * 0) / (4 / 5 * (6 / 5 + 0) + 2 * 0) / ((8 / 5 - (6 / 5 + 0) * 0) / (8 / 5 + (6 / 5 + 0) * 0))) with 1 in V by field.
    rewrite Rabs_R1, atan_1 in V. replace (PI / 4 * (180 / PI)) with 45 in V by (field; lra). congruence. }
  subst v. destruct (H 1 ltac:(lra)) as (eta & He & HE). set (h := Rmin (eta / 2) (1 / 100)).
  assert (HP : 0 < h) by (apply Rmin_glb_lt; lra). assert (H1 : h <= eta / 2) by apply Rmin_l. assert (H2 : h <= 1 / 100) by apply Rmin_r.
  destruct (HE (- h) ltac:(lra) ltac:(rewrite Rabs_Ropp, Rabs_pos_eq; lra)) as (u & U & BU).
  destruct (HE h ltac:(lra) ltac:(rewrite Rabs_pos_eq; lra)) as (w & W & BW).
  assert (u = 45).
  { unfold psi_on, crit_table in U. destruct (total_reflection_psi 0 (RtoC 2) 0 (film_of [] (0 + - h)) 0 (crit_index (0 + - h)) 0 ex_aoi 633 0 false) as (d & D).
    - cbn [Re RtoC fst]. lra.
    - apply ex_aoi_range.
    - lra.
    - constructor.
    - apply passive_film_nil. unfold crit_index. split; cbn [Re Im RtoC fst snd]; lra.
    - unfold crit_index. split; cbn [Re Im RtoC fst snd]; lra.
    - rewrite rad_ex, sin35. unfold crit_index. cbn [Re RtoC fst]. lra.
    - rewrite D in U. congruence. }
  subst u. replace ((45 - 45) / - h - l) with (- l) in BU by (field; lra). rewrite Rabs_Ropp in BU.
  rewrite Rplus_0_l in W. destruct (crit_psi h ltac:(lra)) as (c & od & C0 & C2 & E & _). unfold psi_on in W. rewrite E in W. clear E V U HE H.
  set (n := 6 / 5 + h) in *. set (q := n * c). assert (Q2 : q * q = n * n - 36 / 25) by (unfold q; rewrite <- C2; ring).
  assert (N : 6 / 5 < n <= 121 / 100) by (unfold n; lra).
  assert (Q0 : 0 <= q) by (unfold q; nra). assert (QH : h <= q).
  { apply Rnot_lt_le. intros L. assert (q * q < h * h) by nra. unfold n in Q2. nra. }
  assert (Q1 : q < 1 / 5) by (apply Rnot_le_lt; intros L; nra).
  set (t := (4 / 5 * n - 2 * c) / (4 / 5 * n + 2 * c) / ((8 / 5 - n * c) / (8 / 5 + n * c))) in *.
  set (A := 4 / 5 * (n * n)). assert (HA : 1152 / 1000 <= A <= 1172 / 1000) by (unfold A; nra).
  assert (T : t = (A - 2 * q) * (8 / 5 + q) / ((A + 2 * q) * (8 / 5 - q))).
  { unfold t. fold q. unfold A. replace c with (q / n) by (unfold q; field; lra). field. repeat split; try lra; nra. }
  assert (DP : 0 < (A + 2 * q) * (8 / 5 - q)) by (apply Rmult_lt_0_compat; lra).
  assert (DU : (A + 2 * q) * (8 / 5 - q) <= 3) by nra.
  assert (T1 : 1 - t = q * (32 / 5 - 2 * A) / ((A + 2 * q) * (8 / 5 - q))) by (rewrite T; field; split; lra).
  assert (T2 : q <= 1 - t).
  { rewrite T1. set (D := (A + 2 * q) * (8 / 5 - q)) in *. apply (Rmult_le_reg_r D); [exact DP|]. replace (q * (32 / 5 - 2 * A) / D * D) with (q * (32 / 5 - 2 * A)) by (field; lra). apply Rmult_le_compat_l; lra. }
  assert (T3 : 0 <= t). { rewrite T. apply Rdiv_le_0_compat; [|exact DP]. apply Rmult_le_pos; lra. }
  rewrite (Rabs_pos_eq t T3) in W. pose proof (atan_gap t ltac:(lra)) as G.
  assert (EW : w = atan t * (180 / PI)) by congruence.
  assert (C45 : 45 <= 180 / PI). { apply (Rmult_le_reg_r PI); [lra|]. unfold Rdiv. rewrite Rmult_assoc, Rinv_l by lra. lra. }
  assert (GW : 45 - w >= 2 * h).
  { replace (45 - w) with ((PI / 4 - atan t) * (180 / PI)) by (rewrite EW; field; lra). nra. }
  apply Rabs_def2 in BU. apply Rabs_def2 in BW. assert ((w - 45) / h <= - 2); [|lra].
  apply (Rmult_le_reg_r h); [lra|]. unfold Rdiv. rewrite Rmult_assoc, Rinv_l by lra. lra.
Qed.

Theorem critical_ex : exists (nA nB : R -> C) (F : films) aoi w x rs ts rp tp,
  (forall y, ex_derive (fun y => Re (nA y)) y) /\ (forall y, cdiff nB y) /\ Forall (fun l => cdiff (fst (fst l)) x /\ ex_derive (snd (fst l)) x) F /\
  coh_tmm (ns (RtoC (Re (nA x))) (nm (film_of F x)) (nB x)) (ds PInf (nm (film_of F x)) PInf) [(rad aoi, w)] = Ok [mkAmp (Some (rs, ts)) (Some (rp, tp))] /\
  rs <> 0%C /\ rp <> 0%C /\ ~ slopes (psi_on (fun y => table 0 (nA y) 0 (film_of F y) 0 (nB y) 0) aoi w 0 false) x.
Proof.
  destruct (crit_psi 0 ltac:(lra)) as (c & od & _ & _ & _ & rs & ts & rp & tp & A & NS & NP).
  exists (fun _ => RtoC 2), crit_index, [], ex_aoi, 633, 0, rs, ts, rp, tp.
  split; [intros y; apply ex_derive_const|]. split; [intros y; split; unfold crit_index; cbn [Re Im RtoC fst snd]; auto_derive; auto|]. split; [constructor|].
  split; [exact A|]. split; [exact NS|]. split; [exact NP|]. exact critical_steep.
Qed.
