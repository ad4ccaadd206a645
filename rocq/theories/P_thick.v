(** * A measured point fits at most two thicknesses of a layer, or all *)

Require Import Reals.
From Coquelicot Require Import Rcomplements Complex.
Require Import List Bool Arith ZArith Lra Lia Psatz.
From Verif Require Import Base Cplx M_tmm Spec_optics P_tmm P_tmm2 P_tmm3 P_tmm4 P_flux P_flux2 P_flux3
  P_psidelta P_psidelta2 Spec_ident P_ident P_ident2 Spec_thick.
Import ListNotations.
Open Scope R_scope.
Open Scope C_scope.

(** ** a layer enters the transfer matrix through its phase only *)
Lemma tm_split p n c post : post <> [] -> forall pre m, exists A B, forall ph,
  tm p m (pre ++ mkMedium n c ph :: post) = mmul A (mmul (pmat ph) B).
Proof.
  intros NE.
  assert (T : forall ph, tm p (mkMedium n c ph) post = tm p (mkMedium n c 0) post).
  { intros ph. destruct post as [|y [|z post]]; [easy| |]; reflexivity. }
  induction pre as [|y pre IH]; intros m.
  - exists (imat p m (mkMedium n c 0)), (tm p (mkMedium n c 0) post). intros ph. cbn [app].
    destruct post as [|z post]; [easy|]. rewrite tm_cons, T. reflexivity.
  - destruct (IH y) as (A & B & E). exists (mmul (imat p m y) (mmul (pmat (phase y)) A)), B. intros ph. cbn [app].
    specialize (E ph). destruct (pre ++ mkMedium n c ph :: post) as [|u l] eqn:E1; [destruct pre; discriminate|].
    rewrite tm_cons, E, !mmul_assoc. reflexivity.
Qed.

(** the square of the phase factor *)
Definition turn (ph : C) : C := cexp (Ci * ph) * cexp (Ci * ph).
Lemma turn_entries A B ph :
  m00 (mmul A (mmul (pmat ph) B)) = cexp (- (Ci * ph)) * (m00 A * m00 B + m01 A * m10 B * turn ph) /\
  m10 (mmul A (mmul (pmat ph) B)) = cexp (- (Ci * ph)) * (m10 A * m00 B + m11 A * m10 B * turn ph).
Proof.
  assert (K : cexp (- (Ci * ph)) * turn ph = cexp (Ci * ph)).
  { unfold turn. rewrite Cmult_assoc. pose proof (cexp_opp_r (Ci * ph)) as E. rewrite Cmult_comm in E. rewrite E. ring. }
  destruct A as [[[a0 a1] a2] a3], B as [[[b0 b1] b2] b3]. unfold mmul, pmat, m00, m01, m10, m11. split.
  - transitivity (a0 * cexp (- (Ci * ph)) * b0 + a1 * b2 * cexp (Ci * ph)); [ring|]. rewrite <- K. ring.
  - transitivity (a2 * cexp (- (Ci * ph)) * b0 + a3 * b2 * cexp (Ci * ph)); [ring|]. rewrite <- K. ring.
Qed.

(** ** quadratic equations *)
Lemma quadratic (q0 q1 q2 z1 z2 z3 : C) : z1 <> z2 -> z1 <> z3 -> z2 <> z3 ->
  q0 + q1 * z1 + q2 * (z1 * z1) = 0 -> q0 + q1 * z2 + q2 * (z2 * z2) = 0 -> q0 + q1 * z3 + q2 * (z3 * z3) = 0 ->
  q0 = 0 /\ q1 = 0 /\ q2 = 0.
Proof.
  intros N12 N13 N23 E1 E2 E3.
  assert (K : forall a b : C, a <> b -> a - b <> 0).
  { intros a b N E. apply N. transitivity (a - b + b); [ring|]. rewrite E. ring. }
  assert (Z : forall a b : C, a <> 0 -> a * b = 0 -> b = 0).
  { intros a b N E. apply (Cmult_reg_l a); auto. rewrite E. ring. }
  assert (F12 : q1 + q2 * (z1 + z2) = 0).
  { apply (Z (z1 - z2)); [auto|]. transitivity (q0 + q1 * z1 + q2 * (z1 * z1) - (q0 + q1 * z2 + q2 * (z2 * z2))); [ring|]. rewrite E1, E2. ring. }
  assert (F13 : q1 + q2 * (z1 + z3) = 0).
  { apply (Z (z1 - z3)); [auto|]. transitivity (q0 + q1 * z1 + q2 * (z1 * z1) - (q0 + q1 * z3 + q2 * (z3 * z3))); [ring|]. rewrite E1, E3. ring. }
  assert (G : q2 = 0).
  { apply (Z (z2 - z3)); [auto|]. transitivity (q1 + q2 * (z1 + z2) - (q1 + q2 * (z1 + z3))); [ring|]. rewrite F12, F13. ring. }
  assert (G1 : q1 = 0) by (rewrite G in F12; transitivity (q1 + 0 * (z1 + z2)); [ring|exact F12]).
  split; [|auto]. rewrite G, G1 in E1. transitivity (q0 + 0 * z1 + 0 * (z1 * z1)); [ring|exact E1].
Qed.

(** ** the ratio of the amplitudes as a function of the turn *)
Definition amps n0 pre (nL : C) (d : R) post nN th0 lam : amplitudes :=
  tmm_point (ns n0 (pre ++ (nL, d) :: post) nN) (ds PInf (pre ++ (nL, d) :: post) PInf) true th0 lam.
Definition ph_of n0 (nL : C) (d : R) th0 lam : C := clip35 (raw_phase (n0 * RtoC (sin th0)) lam nL d).

Lemma amps_form p n0 pre nL post nN th0 lam : exists a b c e : C, forall d r t,
  amp p (amps n0 pre nL d post nN th0 lam) = Some (r, t) ->
  a + b * turn (ph_of n0 nL d th0 lam) <> 0 /\ r * (a + b * turn (ph_of n0 nL d th0 lam)) = c + e * turn (ph_of n0 nL d th0 lam).
Proof.
  set (s := n0 * RtoC (sin th0)).
  destruct (tm_split p nL (code_cos s nL) (map (code_layer s lam true) post ++ [code_end s nN]) (app_single_ne _ _)
              (map (code_layer s lam true) pre) (code_end s n0)) as (A & B & E).
  exists (m00 A * m00 B), (m01 A * m10 B), (m10 A * m00 B), (m11 A * m10 B). intros d r t H.
  unfold amps in H. apply tmm_point_iff in H. destruct H as (_ & _ & _ & M & Er & _). fold s in M, Er.
  unfold code_rest in M, Er. rewrite !map_app in M, Er. cbn [map] in M, Er. rewrite <- !app_assoc in M, Er. cbn [app] in M, Er.
  change (code_layer s lam true (nL, d)) with (mkMedium nL (code_cos s nL) (ph_of n0 nL d th0 lam)) in M, Er.
  rewrite E in M, Er. set (ph := ph_of n0 nL d th0 lam) in *.
  destruct (turn_entries A B ph) as [T0 T1]. rewrite T0 in M, Er. rewrite T1 in Er.
  pose proof (cexp_neq_0 (- (Ci * ph))) as X.
  split; [exact (Cmult_neq_0_r _ _ M)|]. pose proof (Cmult_neq_0_r _ _ M) as M'. rewrite Er. field. auto.
Qed.

Lemma ratio_all n0 pre nL post nN th0 lam (rho : C) d1 d2 d3 :
  let z d := turn (ph_of n0 nL d th0 lam) in
  let fits d := exists rs ts rp tp, amp_s (amps n0 pre nL d post nN th0 lam) = Some (rs, ts) /\
     amp_p (amps n0 pre nL d post nN th0 lam) = Some (rp, tp) /\ rp = rho * rs in
  z d1 <> z d2 -> z d1 <> z d3 -> z d2 <> z d3 -> fits d1 -> fits d2 -> fits d3 ->
  forall d rs ts rp tp, amp_s (amps n0 pre nL d post nN th0 lam) = Some (rs, ts) ->
     amp_p (amps n0 pre nL d post nN th0 lam) = Some (rp, tp) -> rp = rho * rs.
Proof.
  intros z fits N12 N13 N23 F1 F2 F3.
  destruct (amps_form pS n0 pre nL post nN th0 lam) as (a & b & c & e & HS).
  destruct (amps_form pP n0 pre nL post nN th0 lam) as (a' & b' & c' & e' & HP).
  cbn [amp] in HS, HP.
  assert (Q : forall d, fits d -> (c' * a - rho * c * a') + (c' * b + e' * a - rho * (c * b' + e * a')) * z d + (e' * b - rho * e * b') * (z d * z d) = 0).
  { intros d (rs & ts & rp & tp & S1 & P1 & E). destruct (HS _ _ _ S1) as [X1 X2]. destruct (HP _ _ _ P1) as [Y1 Y2].
    fold (z d) in X1, X2, Y1, Y2.
    transitivity ((c' + e' * z d) * (a + b * z d) - rho * (c + e * z d) * (a' + b' * z d)); [ring|].
    rewrite <- X2, <- Y2, E. ring. }
  destruct (quadratic _ _ _ _ _ _ N12 N13 N23 (Q _ F1) (Q _ F2) (Q _ F3)) as (Q0 & Q1 & Q2).
  intros d rs ts rp tp S1 P1. destruct (HS _ _ _ S1) as [X1 X2]. destruct (HP _ _ _ P1) as [Y1 Y2].
  fold (z d) in X1, X2, Y1, Y2.
  assert (E : (c' + e' * z d) * (a + b * z d) - rho * (c + e * z d) * (a' + b' * z d) = 0).
  { transitivity ((c' * a - rho * c * a') + (c' * b + e' * a - rho * (c * b' + e * a')) * z d + (e' * b - rho * e * b') * (z d * z d)); [ring|].
    rewrite Q0, Q1, Q2. ring. }
  rewrite <- X2, <- Y2 in E.
  apply (Cmult_reg_l ((a + b * z d) * (a' + b' * z d))); [apply Cmult_neq_0; auto|].
  transitivity (rp * (a' + b' * z d) * (a + b * z d) - rho * (rs * (a + b * z d)) * (a' + b' * z d) + (a + b * z d) * (a' + b' * z d) * (rho * rs)); [ring|].
  rewrite E. ring.
Qed.

(** ** different thicknesses, different turns *)
Lemma turn_exp ph : turn ph = cexp (Ci * (2 * ph)).
Proof. unfold turn. rewrite <- cexp_add. f_equal. ring. Qed.
Lemma turn_mod ph : Cmod (turn ph) = exp (- 2 * Im ph).
Proof. rewrite turn_exp, Cmod_cexp. f_equal. simpl. unfold Im. ring. Qed.

Lemma turn_decay (s w : R) (n : C) d d' : (w <> 0)%R -> passive n -> decaying s n -> uncut s w n (10 * d) -> uncut s w n (10 * d') -> d <> d' ->
  turn (clip35 (raw_phase (RtoC s) w n d)) <> turn (clip35 (raw_phase (RtoC s) w n d')).
Proof.
  intros W [Pr Pi] D U U' N E.
  assert (n0 : n <> 0) by (intros ->; cbn in Pr; lra).
  assert (OK : forall d, layer_ok (RtoC s) w (n, (10 * d / 10)%R) (mkMedium n (code_cos (RtoC s) n) (raw_phase (RtoC s) w n d))).
  { intros x. unfold layer_ok. cbn [idx cosine phase fst snd]. split; [reflexivity|]. split; [split; [exact n0|apply code_cos_sq]|].
    unfold raw_phase. replace (10 * x / 10)%R with x by field. field. intros Z. apply RtoC_inj in Z. auto. }
  pose proof (U _ (OK d)) as I1. pose proof (U' _ (OK d')) as I2. cbn [phase] in I1, I2.
  rewrite !clip35_id in E by auto.
  apply (f_equal Cmod) in E. rewrite !turn_mod in E. apply exp_inv in E.
  assert (F : forall x, Im (raw_phase (RtoC s) w n x) = (2 * PI / w * Im (n * code_cos (RtoC s) n)%C * x)%R).
  { intros x. unfold raw_phase. 
    replace (2 * PI * n * code_cos (RtoC s) n / w * x) with (RtoC (2 * PI / w * x) * (n * code_cos (RtoC s) n)).
    - simpl. unfold Im. ring.
    - rewrite !RtoC_mult, RtoC_div by auto. rewrite !RtoC_mult. field. intros Z. apply RtoC_inj in Z. auto. }
  rewrite !F in E.
  assert (K : Im (n * code_cos (RtoC s) n)%C <> 0%R).
  { intros K. set (q := n * code_cos (RtoC s) n) in *.
    assert (Q : q * q = n * n - RtoC s * RtoC s).
    { unfold q. transitivity (n * n * (code_cos (RtoC s) n * code_cos (RtoC s) n)); [ring|]. rewrite code_cos_sq. field. exact n0. }
    clearbody q. pose proof (f_equal Re Q) as Q1. pose proof (f_equal Im Q) as Q2. simpl in Q1, Q2.
    change (snd q) with (Im q) in Q1, Q2. rewrite K in Q1, Q2. change (fst n) with (Re n) in Q1, Q2. change (snd n) with (Im n) in Q1, Q2.
    change (fst q) with (Re q) in Q1, Q2.
    assert (Im n = 0)%R by nra.
    destruct D as [D|D]; [auto|]. rewrite H in Q1.
    assert (Rabs s * Rabs s = s * s)%R by (rewrite <- Rabs_mult; apply Rabs_pos_eq; nra). nra. }
  apply N. apply (Rmult_eq_reg_l (2 * PI / w * Im (n * code_cos (RtoC s) n)%C)); [lra|].
  pose proof PI_RGT_0. apply Rmult_integral_contrapositive_currified; [|exact K].
  unfold Rdiv. apply Rmult_integral_contrapositive_currified; [lra|]. apply Rinv_neq_0_compat. exact W.
Qed.

Lemma cexp_one (x : R) : cexp (Ci * RtoC x) = 1 -> exists k, x = (IZR k * (2 * PI))%R.
Proof.
  intros E. pose proof (f_equal Re E) as E1. unfold cexp in E1. simpl in E1.
  replace (0 * x - 1 * 0)%R with 0%R in E1 by ring. rewrite exp_0 in E1. replace (0 * 0 + 1 * x)%R with x in E1 by ring.
  assert (C : (cos x = 1)%R) by lra.
  assert (S : (sin (x / 2) = 0)%R).
  { replace x with (2 * (x / 2))%R in C by field. rewrite cos_2a_sin in C. nra. }
  apply sin_eq_0_0 in S. destruct S as [k K]. exists k. lra.
Qed.
Lemma turn_order (s w : R) (n : C) d0 d d' : (0 < w)%R -> transparent n -> (Rabs s < Re n)%R ->
  (d0 <= 10 * d < d0 + 10 * order_thickness (Re n) s w)%R -> (d0 <= 10 * d' < d0 + 10 * order_thickness (Re n) s w)%R -> d <> d' ->
  turn (clip35 (raw_phase (RtoC s) w n d)) <> turn (clip35 (raw_phase (RtoC s) w n d')).
Proof.
  intros W T S D D' N E.
  assert (Q : (0 < Re n * Re n - s * s)%R).
  { assert (Rabs s * Rabs s = s * s)%R by (rewrite <- Rabs_mult; apply Rabs_pos_eq; nra). pose proof (Rabs_pos s). nra. }
  rewrite !raw_phase_real in E by (auto; lra). unfold order_thickness in D, D'. set (q := sqrt (Re n * Re n - s * s)) in *.
  assert (q0 : (0 < q)%R) by (apply sqrt_lt_R0; exact Q).
  rewrite !clip35_id in E by (simpl; lra). rewrite !turn_exp in E.
  set (x := (2 * PI * q * d / w)%R) in *. set (x' := (2 * PI * q * d' / w)%R) in *.
  assert (K : cexp (Ci * RtoC (2 * (x - x'))) = 1).
  { replace (Ci * RtoC (2 * (x - x'))) with (Ci * (2 * RtoC x) + - (Ci * (2 * RtoC x'))) by (rewrite RtoC_mult, RtoC_minus; ring).
    rewrite cexp_add, E. apply cexp_opp_r. }
  apply cexp_one in K. destruct K as [k K]. pose proof PI_RGT_0 as PP.
  assert (K2 : ((d - d') = IZR k * (w / (2 * q)))%R).
  { apply (Rmult_eq_reg_l (2 * (2 * PI * q / w))); [|apply Rmult_integral_contrapositive_currified; [lra|]].
    - transitivity (2 * (x - x'))%R; [unfold x, x'; field; lra|]. rewrite K. field. lra.
    - apply Rgt_not_eq. apply Rdiv_lt_0_compat; [nra|lra]. }
  set (u := (w / (2 * q))%R) in *. assert (u0 : (0 < u)%R) by (apply Rdiv_lt_0_compat; lra).
  assert (k = 0)%Z.
  { assert (A1 : (IZR k * u < 1 * u)%R) by lra. assert (A2 : (- 1 * u < IZR k * u)%R) by lra.
    apply Rmult_lt_reg_r in A1; [|exact u0]. apply Rmult_lt_reg_r in A2; [|exact u0].
    apply lt_IZR in A1. apply lt_IZR in A2. lia. }
  subst k. apply N. lra.
Qed.
