(** * Energy flux: passivity, energy conservation and definedness. *)

Require Import Reals.
From Coquelicot Require Import Rcomplements Hierarchy Continuity Derive AutoDerive Complex.
Require Import List Bool Arith Lra Lia Psatz.
From Verif Require Import Base Cplx M_tmm Spec_optics P_tmm P_tmm2 P_tmm3 P_tmm4.
Import ListNotations.
Open Scope R_scope.

(** ** One layer, in real terms *)
Section layer.
  Variables k1 k2 q1 q2 F B al be : R.
  Hypothesis HF : 0 <= F.
  Hypothesis HB : 0 <= B.
  Hypothesis HZ : al * al + be * be = F * B.

  Definition gfun (x : R) : R :=
    k1 * (F * exp (- (2 * q2 * x)) - B * exp (2 * q2 * x))
    - 2 * k2 * (al * sin (2 * q1 * x) + be * cos (2 * q1 * x)).
  Definition gder (x : R) : R :=
    - (2 * (k1 * q2 * (F * exp (- (2 * q2 * x)) + B * exp (2 * q2 * x))
       + 2 * (k2 * q1) * (al * cos (2 * q1 * x) - be * sin (2 * q1 * x)))).

  Lemma gfun_der (x : R) : is_derive (K:=R_AbsRing) (V:=R_NormedModule) gfun x (gder x).
  Proof.
    unfold gfun. auto_derive; [trivial|]. unfold gder. ring.
  Qed.

  Lemma rho_bound x :
    2 * Rabs (al * cos (2 * q1 * x) - be * sin (2 * q1 * x)) <=
    F * exp (- (2 * q2 * x)) + B * exp (2 * q2 * x).
  Proof.
    set (c := cos _). set (s := sin _).
    assert (E : s * s + c * c = 1) by (pose proof (sin2_cos2 (2 * q1 * x)); unfold Rsqr in *; auto).
    set (U := F * exp (- (2 * q2 * x))). set (W := B * exp (2 * q2 * x)).
    assert (HU : 0 <= U) by (apply Rmult_le_pos; [auto|left; apply exp_pos]).
    assert (HW : 0 <= W) by (apply Rmult_le_pos; [auto|left; apply exp_pos]).
    assert (UW : U * W = F * B).
    { unfold U, W. replace (F * exp (- (2 * q2 * x)) * (B * exp (2 * q2 * x))) with
       (F * B * (exp (- (2 * q2 * x)) * exp (2 * q2 * x))) by ring.
      rewrite <- exp_plus. replace (- (2 * q2 * x) + 2 * q2 * x) with 0 by ring. rewrite exp_0; ring. }
    set (r := al * c - be * s).
    assert (R2 : r * r <= U * W).
    { rewrite UW, <- HZ. unfold r.
      assert (0 <= (al * s + be * c) * (al * s + be * c)) by apply Rle_0_sqr.
      assert ((al * c - be * s) * (al * c - be * s) + (al * s + be * c) * (al * s + be * c)
        = (al * al + be * be) * (s * s + c * c)) by ring.
      rewrite E in H0. lra. }
    apply Rsqr_incr_0_var; [|lra]. unfold Rsqr.
    assert (Rabs r * Rabs r = r * r) by (rewrite <- Rabs_mult; apply Rabs_right; apply Rle_ge, Rle_0_sqr).
    assert (0 <= (U - W) * (U - W)) by apply Rle_0_sqr.
    clearbody r U W. lra.
  Qed.

  Lemma gder_nonpos x : 0 <= k1 * q2 + k2 * q1 -> 0 <= k1 * q2 - k2 * q1 -> gder x <= 0.
  Proof.
    intros H1 H2. unfold gder.
    pose proof (rho_bound x) as RB.
    set (r := al * cos _ - be * sin _) in *. set (S := F * _ + B * _) in *.
    assert (-S <= 2 * r <= S).
    { pose proof (Rle_abs r). pose proof (Rle_abs (- r)). rewrite Rabs_Ropp in H0. lra. }
    nra.
  Qed.

  Lemma gfun_decr D : 0 <= D -> 0 <= k1 * q2 + k2 * q1 -> 0 <= k1 * q2 - k2 * q1 ->
    gfun D <= gfun 0.
  Proof.
    intros HD H1 H2.
    destruct (MVT_gen gfun 0 D gder) as (c & _ & E).
    - intros; apply gfun_der.
    - intros x _. apply continuity_pt_filterlim. apply (ex_derive_continuous gfun).
      eexists; apply gfun_der.
    - pose proof (gder_nonpos c H1 H2). nra.
  Qed.

  Lemma gfun_const D : k1 * q2 + k2 * q1 = 0 -> k1 * q2 - k2 * q1 = 0 -> gfun D = gfun 0.
  Proof.
    intros H1 H2.
    destruct (MVT_gen gfun 0 D gder) as (c & _ & E).
    - intros; apply gfun_der.
    - intros x _. apply continuity_pt_filterlim. apply (ex_derive_continuous gfun).
      eexists; apply gfun_der.
    - assert (gder c = 0) as G.
      { unfold gder. assert (k1 * q2 = 0) as -> by lra. assert (k2 * q1 = 0) as -> by lra. ring. }
      rewrite G in E. lra.
  Qed.
End layer.

Open Scope C_scope.

(** kappa: flux = Re(kappa conj(f+b)(f-b)) *)
Definition kappa (p : pol) (n c : C) : C := match p with pS => n * c | pP => Cconj n * c end.

Lemma flux_kappa p m f b :
  flux p m f b = Re (kappa p (idx m) (cosine m) * (Cconj (f + b) * (f - b))).
Proof.
  unfold flux, tangential_1, tangential_2, kappa.
  destruct p, m as [[n1 n2] [c1 c2] ph], f as [f1 f2], b as [b1 b2]; simpl; ring.
Qed.

Lemma flux_gfun p n c (D : R) f b :
  flux p (mkMedium n c (n * c * D)) (f * cexp (Ci * (n * c * D))) (b * cexp (- (Ci * (n * c * D)))) =
  gfun (Re (kappa p n c)) (Im (kappa p n c)) (Re (n * c)) (Im (n * c))
    (Cmod f * Cmod f)%R (Cmod b * Cmod b)%R (Re (Cconj b * f)) (Im (Cconj b * f)) D.
Proof.
  rewrite flux_kappa. simpl idx. simpl cosine.
  set (q := n * c). destruct (kappa p n c) as [k1 k2] eqn:EK. clear EK. destruct q as [q1 q2].
  rewrite !Cmod_sq. destruct f as [f1 f2], b as [b1 b2].
  assert (X1 : cexp (Ci * ((q1, q2) * D)) =
     ((exp (- (q2 * D)) * cos (q1 * D)), (exp (- (q2 * D)) * sin (q1 * D)))%R).
  { unfold cexp. replace (Re (Ci * ((q1, q2) * D))) with (- (q2 * D))%R by (simpl; ring).
    replace (Im (Ci * ((q1, q2) * D))) with (q1 * D)%R by (simpl; ring). reflexivity. }
  assert (X2 : cexp (- (Ci * ((q1, q2) * D))) =
     ((exp (q2 * D) * cos (q1 * D)), - (exp (q2 * D) * sin (q1 * D)))%R).
  { unfold cexp. replace (Re (- (Ci * ((q1, q2) * D)))) with (q2 * D)%R by (simpl; ring).
    replace (Im (- (Ci * ((q1, q2) * D)))) with (- (q1 * D))%R by (simpl; ring).
    rewrite cos_neg, sin_neg. f_equal. ring. }
  rewrite X1, X2. clear X1 X2. unfold gfun. cbn [Re Im fst snd].
  replace (2 * q2 * D)%R with (q2 * D + q2 * D)%R by ring.
  replace (- (q2 * D + q2 * D))%R with (- (q2 * D) + - (q2 * D))%R by ring.
  rewrite !exp_plus.
  replace (2 * q1 * D)%R with (2 * (q1 * D))%R by ring.
  rewrite sin_2a, cos_2a.
  assert (E1 : (exp (- (q2 * D)) * exp (q2 * D) = 1)%R).
  { rewrite <- exp_plus. replace (- (q2 * D) + q2 * D)%R with 0%R by ring. apply exp_0. }
  set (em := exp (- (q2 * D))) in *. set (ep := exp (q2 * D)) in *.
  assert (E2 : (sin (q1 * D) * sin (q1 * D) + cos (q1 * D) * cos (q1 * D) = 1)%R).
  { pose proof (sin2_cos2 (q1 * D)) as T. unfold Rsqr in T. exact T. }
  set (sn := sin (q1 * D)) in *. set (cs := cos (q1 * D)) in *. clearbody sn cs em ep.
  simpl.
  (* u = f * em * (cs + i sn), w = b * ep * (cs - i sn) *)
  transitivity
   (k1 * (((f1 * f1 + f2 * f2) * (em * em) - (b1 * b1 + b2 * b2) * (ep * ep)) * (sn * sn + cs * cs))
    - 2 * k2 * ((em * ep) * ((b1 * f1 + b2 * f2) * (2 * sn * cs) + (b1 * f2 - b2 * f1) * (cs * cs - sn * sn))))%R.
  - ring.
  - rewrite E1, E2. ring.
Qed.

Lemma flux_gfun0 p n c ph f b :
  flux p (mkMedium n c ph) f b =
  gfun (Re (kappa p n c)) (Im (kappa p n c)) (Re (n * c)) (Im (n * c))
    (Cmod f * Cmod f)%R (Cmod b * Cmod b)%R (Re (Cconj b * f)) (Im (Cconj b * f)) 0.
Proof.
  rewrite <- flux_gfun.
  replace (n * c * 0) with (RtoC 0) by ring. replace (Ci * 0) with (RtoC 0) by ring.
  replace (- RtoC 0) with (RtoC 0) by ring. rewrite cexp_0, !Cmult_1_r.
  rewrite !flux_kappa. reflexivity.
Qed.

(** the two sign conditions *)
Definition absorbing (p : pol) (n c : C) : Prop :=
  (0 <= Re (kappa p n c) * Im (n * c)%C + Im (kappa p n c) * Re (n * c)%C)%R /\
  (0 <= Re (kappa p n c) * Im (n * c)%C - Im (kappa p n c) * Re (n * c)%C)%R.
Definition lossless (p : pol) (n c : C) : Prop :=
  (Re (kappa p n c) * Im (n * c)%C + Im (kappa p n c) * Re (n * c)%C = 0)%R /\
  (Re (kappa p n c) * Im (n * c)%C - Im (kappa p n c) * Re (n * c)%C = 0)%R.

Lemma flux_layer p n c (D : R) f b : (0 <= D)%R -> absorbing p n c ->
  (flux p (mkMedium n c (n * c * D)%C) (f * cexp (Ci * (n * c * D)))%C (b * cexp (- (Ci * (n * c * D))))%C
   <= flux p (mkMedium n c (n * c * D)%C) f b)%R.
Proof.
  intros HD [A1 A2]. rewrite flux_gfun, flux_gfun0.
  apply gfun_decr; auto.
  - pose proof (Cmod_ge_0 f). nra.
  - pose proof (Cmod_ge_0 b). nra.
  - rewrite !Cmod_sq. destruct f, b; simpl; ring.
Qed.

Lemma flux_layer_eq p n c (D : R) f b : lossless p n c ->
  flux p (mkMedium n c (n * c * D)) (f * cexp (Ci * (n * c * D))) (b * cexp (- (Ci * (n * c * D))))
   = flux p (mkMedium n c (n * c * D)) f b.
Proof.
  intros [A1 A2]. rewrite flux_gfun, flux_gfun0.
  apply gfun_const; auto.
Qed.

(** ** Whole stack *)
Definition layer_phys (p : pol) (P : pol -> C -> C -> Prop) (m : medium) : Prop :=
  exists D : R, (0 <= D)%R /\ phase m = idx m * cosine m * D /\ P p (idx m) (cosine m).

Lemma flux_continuity p m f b m' f' b' : continuity p m f b m' f' b' ->
  flux p m f b = flux p m' f' b'.
Proof. intros [E1 E2]. unfold flux. rewrite E1, E2. reflexivity. Qed.

Lemma flux_stack p ms back : Forall (layer_phys p absorbing) ms -> forall m f b t,
  waves p m f b (ms ++ [back]) t -> (flux p back t 0 <= flux p m f b)%R.
Proof.
  induction 1 as [|x ms Hx F IH]; intros m f b t H.
  - simpl in H. rewrite (flux_continuity _ _ _ _ _ _ _ H). lra.
  - assert (exists f' b', continuity p m f b x f' b' /\
      waves p x (f' * cexp (Ci * phase x)) (b' * cexp (- (Ci * phase x))) (ms ++ [back]) t)
      as (f' & b' & HC & HW) by (destruct ms; exact H).
    apply IH in HW. rewrite (flux_continuity _ _ _ _ _ _ _ HC).
    eapply Rle_trans; [exact HW|].
    destruct Hx as (D & HD & HP & HA). destruct x as [n c ph]; simpl in *. subst ph.
    apply flux_layer; auto.
Qed.

Lemma flux_stack_eq p ms back : Forall (layer_phys p lossless) ms -> forall m f b t,
  waves p m f b (ms ++ [back]) t -> flux p back t 0 = flux p m f b.
Proof.
  induction 1 as [|x ms Hx F IH]; intros m f b t H.
  - simpl in H. rewrite (flux_continuity _ _ _ _ _ _ _ H). reflexivity.
  - assert (exists f' b', continuity p m f b x f' b' /\
      waves p x (f' * cexp (Ci * phase x)) (b' * cexp (- (Ci * phase x))) (ms ++ [back]) t)
      as (f' & b' & HC & HW) by (destruct ms; exact H).
    apply IH in HW. rewrite (flux_continuity _ _ _ _ _ _ _ HC).
    rewrite HW.
    destruct Hx as (D & HD & HP & HA). destruct x as [n c ph]; simpl in *. subst ph.
    apply flux_layer_eq; auto.
Qed.

Lemma flux_forward p m t : flux p m t 0 = (Re (kappa p (idx m) (cosine m)) * (Cmod t * Cmod t))%R.
Proof.
  rewrite flux_kappa, Cmod_sq. destruct (kappa _ _ _) as [k1 k2], t as [t1 t2]. simpl. ring.
Qed.
Lemma flux_front p m f b : Im (idx m) = 0%R -> Im (cosine m) = 0%R ->
  flux p m f b = (Re (idx m) * Re (cosine m) * (Cmod f * Cmod f - Cmod b * Cmod b))%R.
Proof.
  intros H1 H2. rewrite flux_kappa, !Cmod_sq.
  destruct m as [[n1 n2] [c1 c2] ph], f as [f1 f2], b as [b1 b2]; simpl in *. subst.
  destruct p; simpl; ring.
Qed.

(** ** Facts about the code's cosine in a passive medium *)
Section passive.
  Variables (s : R) (n : C).
  Hypothesis Hn : passive n.
  Let c := code_cos s n.
  Let q := n * c.

  Lemma passive_nz : n <> 0.
  Proof. intros E. destruct Hn as [H _]. rewrite E in H. simpl in H. lra. Qed.

  Lemma q_sq : q * q = n * n - RtoC s * RtoC s.
  Proof.
    unfold q, c. replace (n * code_cos s n * (n * code_cos s n)) with
      (n * n * (code_cos s n * code_cos s n)) by ring.
    rewrite code_cos_sq. pose proof passive_nz. field; auto.
  Qed.

  Lemma c_Re : (0 <= Re c)%R.
  Proof. apply ccos_carcsin_Re. Qed.

  Lemma q_conj_n : (Re q * Re n + Im q * Im n = (Re n * Re n + Im n * Im n) * Re c)%R.
  Proof. unfold q. destruct n as [a b], c as [c1 c2]; simpl. ring. Qed.

  Lemma q_real_imag :
    (Re q * Re q - Im q * Im q = Re n * Re n - Im n * Im n - s * s)%R /\
    (Re q * Im q = Re n * Im n)%R.
  Proof.
    pose proof q_sq as E. pose proof (f_equal Re E) as E1. pose proof (f_equal Im E) as E2.
    destruct n as [a b], q as [x y]; simpl in *. split; lra.
  Qed.

  Lemma q_Re_nonneg : (0 <= Re q)%R.
  Proof.
    destruct Hn as [Ha Hb]. destruct q_real_imag as [_ E]. pose proof c_Re. pose proof q_conj_n.
    destruct (Rle_dec 0 (Re q)) as [|N]; auto. exfalso.
    assert (Im q <= 0)%R by nra. nra.
  Qed.

  Lemma absorbing_S : absorbing pS n c.
  Proof.
    unfold absorbing, kappa. fold q. destruct q_real_imag as [_ E]. destruct Hn.
    split; nra.
  Qed.

  Lemma kq_plus : (Re (Cconj n * c)%C * Im q + Im (Cconj n * c)%C * Re q =
    (Re n * Re n + Im n * Im n) * Im (c * c)%C)%R.
  Proof. unfold q. destruct n as [a b], c as [c1 c2]; simpl. ring. Qed.
  Lemma kq_minus : (Re (Cconj n * c)%C * Im q - Im (Cconj n * c)%C * Re q =
    (Re c * Re c + Im c * Im c) * (2 * Re n * Im n))%R.
  Proof. unfold q. destruct n as [a b], c as [c1 c2]; simpl. ring. Qed.
  Lemma Im_cc : (Im (c * c)%C = s * s * (2 * Re n * Im n) /
     ((Re n * Re n + Im n * Im n) * (Re n * Re n + Im n * Im n)))%R.
  Proof.
    unfold c. rewrite code_cos_sq. destruct Hn as [Ha Hb].
    assert (0 < Re n * Re n + Im n * Im n)%R by nra.
    destruct n as [a b]; simpl in *. field. nra.
  Qed.

  Lemma absorbing_P : absorbing pP n c.
  Proof.
    unfold absorbing, kappa. fold q. rewrite kq_plus, kq_minus, Im_cc.
    destruct Hn as [Ha Hb]. assert (0 < Re n * Re n + Im n * Im n)%R by nra.
    assert (0 <= 2 * Re n * Im n)%R by nra. assert (0 <= s * s)%R by apply Rle_0_sqr.
    split.
    - apply Rmult_le_pos; [lra|]. apply Rmult_le_pos; [apply Rmult_le_pos; auto|].
      left. apply Rinv_0_lt_compat. nra.
    - apply Rmult_le_pos; [|auto]. nra.
  Qed.

  Lemma absorbing_code p : absorbing p n c.
  Proof. destruct p; [apply absorbing_S|apply absorbing_P]. Qed.

  Lemma lossless_code p : Im n = 0%R -> lossless p n c.
  Proof.
    intros Hb. destruct p; unfold lossless, kappa; fold q.
    - destruct q_real_imag as [_ E]. rewrite Hb in E. split; nra.
    - rewrite kq_plus, kq_minus, Im_cc, Hb. destruct Hn as [Ha _].
      split; [|ring]. unfold Rdiv. ring.
  Qed.

  (** absorbing medium: everything strictly positive *)
  Lemma strict_S : (0 < Im n)%R -> (0 < Re q)%R /\ (0 < Im q)%R.
  Proof.
    intros Hb. destruct q_real_imag as [_ E]. pose proof q_Re_nonneg as Q. destruct Hn as [Ha _].
    assert (P : (0 < Re q * Im q)%R) by (rewrite E; apply Rmult_lt_0_compat; auto).
    destruct Q as [Q|Q]; [|rewrite <- Q in P; lra]. split; [auto|].
    apply Rmult_lt_reg_l with (Re q); auto. lra.
  Qed.
  Lemma strict_P : (0 < Im n)%R -> (0 < Re (Cconj n * c)%C)%R.
  Proof.
    intros Hb. destruct (strict_S Hb) as [Q1 Q2]. pose proof kq_plus as K1. pose proof kq_minus as K2.
    rewrite Im_cc in K1. destruct Hn as [Ha _].
    assert (N : (0 < Re n * Re n + Im n * Im n)%R) by nra.
    assert (0 <= (Re n * Re n + Im n * Im n) * (s * s * (2 * Re n * Im n) /
      ((Re n * Re n + Im n * Im n) * (Re n * Re n + Im n * Im n))))%R.
    { assert (0 <= 2 * Re n * Im n)%R by nra. assert (0 <= s * s)%R by apply Rle_0_sqr.
      apply Rmult_le_pos; [lra|]. apply Rmult_le_pos; [apply Rmult_le_pos; auto|]. left. apply Rinv_0_lt_compat. nra. }
    assert (CP : (0 < Re c * Re c + Im c * Im c)%R).
    { destruct (Req_EM_T (Re c) 0) as [E1|]; [|nra]. destruct (Req_EM_T (Im c) 0) as [E2|]; [|nra].
      exfalso. unfold q in Q1. destruct n as [a b], c as [c1 c2]; simpl in *. subst. lra. }
    assert (0 < (Re c * Re c + Im c * Im c) * (2 * Re n * Im n))%R.
    { apply Rmult_lt_0_compat; nra. }
    nra.
  Qed.

  (** transparent medium *)
  Lemma transp_below : Im n = 0%R -> (Rabs s < Re n)%R ->
    c = RtoC (sqrt (1 - (s / Re n) * (s / Re n))) /\ (0 < sqrt (1 - (s / Re n) * (s / Re n)))%R.
  Proof.
    intros Hb Hs. destruct Hn as [Ha _].
    assert (En : n = RtoC (Re n)) by (destruct n; simpl in *; subst; reflexivity).
    assert (Bd : (-1 < s / Re n < 1)%R).
    { apply Rabs_lt_between in Hs. split.
      - apply Rmult_lt_reg_r with (Re n); auto. unfold Rdiv. rewrite Rmult_assoc, Rinv_l by lra. lra.
      - apply Rmult_lt_reg_r with (Re n); auto. unfold Rdiv. rewrite Rmult_assoc, Rinv_l by lra. lra. }
    assert (P : (0 < 1 - s / Re n * (s / Re n))%R) by nra.
    split; [|apply sqrt_lt_R0; auto].
    unfold c, code_cos. rewrite En. rewrite <- RtoC_div by lra.
    rewrite ccos_carcsin by (right; simpl; lra).
    rewrite <- !RtoC_mult, <- RtoC_minus.
    rewrite csqrt_nonneg_real by lra. reflexivity.
  Qed.
  Lemma transp_above : Im n = 0%R -> (Re n < s)%R ->
    exists k, (0 < k)%R /\ c = (0, - k)%R.
  Proof.
    intros Hb Hs. destruct Hn as [Ha _].
    assert (En : n = RtoC (Re n)) by (destruct n; simpl in *; subst; reflexivity).
    assert (Bd : (1 < s / Re n)%R).
    { apply Rmult_lt_reg_r with (Re n); auto. unfold Rdiv. rewrite Rmult_assoc, Rinv_l by lra. lra. }
    exists (sqrt (s / Re n * (s / Re n) - 1)). split; [apply sqrt_lt_R0; nra|].
    unfold c, code_cos. rewrite En. rewrite <- RtoC_div by lra.
    simpl Re. apply ccos_carcsin_cut. auto.
  Qed.
End passive.
