(** * Energy flux, continued: opaque layers, and the statements about coh_tmm. *)

Require Import Reals.
From Coquelicot Require Import Rcomplements Complex.
Require Import List Bool Arith Lra Lia Psatz.
From Verif Require Import Base Cplx M_tmm Spec_optics P_tmm P_tmm2 P_tmm3 P_tmm4 P_flux.
Import ListNotations.
Open Scope R_scope.

(** ** A layer with the clipped phase *)
Lemma exp35_big : 2 * 10 ^ 14 + 1 <= exp 35.
Proof.
  assert (E : exp 35 = exp (/ 16) ^ 560).
  { rewrite <- Rpower_pow by apply exp_pos. unfold Rpower. rewrite ln_exp. f_equal.
    rewrite INR_IZR_INZ. simpl. field. }
  rewrite E.
  assert (H : 17 / 16 <= exp (/ 16)) by (pose proof (exp_ineq1_le (/ 16)); lra).
  apply Rle_trans with ((17 / 16) ^ 560).
  - replace 560%nat with (16 * 35)%nat by reflexivity. rewrite pow_mult.
    apply Rle_trans with ((263 / 100) ^ 35).
    + lra.
    + apply pow_incr. split; [lra|]. lra.
  - apply pow_incr. lra.
Qed.

Lemma clip_real k1 k2 F B al be x : 0 <= F -> 0 <= B -> al * al + be * be = F * B ->
  0 <= k1 -> Rabs k2 <= 10 ^ 14 * k1 ->
  k1 * (F * exp (- (2 * 35)) - B * exp (2 * 35)) - 2 * k2 * (al * sin (2 * x) + be * cos (2 * x))
  <= k1 * (F - B) - 2 * k2 * be.
Proof.
  intros HF HB HZ Hk HK.
  set (e := exp 35). set (e' := exp (- 35)).
  assert (Ee : e * e' = 1).
  { unfold e, e'. rewrite <- exp_plus. replace (35 + - 35) with 0 by ring. apply exp_0. }
  assert (E1 : exp (2 * 35) = e * e).
  { unfold e. rewrite <- exp_plus. f_equal. ring. }
  assert (E2 : exp (- (2 * 35)) = e' * e').
  { unfold e'. rewrite <- exp_plus. f_equal. ring. }
  rewrite E1, E2.
  assert (He : 2 * 10 ^ 14 + 1 <= e) by apply exp35_big.
  assert (He' : 0 < e') by apply exp_pos.
  assert (He1 : e' <= 1).
  { destruct (Rle_dec e' 1); auto. exfalso.
    assert (1 * 1 < e * e') by (apply Rmult_gt_0_lt_compat; lra). lra. }
  clearbody e e'.
  set (s := sin x) in *. set (c := cos x) in *.
  assert (SC : s * s + c * c = 1) by (pose proof (sin2_cos2 x) as T; unfold Rsqr in T; exact T).
  rewrite sin_2a, cos_2a. fold s. fold c. clearbody s c.
  set (m := al * (2 * s * c) + be * (c * c - s * s) - be).
  assert (Em : m = 2 * s * (al * c - be * s)).
  { unfold m. replace be with (be * (s * s + c * c)) at 2 by (rewrite SC; ring). ring. }
  assert (M2 : m * m <= 4 * (F * B)).
  { rewrite Em, <- HZ.
    assert (P1 : (al * c - be * s) * (al * c - be * s) <= al * al + be * be).
    { assert (0 <= (al * s + be * c) * (al * s + be * c)) by apply Rle_0_sqr.
      assert ((al * c - be * s) * (al * c - be * s) + (al * s + be * c) * (al * s + be * c)
        = (al * al + be * be) * (s * s + c * c)) as X by ring.
      rewrite SC in X. lra. }
    assert (P2 : s * s <= 1) by (pose proof (Rle_0_sqr c) as T; unfold Rsqr in T; lra).
    assert (0 <= s * s) by apply Rle_0_sqr.
    assert (0 <= (al * c - be * s) * (al * c - be * s)) by apply Rle_0_sqr.
    replace (2 * s * (al * c - be * s) * (2 * s * (al * c - be * s))) with
      (4 * ((s * s) * ((al * c - be * s) * (al * c - be * s)))) by ring.
    assert (s * s * ((al * c - be * s) * (al * c - be * s)) <= 1 * (al * al + be * be)).
    { apply Rmult_le_compat; auto. }
    lra. }
  set (P := F * e' + B * e).
  assert (HP : 0 <= P) by (unfold P; apply Rplus_le_le_0_compat; apply Rmult_le_pos; lra).
  assert (P2 : 4 * (F * B) <= P * P).
  { assert (0 <= (F * e' - B * e) * (F * e' - B * e)) by apply Rle_0_sqr.
    replace (P * P) with ((F * e' - B * e) * (F * e' - B * e) + 4 * (F * B) * (e * e'))
      by (unfold P; ring). rewrite Ee. lra. }
  assert (AM : Rabs m <= P).
  { apply Rsqr_incr_0_var; auto. rewrite <- Rsqr_abs. unfold Rsqr. lra. }
  assert (GP : k1 * (F - B) - k1 * (F * (e' * e') - B * (e * e)) = k1 * (e - e') * P).
  { unfold P. transitivity (k1 * (F * (e * e' - e' * e') + B * (e * e - e * e'))); [|ring].
    rewrite Ee. ring. }
  assert (KM : 2 * (k2 * m) >= - (k1 * (e - e') * P)).
  { apply Rle_ge.
    assert (Rabs (k2 * m) <= 10 ^ 14 * k1 * P).
    { rewrite Rabs_mult. apply Rmult_le_compat; auto using Rabs_pos. }
    pose proof (Rle_abs (- (k2 * m))) as X. rewrite Rabs_Ropp in X.
    assert (2 * 10 ^ 14 * (k1 * P) <= (e - e') * (k1 * P)).
    { apply Rmult_le_compat_r; [apply Rmult_le_pos; auto|]. lra. }
    lra. }
  unfold m in KM. lra.
Qed.

Open Scope C_scope.

Lemma flux_phase p n c ph f b :
  flux p (mkMedium n c ph) (f * cexp (Ci * ph)) (b * cexp (- (Ci * ph))) =
  (let k1 := Re (kappa p n c) in let k2 := Im (kappa p n c) in
   let F := (Cmod f * Cmod f)%R in let B := (Cmod b * Cmod b)%R in
   let al := Re (Cconj b * f)%C in let be := Im (Cconj b * f)%C in
   k1 * (F * exp (- (2 * Im ph)) - B * exp (2 * Im ph))
    - 2 * k2 * (al * sin (2 * Re ph) + be * cos (2 * Re ph)))%R.
Proof.
  cbv zeta. rewrite flux_kappa. cbn [idx cosine].
  destruct (kappa p n c) as [k1 k2] eqn:EK. clear EK. destruct ph as [x y].
  rewrite !Cmod_sq. destruct f as [f1 f2], b as [b1 b2].
  assert (X1 : cexp (Ci * (x, y)) = ((exp (- y) * cos x), (exp (- y) * sin x))%R).
  { unfold cexp. replace (Re (Ci * (x, y))) with (- y)%R by (simpl; ring).
    replace (Im (Ci * (x, y))) with x by (simpl; ring). reflexivity. }
  assert (X2 : cexp (- (Ci * (x, y))) = ((exp y * cos x), - (exp y * sin x))%R).
  { unfold cexp. replace (Re (- (Ci * (x, y)))) with y by (simpl; ring).
    replace (Im (- (Ci * (x, y)))) with (- x)%R by (simpl; ring).
    rewrite cos_neg, sin_neg. f_equal. ring. }
  rewrite X1, X2. clear X1 X2. cbn [Re Im fst snd].
  replace (2 * y)%R with (y + y)%R by ring.
  replace (- (y + y))%R with (- y + - y)%R by ring.
  rewrite !exp_plus, sin_2a, cos_2a.
  assert (E1 : (exp (- y) * exp y = 1)%R).
  { rewrite <- exp_plus. replace (- y + y)%R with 0%R by ring. apply exp_0. }
  set (em := exp (- y)) in *. set (ep := exp y) in *.
  assert (E2 : (sin x * sin x + cos x * cos x = 1)%R).
  { pose proof (sin2_cos2 x) as T. unfold Rsqr in T. exact T. }
  set (sn := sin x) in *. set (cs := cos x) in *. clearbody sn cs em ep.
  simpl.
  transitivity
   (k1 * (((f1 * f1 + f2 * f2) * (em * em) - (b1 * b1 + b2 * b2) * (ep * ep)) * (sn * sn + cs * cs))
    - 2 * k2 * ((em * ep) * ((b1 * f1 + b2 * f2) * (2 * sn * cs) + (b1 * f2 - b2 * f1) * (cs * cs - sn * sn))))%R.
  - ring.
  - rewrite E1, E2. ring.
Qed.

Lemma flux_clip p n c ph f b : Im ph = 35%R ->
  (0 <= Re (kappa p n c))%R -> (Rabs (Im (kappa p n c)) <= 10 ^ 14 * Re (kappa p n c))%R ->
  (flux p (mkMedium n c ph) (f * cexp (Ci * ph))%C (b * cexp (- (Ci * ph)))%C
   <= flux p (mkMedium n c ph) f b)%R.
Proof.
  intros H35 K1 K2. rewrite flux_phase. cbv zeta. rewrite H35.
  eapply Rle_trans; [apply clip_real|].
  - pose proof (Cmod_ge_0 f). apply Rmult_le_pos; auto.
  - pose proof (Cmod_ge_0 b). apply Rmult_le_pos; auto.
  - rewrite !Cmod_sq. destruct f, b; simpl; ring.
  - exact K1.
  - exact K2.
  - rewrite flux_kappa. cbn [idx cosine]. rewrite !Cmod_sq.
    destruct (kappa p n c) as [k1 k2], f as [f1 f2], b as [b1 b2]. simpl.
    apply Req_le. ring.
Qed.

(** ** Conditions on a stack *)

(** A layer the theorems cover: passive, thickness not negative, and either below the
    opaque cut-off or not absurdly metallic (|Im q| <= 1e14 Re q for q = n cos). *)
Definition layer_fine (s : R) (lam : R) (nd : C * R) : Prop :=
  passive (fst nd) /\ (0 <= snd nd)%R /\
  ((Im (raw_phase s lam (fst nd) (snd nd)) <= 35)%R \/
   (Im (fst nd * code_cos s (fst nd))%C <= 10 ^ 14 * Re (fst nd * code_cos s (fst nd))%C)%R).


Lemma kappa_bound p (s : R) (n : C) : passive n -> (0 < Im (n * code_cos s n)%C)%R ->
  (Im (n * code_cos s n)%C <= 10 ^ 14 * Re (n * code_cos s n)%C)%R ->
  (0 <= Re (kappa p n (code_cos s n)))%R /\
  (Rabs (Im (kappa p n (code_cos s n))) <= 10 ^ 14 * Re (kappa p n (code_cos s n)))%R.
Proof.
  intros Hn Q2 QB. pose proof (q_Re_nonneg s n Hn) as Q1.
  destruct (absorbing_code s n Hn p) as [A1 A2].
  set (q1 := Re (n * code_cos s n)) in *. set (q2 := Im (n * code_cos s n)) in *.
  set (k1 := Re (kappa p n (code_cos s n))) in *. set (k2 := Im (kappa p n (code_cos s n))) in *.
  clearbody q1 q2 k1 k2.
  assert (Q1' : (0 < q1)%R) by lra.
  assert (K1 : (0 <= k1)%R) by (apply Rmult_le_reg_r with q2; [auto|]; lra).
  split; auto.
  assert (U : (k2 <= 10 ^ 14 * k1)%R).
  { apply Rmult_le_reg_r with q1; auto.
    assert (k1 * q2 <= k1 * (10 ^ 14 * q1))%R by (apply Rmult_le_compat_l; auto). lra. }
  assert (V : (- k2 <= 10 ^ 14 * k1)%R).
  { apply Rmult_le_reg_r with q1; auto.
    assert (k1 * q2 <= k1 * (10 ^ 14 * q1))%R by (apply Rmult_le_compat_l; auto). lra. }
  apply Rabs_le_between. lra.
Qed.

Lemma raw_phase_D (s : C) (lam : R) (n : C) (d : R) : (lam <> 0)%R ->
  raw_phase s lam n d = n * code_cos s n * RtoC (2 * PI * d / lam).
Proof.
  intros L. unfold raw_phase. unfold Rdiv. rewrite !RtoC_mult, RtoC_inv by auto.
  field. intros E; apply L; apply RtoC_inj; auto.
Qed.

Lemma layer_flux p (s lam : R) nd f b : (0 < lam)%R -> layer_fine s lam nd ->
  let m := code_layer s lam true nd in
  (flux p m (f * cexp (Ci * phase m))%C (b * cexp (- (Ci * phase m)))%C <= flux p m f b)%R.
Proof.
  intros L (Hp & Hd & Hc). destruct nd as [n d]. cbn [fst snd] in *.
  assert (D0 : (0 <= 2 * PI * d / lam)%R).
  { apply Rmult_le_pos; [|left; apply Rinv_0_lt_compat; auto].
    pose proof PI_RGT_0. apply Rmult_le_pos; lra. }
  destruct (Rle_dec (Im (raw_phase s lam n d)) 35) as [N|N].
  - unfold code_layer. cbn [fst snd]. rewrite clip35_id by auto. cbn [phase].
    rewrite raw_phase_D by lra. apply flux_layer; auto. apply absorbing_code; auto.
  - destruct Hc as [Hc|Hc]; [contradiction|].
    unfold code_layer. cbn [fst snd phase].
    assert (Q2 : (0 < Im (n * code_cos s n)%C)%R).
    { apply Rnot_le_lt in N. rewrite raw_phase_D in N by lra.
      set (D := (2 * PI * d / lam)%R) in *.
      replace (Im (n * code_cos s n * RtoC D)) with (Im (n * code_cos s n)%C * D)%R in N
        by (destruct (n * code_cos s n); simpl; ring).
      destruct (Rlt_dec 0 (Im (n * code_cos s n))) as [|n1]; auto. exfalso.
      assert (Im (n * code_cos s n)%C * D <= 0)%R.
      { apply Rnot_lt_le in n1. replace 0%R with (0 * D)%R by ring. apply Rmult_le_compat_r; auto. }
      lra. }
    destruct (kappa_bound p s n Hp Q2 Hc) as [K1 K2].
    apply flux_clip; auto.
    unfold clip35. cbn [Im snd]. apply Rmin_right. apply Rnot_le_lt in N. lra.
Qed.

Lemma layer_flux_eq p (s lam : R) nd f b : (0 < lam)%R -> transparent (fst nd) ->
  (Im (raw_phase s lam (fst nd) (snd nd)) <= 35)%R ->
  let m := code_layer s lam true nd in
  flux p m (f * cexp (Ci * phase m)) (b * cexp (- (Ci * phase m))) = flux p m f b.
Proof.
  intros L [Ha Hb] Hc. destruct nd as [n d]. cbn [fst snd] in *.
  unfold code_layer. cbn [fst snd]. rewrite clip35_id by auto. cbn [phase].
  rewrite raw_phase_D by lra. apply flux_layer_eq. apply lossless_code; auto.
  split; auto. lra.
Qed.

(** in a transparent layer Im(phase) <= 0: never clipped *)
Lemma transparent_phase (s lam : R) (n : C) (d : R) : (0 < lam)%R -> (0 <= d)%R -> (0 <= s)%R ->
  transparent n -> (Im (raw_phase s lam n d) <= 0)%R.
Proof.
  intros L Hd Hs [Ha Hb].
  assert (Hp : passive n) by (split; auto; lra).
  rewrite raw_phase_D by lra.
  assert (D0 : (0 <= 2 * PI * d / lam)%R).
  { apply Rmult_le_pos; [|left; apply Rinv_0_lt_compat; auto].
    pose proof PI_RGT_0. apply Rmult_le_pos; lra. }
  set (D := (2 * PI * d / lam)%R) in *. clearbody D.
  assert (En : n = RtoC (Re n)) by (destruct n; simpl in *; subst; reflexivity).
  assert (C : (Im (code_cos s n) <= 0)%R).
  { destruct (Rlt_dec (Re n) s) as [T|T].
    - destruct (transp_above s n Hp Hb T) as (k & Hk & ->). simpl. lra.
    - destruct (Req_EM_T s (Re n)) as [E|E].
      + assert (code_cos s n * code_cos s n = 0).
        { rewrite code_cos_sq. rewrite En, E. simpl Re. field. apply (passive_nz n) in Hp.
          rewrite <- En. exact Hp. }
        apply Cmult_integral in H. destruct H as [-> | ->]; simpl; lra.
      + destruct (transp_below s n Hp Hb) as [-> _]; [apply Rabs_lt_between; lra|]. simpl. lra. }
  rewrite En. destruct (code_cos s (RtoC (Re n))) as [c1 c2] eqn:EC.
  rewrite <- En in EC. rewrite EC in C. simpl in *.
  assert (Re n * c2 <= 0)%R by nra.
  nra.
Qed.

(** ** Flux through the code's stack *)
Lemma stack_flux p (s lam : R) back inner : (0 < lam)%R ->
  Forall (layer_fine s lam) inner -> forall m f b t,
  waves p m f b (map (code_layer s lam true) inner ++ [back]) t ->
  (flux p back t 0 <= flux p m f b)%R.
Proof.
  intros L. induction 1 as [|x ms Hx F IH]; intros m f b t H.
  - simpl in H. rewrite (flux_continuity _ _ _ _ _ _ _ H). lra.
  - cbn [map] in H. simpl app in H.
    assert (exists f' b', continuity p m f b (code_layer s lam true x) f' b' /\
      waves p (code_layer s lam true x) (f' * cexp (Ci * phase (code_layer s lam true x)))
       (b' * cexp (- (Ci * phase (code_layer s lam true x)))) (map (code_layer s lam true) ms ++ [back]) t)
      as (f' & b' & HC & HW) by (destruct ms; exact H).
    apply IH in HW. rewrite (flux_continuity _ _ _ _ _ _ _ HC).
    eapply Rle_trans; [exact HW|]. apply layer_flux; auto.
Qed.

Lemma stack_flux_eq p (s lam : R) back inner : (0 < lam)%R -> (0 <= s)%R ->
  Forall (fun nd => transparent (fst nd) /\ (0 <= snd nd)%R) inner -> forall m f b t,
  waves p m f b (map (code_layer s lam true) inner ++ [back]) t ->
  flux p back t 0 = flux p m f b.
Proof.
  intros L Hs. induction 1 as [|x ms [Hx Hd] F IH]; intros m f b t H.
  - simpl in H. rewrite (flux_continuity _ _ _ _ _ _ _ H). reflexivity.
  - cbn [map] in H. simpl app in H.
    assert (exists f' b', continuity p m f b (code_layer s lam true x) f' b' /\
      waves p (code_layer s lam true x) (f' * cexp (Ci * phase (code_layer s lam true x)))
       (b' * cexp (- (Ci * phase (code_layer s lam true x)))) (map (code_layer s lam true) ms ++ [back]) t)
      as (f' & b' & HC & HW) by (destruct ms; exact H).
    apply IH in HW. rewrite (flux_continuity _ _ _ _ _ _ _ HC), HW.
    apply layer_flux_eq; auto.
    destruct x as [n d]. pose proof (transparent_phase s lam n d L Hd Hs Hx). simpl in *. lra.
Qed.

(** flux carried by the transmitted wave does not depend on the branch of the cosine,
    as long as its real part is not negative *)
Lemma back_flux p (s : R) nN back t : passive nN -> idx back = nN -> snell s back ->
  (0 <= Re (cosine back))%R -> flux p (code_end s nN) t 0 = flux p back t 0.
Proof.
  intros Hp Hi [_ Hs] Hc. rewrite !flux_forward. rewrite Hi. f_equal. cbn [idx cosine code_end].
  assert (E : cosine back * cosine back = code_cos s nN * code_cos s nN).
  { rewrite code_cos_sq, Hs, Hi. reflexivity. }
  apply sq_eq_pm in E as [E|E]; [rewrite E; reflexivity|].
  (* opposite branch: both real parts vanish *)
  pose proof (c_Re s nN) as C1. set (c := code_cos s nN) in *.
  assert (C0 : Re c = 0%R).
  { rewrite E in Hc. destruct c; simpl in *. lra. }
  assert (I0 : Im nN = 0%R).
  { destruct Hp as [Ha Hb]. destruct Hb as [Hb|Hb]; [|auto]. exfalso.
    destruct (strict_S s nN (conj Ha (or_introl Hb)) Hb) as [Q1 Q2].
    pose proof (q_conj_n s nN (conj Ha (or_introl Hb))) as Q. fold c in Q, Q1, Q2. rewrite C0 in Q.
    assert (0 < Re (nN * c)%C * Re nN)%R by (apply Rmult_lt_0_compat; auto).
    assert (0 < Im (nN * c)%C * Im nN)%R by (apply Rmult_lt_0_compat; auto). lra. }
  rewrite E. destruct c as [c1 c2], nN as [a b]. simpl in *. subst.
  destruct p; simpl; ring.
Qed.

Lemma c_front_pos (n0 th0 : R) p lam inner nN : (0 < n0)%R ->
  good p (code_end (RtoC n0 * RtoC (sin th0)) n0) (code_rest (RtoC n0 * RtoC (sin th0)) lam true inner nN) ->
  cos th0 <> 0%R.
Proof.
  intros H0 G E.
  assert (R : regular (code_end (RtoC n0 * RtoC (sin th0)) n0)).
  { unfold code_rest in G. destruct (map _ inner); destruct G; auto. }
  apply R. cbn [idx cosine code_end]. rewrite code_cos_front.
  - rewrite E, Rabs_R0. ring.
  - intros X. apply RtoC_inj in X. lra.
Qed.

(** ** C27: energy *)
Theorem energy_passive p (n0 : R) inner nN dA dB th0 lam a r t front back :
  (0 < n0)%R -> (0 < lam)%R ->
  Forall (layer_fine (n0 * sin th0) lam) inner -> passive nN ->
  idx front = RtoC n0 -> cosine front = RtoC (Rabs (cos th0)) ->
  idx back = nN -> snell (RtoC n0 * RtoC (sin th0)) back -> (0 <= Re (cosine back))%R ->
  coh_tmm (ns (RtoC n0) inner nN) (ds dA inner dB) [(th0, lam)] = Ok [a] ->
  amp p a = Some (r, t) ->
  (flux p back t 0 <= flux p front 1 r)%R /\ (0 <= flux p back t 0)%R /\
  flux p front 1 r = (n0 * Rabs (cos th0) * (1 - Cmod r * Cmod r))%R /\ (Cmod r <= 1)%R.
Proof.
  intros H0 L F HN Hf Hfc Hb Hbs Hbc H A.
  rewrite (coh_tmm_one_true _ _ _ _ _ _ _ _ H) in A.
  pose proof A as A2. apply tmm_point_iff in A2 as (_ & _ & G & _).
  assert (C0 : (0 < Rabs (cos th0))%R) by (apply Rabs_pos_lt; exact (c_front_pos n0 th0 p lam inner nN H0 G)).
  apply tmm_point_waves in A as (NZ & _ & U).
  assert (W : reflection_problem p (code_end (RtoC n0 * RtoC (sin th0)) n0)
      (code_rest (RtoC n0 * RtoC (sin th0)) lam true inner nN) r t) by (apply U; auto).
  rewrite <- RtoC_mult in W, Hbs. set (s := (n0 * sin th0)%R) in *.
  unfold reflection_problem, code_rest in W.
  apply stack_flux in W; auto.
  rewrite (back_flux p s nN back t HN Hb Hbs Hbc) in W.
  assert (E : flux p (code_end s n0) 1 r = flux p front 1 r).
  { unfold flux, tangential_1, tangential_2, code_end. cbn [idx cosine]. rewrite Hf, Hfc.
    unfold s. rewrite RtoC_mult, code_cos_front; [reflexivity|].
    intros X. apply RtoC_inj in X. lra. }
  rewrite E in W. split; auto.
  assert (P : (0 <= flux p back t 0)%R).
  { rewrite <- (back_flux p s nN back t HN Hb Hbs Hbc). rewrite flux_forward.
    apply Rmult_le_pos; [|apply Rmult_le_pos; apply Cmod_ge_0].
    cbn [idx cosine code_end].
    destruct p; unfold kappa.
    - apply q_Re_nonneg; auto.
    - destruct HN as [Ha [Hk|Hk]].
      + left. apply strict_P; auto. split; lra.
      + pose proof (ccos_carcsin_Re (s / nN)) as X. fold (code_cos s nN) in X.
        destruct nN as [u v], (code_cos s (u, v)) as [c1 c2]. simpl in *. subst v.
        apply Rle_trans with (u * c1)%R; [apply Rmult_le_pos; lra|]. lra. }
  split; auto.
  assert (EF : flux p front 1 r = (n0 * Rabs (cos th0) * (1 - Cmod r * Cmod r))%R).
  { rewrite flux_front; [|rewrite Hf; reflexivity|rewrite Hfc; reflexivity].
    rewrite Hf, Hfc, Cmod_1. simpl. ring. }
  split; auto.
  rewrite EF in W. pose proof (Cmod_ge_0 r) as Hr.
  assert (K : (0 < n0 * Rabs (cos th0))%R) by (apply Rmult_lt_0_compat; auto).
  assert (0 <= 1 - Cmod r * Cmod r)%R.
  { apply Rmult_le_reg_l with (n0 * Rabs (cos th0))%R; auto. lra. }
  nra.
Qed.

Theorem energy_lossless p (n0 : R) inner nN dA dB th0 lam a r t front back :
  (0 < n0)%R -> (0 < lam)%R -> (0 <= sin th0)%R ->
  Forall (fun nd => transparent (fst nd) /\ (0 <= snd nd)%R) inner -> passive nN ->
  idx front = RtoC n0 -> cosine front = RtoC (Rabs (cos th0)) ->
  idx back = nN -> snell (RtoC n0 * RtoC (sin th0)) back -> (0 <= Re (cosine back))%R ->
  coh_tmm (ns (RtoC n0) inner nN) (ds dA inner dB) [(th0, lam)] = Ok [a] ->
  amp p a = Some (r, t) ->
  flux p back t 0 = flux p front 1 r.
Proof.
  intros H0 L Hs0 F HN Hf Hfc Hb Hbs Hbc H A.
  rewrite (coh_tmm_one_true _ _ _ _ _ _ _ _ H) in A.
  apply tmm_point_waves in A as (NZ & _ & U).
  assert (W : reflection_problem p (code_end (RtoC n0 * RtoC (sin th0)) n0)
      (code_rest (RtoC n0 * RtoC (sin th0)) lam true inner nN) r t) by (apply U; auto).
  rewrite <- RtoC_mult in W, Hbs. set (s := (n0 * sin th0)%R) in *.
  unfold reflection_problem, code_rest in W.
  apply stack_flux_eq in W; auto; [|apply Rmult_le_pos; lra].
  rewrite (back_flux p s nN back t HN Hb Hbs Hbc) in W.
  rewrite W. unfold flux, tangential_1, tangential_2, code_end. cbn [idx cosine]. rewrite Hf, Hfc.
  unfold s. rewrite RtoC_mult, code_cos_front; [reflexivity|].
  intros X. apply RtoC_inj in X. lra.
Qed.
