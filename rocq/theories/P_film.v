(** * Consequences for films: the opaque cut-off, total reflection, degenerate reflection. *)

Require Import Reals.
From Coquelicot Require Import Rcomplements Complex.
Require Import List Bool Lia Lra Psatz.
From Verif Require Import Base Cplx M_tmm Spec_optics P_tmm P_tmm2 P_tmm3 P_tmm4 P_flux P_flux2 P_flux3 P_psidelta P_psidelta2.
Import ListNotations.
Open Scope R_scope.
Open Scope C_scope.

Lemma film_cos (s lam : R) nd film : (0 < lam)%R -> film_layer s lam nd -> layer_ok (RtoC s) lam nd film ->
  (0 <= Re (cosine film))%R -> (35 < Im (phase film))%R ->
  cosine film = code_cos (RtoC s) (fst nd) /\ phase film = raw_phase (RtoC s) lam (fst nd) (snd nd).
Proof.
  intros L FL OK HR HI. pose proof FL as (Hp & Hd & Hm).
  pose proof (film_layer_code _ _ _ L FL) as (_ & _ & TR).
  destruct OK as (O1 & [O2 O3] & O4). rewrite O1 in *.
  assert (RtoC lam <> 0) by (intros X; apply RtoC_inj in X; lra).
  assert (K : cosine film = code_cos (RtoC s) (fst nd) ->
     phase film = raw_phase (RtoC s) lam (fst nd) (snd nd)).
  { intros E. rewrite O4, E. unfold raw_phase. field; auto. }
  assert (E : cosine film = code_cos (RtoC s) (fst nd)); [|auto].
  destruct (total_reflection_dec (RtoC s) (fst nd)) as [T|T].
  - exfalso. specialize (TR T).
    destruct (sq_eq_pm (cosine film) (code_cos (RtoC s) (fst nd))) as [E|E].
    { rewrite code_cos_sq; auto. }
    + rewrite (K E) in HI. pose proof (Rle_abs (Im (raw_phase (RtoC s) lam (fst nd) (snd nd)))). lra.
    + assert (X : phase film = - raw_phase (RtoC s) lam (fst nd) (snd nd)).
      { rewrite O4, E. unfold raw_phase. field; auto. }
      rewrite X in HI.
      pose proof (Rle_abs (- Im (raw_phase (RtoC s) lam (fst nd) (snd nd)))). rewrite Rabs_Ropp in H0.
      destruct (raw_phase (RtoC s) lam (fst nd) (snd nd)); simpl in *. lra.
  - apply code_cos_unique; auto.
Qed.

Lemma layer_phys_raw p (s lam : R) nd : (0 < lam)%R -> passive (fst nd) -> (0 <= snd nd)%R ->
  layer_phys p absorbing (code_layer (RtoC s) lam false nd).
Proof.
  intros L Hp Hd. destruct nd as [n d]. cbn [fst snd] in *.
  exists (2 * PI * d / lam)%R.
  unfold code_layer. cbn [fst snd idx cosine phase]. split; [|split].
  - apply Rmult_le_pos; [|left; apply Rinv_0_lt_compat; auto].
    pose proof PI_RGT_0. apply Rmult_le_pos; lra.
  - apply raw_phase_D; lra.
  - apply absorbing_code; auto.
Qed.

Lemma raw_flip (s : C) lam nd m : (lam <> 0)%R -> layer_ok s lam nd m ->
  (Rabs (Im (phase m)) <= 35)%R -> (Im (raw_phase s lam (fst nd) (snd nd)) <= 35)%R.
Proof.
  intros L OK B. destruct (layer_ok_flip _ _ _ _ L OK) as [E|E]; rewrite E in B;
    unfold code_layer, flip in B; cbn [phase] in B.
  - pose proof (Rle_abs (Im (raw_phase s lam (fst nd) (snd nd)))). lra.
  - destruct (raw_phase s lam (fst nd) (snd nd)) as [x y]. simpl in *. rewrite Rabs_Ropp in B.
    pose proof (Rle_abs y). lra.
Qed.

Lemma one_minus_le (r q : C) : (Cmod r <= 1)%R -> (Cmod q <= 1)%R -> (Cmod (1 - r * q)%C <= 2)%R.
Proof.
  intros H1 H2. eapply Rle_trans; [apply Cmod_triangle|].
  rewrite Cmod_1, Cmod_opp, Cmod_mult. pose proof (Cmod_ge_0 r). pose proof (Cmod_ge_0 q). nra.
Qed.

Theorem opaque_cutoff p (n0 : R) nF d inner nN dA dB th0 lam a r t front film ms back rx tx G tau :
  let s := RtoC n0 * RtoC (sin th0) in
  (0 < n0)%R -> (0 < lam)%R ->
  Forall (film_layer (n0 * sin th0) lam) ((nF, d) :: inner) -> passive nN ->
  coh_tmm (ns (RtoC n0) ((nF, d) :: inner) nN) (ds dA ((nF, d) :: inner) dB) [(th0, lam)] = Ok [a] ->
  amp p a = Some (r, t) ->
  physical_stack (RtoC n0) ((nF, d) :: inner) nN s lam front (film :: ms) back ->
  cosine front = RtoC (Rabs (cos th0)) ->
  (0 <= Re (cosine film))%R -> (35 < Im (phase film))%R ->
  Forall (fun m => (Rabs (Im (phase m)) <= 35)%R) ms ->
  (0 <= Re (cosine back))%R -> ~ total_reflection s nN ->
  reflection_problem p front (film :: ms ++ [back]) rx tx ->
  reflection_problem p film (ms ++ [back]) G tau ->
  (Cmod (r - rx)%C <= 4 * Cmod G * exp (-70))%R.
Proof.
  intros s H0 L FA HN HC A PS Hfc HR HI HB Hbc NT WX WG.
  pose proof PS as (P1 & P2 & P3 & P4 & P5).
  inversion P3 as [|? ? ? ? OKF OKS]; subst. inversion FA as [|? ? FF FI]; subst.
  assert (Es : s = RtoC (n0 * sin th0)) by (unfold s; rewrite RtoC_mult; reflexivity).
  assert (HL : (lam <> 0)%R) by lra.
  rewrite Es in OKF. destruct (film_cos _ _ _ _ L FF OKF HR HI) as [FC FP]. cbn [fst snd] in FC, FP.
  assert (BC : cosine back = code_cos s (idx back)).
  { apply code_cos_unique; auto. apply P5. }
  (* the code's amplitudes *)
  pose proof (coh_tmm_one_true _ _ _ _ _ _ _ _ HC) as EA.
  assert (R1 : (Cmod r <= 1)%R).
  { eapply (energy_passive p n0 ((nF, d) :: inner) (idx back) dA dB th0 lam a r t front back); eauto.
    - eapply Forall_impl; [|exact FA]. intros nd H. exact (proj1 (film_layer_code _ _ _ L H)). }
  rewrite EA in A. pose proof A as A2. apply tmm_point_iff in A2 as (_ & _ & GD & _).
  assert (C0 : cos th0 <> 0%R) by (exact (c_front_pos n0 th0 p lam _ _ H0 GD)).
  apply tmm_point_waves in A as (NZ & _ & U).
  assert (W : reflection_problem p (code_end s n0) (code_rest s lam true ((nF, d) :: inner) (idx back)) r t)
    by (apply U; auto).
  fold s in GD. apply good_regular in GD.
  (* rest of the stack as the code sees it *)
  assert (ER : map (code_layer s lam true) inner = map (code_layer s lam false) inner).
  { clear - OKS HB HL. induction OKS as [|nd m i' ms' H1 H2 IH]; auto. inversion HB; subst.
    cbn [map]. rewrite IH by auto. f_equal. apply code_layer_clip. eapply raw_flip; eauto. }
  assert (FL : Forall2 same_up_to_flip (map (code_layer s lam false) inner) ms).
  { clear - OKS HL. induction OKS; constructor; auto. apply layer_ok_flip; auto. }
  set (rest := map (code_layer s lam false) inner ++ [code_end s (idx back)]) in *.
  set (cf := code_layer s lam false (nF, d)). set (cft := code_layer s lam true (nF, d)) in *.
  assert (W' : reflection_problem p (code_end s n0) (cft :: rest) r t).
  { unfold code_rest in W. cbn [map app] in W. rewrite ER in W. exact W. }
  assert (Efilm : film = cf).
  { unfold cf, code_layer. cbn [fst snd]. destruct film as [fi fc fp]. cbn [cosine phase idx] in *.
    destruct OKF as (O1 & _ & _). cbn [idx fst] in O1. rewrite Es. congruence. }
  assert (RP : raw_phase s lam nF d = phase film) by (rewrite Es; auto).
  (* exact solution *)
  assert (WX' : reflection_problem p (code_end s n0) (cf :: rest) rx tx).
  { unfold reflection_problem in *. subst film.
    rewrite (physical_front (RtoC n0) ((nF, d) :: inner) (idx back) th0 lam front (cf :: ms) back PS Hfc) in WX by discriminate.
    change (cf :: ms ++ [back]) with ((cf :: ms) ++ [back]) in WX.
    apply (physical_back s (idx back) back eq_refl BC) in WX.
    change (cf :: rest) with ((cf :: map (code_layer s lam false) inner) ++ [code_end s (idx back)]).
    rewrite (waves_flip p (cf :: map (code_layer s lam false) inner) (cf :: ms) (code_end s (idx back))); [exact WX|].
    constructor; [left; reflexivity|exact FL]. }
  assert (WG' : forall m, idx m = idx film -> cosine m = cosine film -> reflection_problem p m rest G tau).
  { intros m E1 E2. unfold reflection_problem in *.
    apply (physical_back s (idx back) back eq_refl BC) in WG.
    rewrite <- (waves_flip p _ _ (code_end s (idx back)) FL) in WG. fold rest in WG.
    destruct rest as [|y rest'] eqn:Er; [destruct inner; discriminate|].
    destruct rest' as [|y' rest'].
    - cbn [waves] in *. destruct WG as [X1 X2]. split; unfold tangential_1, tangential_2 in *; rewrite E1, ?E2; auto.
    - destruct WG as (f' & b' & [X1 X2] & X3). exists f', b'. split; auto.
      split; unfold tangential_1, tangential_2 in *; rewrite E1, ?E2; auto. }
  assert (GDr : regular (code_end s n0) /\ all_regular cft rest /\ all_regular cf rest).
  { unfold code_rest in GD. cbn [map app all_regular] in GD. rewrite ER in GD. fold rest in GD. fold cft in GD.
    destruct GD as [X1 X2]. split; [exact X1|]. split; [exact X2|].
    destruct rest; [exact I|]. cbn [all_regular] in *. destruct X2 as [X2 X3]. split; [exact X2|exact X3]. }
  destruct GDr as (GR & GT & GF).
  assert (NE : rest <> []) by (unfold rest; destruct inner; discriminate).
  (* semi-infinite film *)
  destruct (passive_defined p n0 [] nF PInf PInf th0 lam H0 L C0 (Forall_nil _) (Forall_nil _))
    as (ai & ri & ti & HCi & Ai). { apply FF. }
  assert (Ri : (Cmod ri <= 1)%R).
  { eapply (energy_passive p n0 [] nF PInf PInf th0 lam ai ri ti front film); eauto.
    - apply FF.
    - apply OKF.
    - rewrite <- RtoC_mult. apply OKF. }
  rewrite (coh_tmm_one_true _ _ _ _ _ _ _ _ HCi) in Ai.
  apply tmm_point_waves in Ai as (_ & _ & Ui). fold s in Ui.
  assert (WI : forall m, idx m = nF -> cosine m = code_cos s nF -> reflection_problem p (code_end s n0) [m] ri ti).
  { intros m E1 E2. assert (X : reflection_problem p (code_end s n0) (code_rest s lam true [] nF) ri ti) by (apply Ui; auto).
    unfold reflection_problem, code_rest in *. cbn [map app waves] in *. destruct X as [X1 X2].
    split; unfold tangential_1, tangential_2, code_end in *; cbn [idx cosine] in *; rewrite E1, ?E2; auto. }
  assert (Rx : (Cmod rx <= 1)%R).
  { pose proof WX' as X. unfold reflection_problem in X.
    change (cf :: rest) with (map (code_layer s lam false) ((nF, d) :: inner) ++ [code_end s (idx back)]) in X.
    apply flux_stack in X.
    2:{ rewrite Es. apply Forall_map. eapply Forall_impl; [|exact FA]. intros nd (Y1 & Y2 & _).
        apply layer_phys_raw; auto. }
    assert (E : flux p (code_end s n0) 1 rx = (n0 * Rabs (cos th0) * (1 - Cmod rx * Cmod rx))%R).
    { rewrite flux_front; unfold code_end; cbn [idx cosine]; [|reflexivity|].
      - unfold s. rewrite code_cos_front by (intros Z; apply RtoC_inj in Z; lra). rewrite Cmod_1. simpl. ring.
      - unfold s. rewrite code_cos_front by (intros Z; apply RtoC_inj in Z; lra). reflexivity. }
    assert (P : (0 <= flux p (code_end s (idx back)) tx 0)%R).
    { rewrite flux_forward. apply Rmult_le_pos; [|apply Rmult_le_pos; apply Cmod_ge_0].
      unfold code_end. cbn [idx cosine]. rewrite Es.
      destruct (class_nonneg (n0 * sin th0) (idx back) HN). destruct p; auto. }
    assert (K : (0 < n0 * Rabs (cos th0))%R) by (apply Rmult_lt_0_compat; auto; apply Rabs_pos_lt; auto).
    rewrite E in X. pose proof (Cmod_ge_0 rx).
    assert (0 <= 1 - Cmod rx * Cmod rx)%R.
    { apply Rmult_le_reg_l with (n0 * Rabs (cos th0))%R; auto. lra. }
    nra. }
  assert (FI35 : (35 <= Im (phase cft))%R).
  { unfold cft, code_layer, clip35. cbn [phase fst snd]. rewrite RP. cbn [Im snd]. rewrite Rmin_right; lra. }
  assert (FX35 : (35 <= Im (phase cf))%R).
  { rewrite <- Efilm. lra. }
  assert (OKn : idx film = nF) by apply OKF.
  assert (FC' : cosine film = code_cos s nF) by (rewrite Es; exact FC).
  assert (D1 := opaque_hides p (code_end s n0) cft rest r t ri ti G tau GR GT NE FI35 W'
     (WI cft eq_refl eq_refl) (WG' cft (eq_sym OKn) (eq_sym FC'))).
  assert (D2 := opaque_hides p (code_end s n0) cf rest rx tx ri ti G tau GR GF NE FX35 WX'
     (WI cf eq_refl eq_refl) (WG' cf (eq_sym OKn) (eq_sym FC'))).
  pose proof (one_minus_le r ri R1 Ri). pose proof (one_minus_le rx ri Rx Ri).
  assert (T : (Cmod (r - rx)%C <= Cmod (r - ri)%C + Cmod (rx - ri)%C)%R).
  { replace (r - rx) with ((r - ri) + - (rx - ri)) by ring. eapply Rle_trans; [apply Cmod_triangle|].
    rewrite Cmod_opp. lra. }
  pose proof (Cmod_ge_0 G). pose proof (exp_pos (-70)).
  assert (0 <= exp (-70) * Cmod G)%R by (apply Rmult_le_pos; lra).
  assert (exp (-70) * Cmod G * Cmod (1 - r * ri)%C <= exp (-70) * Cmod G * 2)%R by (apply Rmult_le_compat_l; auto).
  assert (exp (-70) * Cmod G * Cmod (1 - rx * ri)%C <= exp (-70) * Cmod G * 2)%R by (apply Rmult_le_compat_l; auto).
  lra.
Qed.

(** ** Two stacks that differ in the backing only *)
Lemma waves_two_backs p ms back back' : Forall regular ms -> forall m f b t t', regular m ->
  waves p m f b (ms ++ [back]) t -> waves p m f b (ms ++ [back']) t' -> continuity p back t 0 back' t' 0.
Proof.
  induction 1 as [|x ms Rx F IH]; intros m f b t t' Rm W W'.
  - simpl in W, W'. destruct W as [W1 W2], W' as [V1 V2]. split; congruence.
  - assert (K : forall bk tt, waves p m f b ((x :: ms) ++ [bk]) tt -> exists f' b', continuity p m f b x f' b' /\
      waves p x (f' * cexp (Ci * phase x)) (b' * cexp (- (Ci * phase x))) (ms ++ [bk]) tt)
      by (intros bk tt H; destruct ms; exact H).
    apply K in W as (f1 & b1 & C1 & W). apply K in W' as (f2 & b2 & C2 & W').
    assert (CC : continuity p x f1 b1 x f2 b2).
    { destruct C1 as [X1 X2], C2 as [Y1 Y2]. split; congruence. }
    destruct (continuity_same p x f1 b1 f2 b2 (idx x) (cosine x) Rx eq_refl eq_refl (phase x)) as [-> ->].
    { destruct x; exact CC. }
    exact (IH x _ _ t t' Rx W W').
Qed.

Lemma two_backs_differ p front ms back back' r t r' t' : regular front -> Forall regular ms ->
  idx back = idx back' -> idx back <> 0 -> cosine back <> cosine back' ->
  reflection_problem p front (ms ++ [back]) r t -> reflection_problem p front (ms ++ [back']) r' t' -> r <> r'.
Proof.
  intros Rf Rm EI NZ NC W W' E. subst r'. unfold reflection_problem in *.
  destruct (waves_two_backs p ms back back' Rm front 1 r t t' Rf W W') as [K1 K2].
  assert (t = 0).
  { destruct p; unfold tangential_1, tangential_2 in *; rewrite <- EI in *.
    - assert (t = t') by (transitivity (t + 0); [ring|]; rewrite K1; ring). subst t'.
      destruct (Ceq_dec t 0) as [|N]; auto. exfalso. apply NC.
      apply (Cmult_reg_l (idx back * t)). { apply Cmult_neq_0; auto. }
      transitivity (idx back * cosine back * (t - 0)); [ring|]. rewrite K2. ring.
    - assert (t = t').
      { apply (Cmult_reg_l (idx back)); auto. transitivity (idx back * (t + 0)); [ring|]. rewrite K1. ring. }
      subst t'. destruct (Ceq_dec t 0) as [|N]; auto. exfalso. apply NC.
      apply (Cmult_reg_l t); auto. transitivity (cosine back * (t - 0)); [ring|]. rewrite K2. ring. }
  subst t.
  assert (AR : all_regular front (ms ++ [back])).
  { clear - Rf Rm. revert front Rf. induction Rm; intros; simpl; auto. }
  apply waves_tm in W; auto; [|destruct ms; discriminate].
  destruct W as [W _]. apply C1_neq_0. rewrite W. ring.
Qed.

Lemma code_rest_regular p front (s : C) lam clip inner nN : good p front (code_rest s lam clip inner nN) ->
  regular front /\ Forall regular (map (code_layer s lam clip) inner).
Proof.
  unfold code_rest. intros G. apply good_regular in G. revert front G.
  induction inner as [|x i IH]; intros front G; cbn [map app all_regular] in *.
  - split; [apply G|constructor].
  - destruct G as [G1 G2]. apply IH in G2 as [G2 G3]. auto.
Qed.

(** C26: at total reflection the code's reflection amplitude is never the one belonging
    to the decaying transmitted wave *)
Theorem TIR_not_decaying p (n0 : R) inner nN dA dB th0 lam a r t front ms back :
  let s := RtoC n0 * RtoC (sin th0) in
  (0 < n0)%R -> transparent nN -> (Re nN < n0 * sin th0)%R ->
  coh_tmm (ns (RtoC n0) inner nN) (ds dA inner dB) [(th0, lam)] = Ok [a] ->
  amp p a = Some (r, t) ->
  physical_stack (RtoC n0) inner nN s lam front ms back ->
  cosine front = RtoC (Rabs (cos th0)) ->
  Forall (fun m => (Rabs (Im (phase m)) <= 35)%R) ms ->
  (0 < Im (idx back * cosine back)%C)%R ->
  forall r' t', reflection_problem p front (ms ++ [back]) r' t' -> r' <> r.
Proof.
  intros s H0 HN HT HC A PS Hfc HB HI r' t' W'.
  destruct (backing_TIR _ _ HN HT) as [B1 B2].
  assert (Es : s = RtoC (n0 * sin th0)) by (unfold s; rewrite RtoC_mult; reflexivity).
  pose proof PS as (P1 & P2 & P3 & P4 & P5).
  set (back2 := mkMedium nN (code_cos s nN) 0).
  assert (NZ : nN <> 0). { apply passive_nz. destruct HN; split; auto. lra. }
  assert (PS2 : physical_stack (RtoC n0) inner nN s lam front ms back2).
  { repeat split; try apply PS; auto. unfold back2; cbn [idx cosine]. apply code_cos_sq. }
  assert (W : reflection_problem p front (ms ++ [back2]) r t).
  { apply (coh_tmm_solves_branch p (RtoC n0) inner nN dA dB th0 lam a r t front ms back2 HC A PS2 Hfc eq_refl HB). auto. }
  pose proof (coh_tmm_one_true _ _ _ _ _ _ _ _ HC) as EA. rewrite EA in A.
  pose proof A as A2. apply tmm_point_iff in A2 as (_ & HL & GD & _). fold s in GD.
  apply code_rest_regular in GD as [GF GM].
  assert (RM : Forall regular ms).
  { clear - GM P3 HL. induction P3 as [|nd m i' ms' H1 H2 IH]; constructor; inversion GM; subst.
    - destruct (layer_ok_flip s lam nd m) as [E|E]; auto. { apply HL. discriminate. }
      + rewrite E. exact H3.
      + rewrite E. unfold regular, flip in *. cbn [idx cosine code_layer] in *.
        intros Z. apply H3.
        transitivity (- (fst nd * - code_cos s (fst nd))); [ring|].
        rewrite Z. ring.
    - apply IH; auto. intros; apply HL; discriminate. }
  intros E. symmetry in E. revert E.
  apply (two_backs_differ p front ms back2 back r t r' t'); auto.
  - unfold regular. rewrite P1, Hfc.
    unfold regular, code_end in GF. cbn [idx cosine] in GF. unfold s in GF.
    rewrite code_cos_front in GF; auto. intros X. apply RtoC_inj in X. lra.
  - cbn [cosine back2]. intros E. rewrite P4, <- E, Es in HI. unfold back2 in HI. cbn [cosine] in HI. lra.
Qed.

(** ** Film layers: two easy sufficient conditions *)
Lemma film_layer_transparent (s lam : R) (n : C) (d : R) : (0 < lam)%R -> transparent n -> (Rabs s <= Re n)%R ->
  (0 <= d)%R -> film_layer s lam (n, d).
Proof.
  intros L [Ha Hb] Hs Hd. split; [split; cbn [fst]; lra|]. split; [exact Hd|].
  intros m (M1 & [M2 M3] & M4) HR. left. cbn [fst snd] in *. rewrite M1 in *.
  assert (En : n = RtoC (Re n)) by (destruct n; simpl in *; subst; reflexivity).
  assert (K : (s / Re n * (s / Re n) <= 1)%R).
  { assert (X : (Rabs (s / Re n) <= 1)%R).
    { unfold Rdiv. rewrite Rabs_mult, Rabs_inv, (Rabs_right (Re n)) by lra.
      apply Rmult_le_reg_r with (Re n); auto. rewrite Rmult_assoc, Rinv_l by lra. lra. }
    apply Rabs_le_between in X. nra. }
  assert (C0 : Im (cosine m) = 0%R).
  { rewrite En, <- RtoC_div, <- RtoC_mult, <- RtoC_minus in M3 by lra.
    destruct (cosine m) as [c1 c2]. pose proof (f_equal Im M3) as E1. pose proof (f_equal Re M3) as E2.
    simpl in E1, E2. cbn [Im snd].
    destruct (Req_EM_T c1 0) as [->|N].
    - assert (0 <= c2 * c2)%R by apply Rle_0_sqr. assert (c2 * c2 = 0)%R by lra. nra.
    - apply Rmult_eq_reg_l with c1; lra. }
  rewrite M4, En. destruct (cosine m) as [c1 c2]. cbn [Im snd] in C0. subst c2.
  assert (E : 2 * PI * Re n * (c1, 0%R) * d / lam = RtoC (2 * PI * Re n * c1 * d / lam)).
  { change (c1, 0%R) with (RtoC c1). rewrite RtoC_div by lra. rewrite !RtoC_mult. reflexivity. }
  rewrite E. simpl. lra.
Qed.

Lemma film_layer_absorbing (s lam : R) (n : C) (d : R) : passive n -> 
  (Im n * Im n + s * s <= Re n * Re n)%R -> (0 <= d)%R -> film_layer s lam (n, d).
Proof.
  intros Hp Hs Hd. split; [exact Hp|]. split; [exact Hd|].
  intros m (M1 & [M2 M3] & M4) HR. right. cbn [fst snd] in *. rewrite M1 in *.
  set (q := n * cosine m).
  assert (Q : q * q = n * n - RtoC s * RtoC s).
  { unfold q. transitivity (n * n * (cosine m * cosine m)); [ring|]. rewrite M3. field; auto. }
  assert (QR : (0 <= Re q)%R).
  { destruct Hp as [Ha Hb]. pose proof (f_equal Im Q) as E2.
    assert (QC : (Re q * Re n + Im q * Im n = (Re n * Re n + Im n * Im n) * Re (cosine m))%R).
    { unfold q. destruct n, (cosine m); simpl; ring. }
    destruct (Rle_dec 0 (Re q)) as [|N]; auto. exfalso. apply Rnot_le_lt in N.
    assert (Im q * Re q = Re n * Im n)%R.
    { destruct n, q; simpl in *; lra. }
    assert (0 <= Re n * Im n)%R by (apply Rmult_le_pos; lra).
    assert (Im q <= 0)%R. { destruct (Rle_dec (Im q) 0) as [|Z]; auto. apply Rnot_le_lt in Z. nra. }
    assert (0 <= (Re n * Re n + Im n * Im n) * Re (cosine m))%R.
    { apply Rmult_le_pos; auto. assert (0 <= Re n * Re n)%R by apply Rle_0_sqr.
      assert (0 <= Im n * Im n)%R by apply Rle_0_sqr. lra. }
    assert (Re q * Re n < 0)%R by nra. assert (Im q * Im n <= 0)%R by nra. lra. }
  assert (D : (Im q * Im q <= Re q * Re q)%R).
  { pose proof (f_equal Re Q) as E1. destruct n, q; simpl in *; lra. }
  assert (IQ : (Im q <= Re q)%R).
  { destruct (Rle_dec (Im q) (Re q)) as [|Z]; auto. apply Rnot_le_lt in Z. nra. }
  assert (1 <= 10 ^ 14)%R by (apply pow_R1_Rle; lra).
  set (M := (10 ^ 14)%R) in *. clearbody M. nra.
Qed.

(** ** psi and delta at a vanishing amplitude *)
Lemma psi_delta_degenerate refl off (rs ts rp tp : C) :
  (rs <> 0 -> rp = 0 -> psi_delta refl off (mkAmp (Some (rs, ts)) (Some (rp, tp))) = (Some 0%R, None)) /\
  (rs = 0 -> rp <> 0 -> psi_delta refl off (mkAmp (Some (rs, ts)) (Some (rp, tp))) = (Some 90%R, None)) /\
  (rs = 0 -> rp = 0 -> psi_delta refl off (mkAmp (Some (rs, ts)) (Some (rp, tp))) = (None, None)).
Proof.
  unfold psi_delta, psi_of, delta_of. cbn [amp_s amp_p]. repeat split; intros H1 H2.
  - subst rp. destruct (Ceq_dec rs 0); [contradiction|].
    replace (RtoC 0 / rs) with (RtoC 0) by (field; auto). rewrite Cmod_0, atan_0, Rmult_0_l.
    rewrite cdiv_some by auto. cbn [obind].
    replace (- RtoC 0 / rs) with (RtoC 0) by (field; auto). rewrite cdiv_none. reflexivity.
  - subst rs. destruct (Ceq_dec 0 0); [|contradiction]. destruct (Ceq_dec rp 0); [contradiction|].
    rewrite cdiv_none. cbn [obind]. f_equal. f_equal. pose proof PI_neq0. field; auto.
  - subst. destruct (Ceq_dec 0 0); [|contradiction]. rewrite cdiv_none. reflexivity.
Qed.

(** ** A concrete total reflection: n0 = 25/16, nN = 1, sin = 4/5 *)
Definition th45 : R := asin (4 / 5).
Lemma sin45 : sin th45 = (4 / 5)%R.
Proof. apply sin_asin; lra. Qed.
Lemma cos45 : cos th45 = (3 / 5)%R.
Proof.
  unfold th45. rewrite cos_asin by lra. replace (1 - Rsqr (4 / 5))%R with ((3 / 5) * (3 / 5))%R by (unfold Rsqr; lra).
  apply sqrt_square. lra.
Qed.
Lemma sqrt_34 : sqrt (5 / 4 * (5 / 4) - 1) = (3 / 4)%R.
Proof. replace (5 / 4 * (5 / 4) - 1)%R with ((3 / 4) * (3 / 4))%R by lra. apply sqrt_square. lra. Qed.

Lemma TIR_amp p (sg : R) : (sg = 1 \/ sg = -1)%R ->
  exists t, amp p (tmm_point (ns (RtoC (25/16)) [] 1) (ds PInf [] PInf) true (sg * th45) 633) =
    Some (match p with pS => (9 / 41, sg * (40 / 41))%R | pP => (-11529 / 19721, sg * (16000 / 19721))%R end, t).
Proof.
  intros Hsg.
  assert (S : sin (sg * th45) = (sg * (4 / 5))%R).
  { destruct Hsg; subst sg.
    - rewrite !Rmult_1_l. apply sin45.
    - replace (-1 * th45)%R with (- th45)%R by ring. rewrite sin_neg, sin45. ring. }
  assert (CS : cos (sg * th45) = (3 / 5)%R).
  { destruct Hsg; subst sg.
    - rewrite !Rmult_1_l. apply cos45.
    - replace (-1 * th45)%R with (- th45)%R by ring. rewrite cos_neg. apply cos45. }
  destruct (passive_defined p (25/16) [] 1 PInf PInf (sg * th45) 633) as (a & r & t & HC & A); auto; try lra.
  { split; simpl; lra. }
  rewrite (coh_tmm_one_true _ _ _ _ _ _ _ _ HC) in A. exists t. rewrite A. f_equal. f_equal.
  apply tmm_point_waves in A as (_ & _ & U).
  assert (W : reflection_problem p (code_end (RtoC (25/16) * RtoC (sin (sg * th45))) (RtoC (25/16)))
     (code_rest (RtoC (25/16) * RtoC (sin (sg * th45))) 633 true [] 1) r t) by (apply U; auto).
  clear U HC. unfold reflection_problem, code_rest in W. cbn [map app waves] in W.
  assert (C0 : code_cos (RtoC (25/16) * RtoC (sin (sg * th45))) (RtoC (25/16)) = RtoC (3/5)).
  { rewrite code_cos_front, CS, Rabs_right; auto; try lra. intros X; apply RtoC_inj in X; lra. }
  assert (C1 : code_cos (RtoC (25/16) * RtoC (sin (sg * th45))) 1 = (0, - sg * (3/4))%R).
  { unfold code_cos. rewrite S, <- RtoC_mult, <- RtoC_div by lra.
    replace (25 / 16 * (sg * (4 / 5)) / 1)%R with (sg * (5 / 4))%R by field.
    destruct Hsg; subst sg.
    - rewrite Rmult_1_l, ccos_carcsin_cut, sqrt_34 by lra. f_equal. ring.
    - rewrite ccos_carcsin_cut_neg by lra.
      replace (-1 * (5 / 4) * (-1 * (5 / 4)) - 1)%R with (5 / 4 * (5 / 4) - 1)%R by ring.
      rewrite sqrt_34. f_equal. ring. }
  destruct W as [W1 W2].
  destruct p; unfold tangential_1, tangential_2, code_end in W1, W2; cbn [idx cosine] in W1, W2;
    rewrite C0, C1 in W2; clear C0 C1 S CS;
    destruct r as [r1 r2], t as [t1 t2];
    pose proof (f_equal Re W1) as X1; pose proof (f_equal Im W1) as X2;
    pose proof (f_equal Re W2) as X3; pose proof (f_equal Im W2) as X4; simpl in X1, X2, X3, X4;
    destruct Hsg; subst sg; f_equal; lra.
Qed.

Theorem TIR_opp_differs :
  DP_one (RtoC (25/16)) [] 1 633 0 false (- (th45 * (180 / PI))) <>
  DP_one (RtoC (25/16)) [] 1 633 0 false (th45 * (180 / PI)).
Proof.
  unfold DP_one. cbn [Re fst RtoC]. change (nm []) with (@nil (C * R)).
  replace (rad (- (th45 * (180 / PI)))) with (-1 * th45)%R
    by (unfold rad; pose proof PI_neq0; field; auto).
  replace (rad (th45 * (180 / PI))) with (1 * th45)%R by (unfold rad; pose proof PI_neq0; field; auto).
  destruct (TIR_amp pS (-1)) as [t1 E1]; [lra|]. destruct (TIR_amp pP (-1)) as [t2 E2]; [lra|].
  destruct (TIR_amp pS 1) as [t3 E3]; [lra|]. destruct (TIR_amp pP 1) as [t4 E4]; [lra|].
  cbn [amp] in *. unfold psi_delta. rewrite E1, E2, E3, E4.
  set (rs := (9 / 41, -1 * (40 / 41))%R : C). set (rp := (-11529 / 19721, -1 * (16000 / 19721))%R : C).
  set (rs' := (9 / 41, 1 * (40 / 41))%R : C). set (rp' := (-11529 / 19721, 1 * (16000 / 19721))%R : C).
  assert (N1 : rs <> 0) by (intros X; apply (f_equal Re) in X; simpl in X; lra).
  assert (N2 : rp <> 0) by (intros X; apply (f_equal Re) in X; simpl in X; lra).
  assert (N3 : rs' <> 0) by (intros X; apply (f_equal Re) in X; simpl in X; lra).
  assert (N4 : rp' <> 0) by (intros X; apply (f_equal Re) in X; simpl in X; lra).
  destruct (psi_delta_spec 0 rs rp N1 N2) as (ps & de & Q1 & Q2 & _ & _ & Q3).
  destruct (psi_delta_spec 0 rs' rp' N3 N4) as (ps' & de' & Q1' & Q2' & _ & _ & Q3').
  rewrite Q1, Q2, Q1', Q2'. intros E.
  assert (ps = ps') by congruence. assert (de = de') by congruence. subst ps' de'.
  unfold ellipsometric in *. rewrite <- Q3 in Q3'.
  assert (X : rp' * rs = rp * rs').
  { transitivity (rp' / rs' * rs' * rs); [field; auto|]. rewrite Q3'. field; auto. }
  apply (f_equal Im) in X. simpl in X. lra.
Qed.

(** ** Statements about Delta_Psi_TMM on a layer table *)
Section Table.
  Variables (tA rA tB rB : R) (nA nB : C) (inner : list (C * R * R)).
  Notation tab := (table tA nA rA inner tB nB rB).
  Notation one_point aoi w := (coh_tmm (ns (RtoC (Re nA)) (nm inner) nB) (ds PInf (nm inner) PInf) [(rad aoi, w)]).

  Lemma DP_from_amp aoi w off refl a : one_point aoi w = Ok [a] ->
    fst (Delta_Psi_TMM [aoi] tab w off refl) = Ok [psi_delta refl off a].
  Proof.
    intros H. rewrite DP_map. cbn [map]. unfold DP_one.
    rewrite (coh_tmm_one_true _ _ _ _ _ _ _ _ H). reflexivity.
  Qed.

  Theorem table_encodes aoi w off rs ts rp tp :
    one_point aoi w = Ok [mkAmp (Some (rs, ts)) (Some (rp, tp))] -> rs <> 0 -> rp <> 0 ->
    exists psi delta,
      fst (Delta_Psi_TMM [aoi] tab w off false) = Ok [(Some psi, Some delta)] /\
      (0 < psi < 90)%R /\ (0 < delta - off <= 360)%R /\ ellipsometric rs rp psi (delta - off) /\
      forall psi' delta', (0 <= psi' < 90)%R -> (0 < delta' <= 360)%R ->
        ellipsometric rs rp psi' delta' -> psi' = psi /\ (delta' = delta - off)%R.
  Proof.
    intros H N1 N2. destruct (psi_delta_spec off rs rp N1 N2) as (psi & delta & E1 & E2 & B1 & B2 & E).
    exists psi, delta. rewrite (DP_from_amp _ _ _ _ _ H). unfold psi_delta. cbn [amp_s amp_p].
    rewrite E1, E2. split; auto. split; auto. split; auto. split; auto.
    intros psi' delta' C1 C2 E'. apply (ellipsometric_unique rs rp psi' delta' psi (delta - off)); auto. lra.
  Qed.

  Theorem table_degenerate aoi w off refl rs ts rp tp :
    one_point aoi w = Ok [mkAmp (Some (rs, ts)) (Some (rp, tp))] ->
    (rs <> 0 -> rp = 0 -> fst (Delta_Psi_TMM [aoi] tab w off refl) = Ok [(Some 0%R, None)]) /\
    (rs = 0 -> rp <> 0 -> fst (Delta_Psi_TMM [aoi] tab w off refl) = Ok [(Some 90%R, None)]) /\
    (rs = 0 -> rp = 0 -> fst (Delta_Psi_TMM [aoi] tab w off refl) = Ok [(None, None)]).
  Proof.
    intros H. rewrite (DP_from_amp _ _ _ _ _ H).
    destruct (psi_delta_degenerate refl off rs ts rp tp) as (H1 & H2 & H3).
    repeat split; intros; [rewrite H1|rewrite H2|rewrite H3]; auto.
  Qed.

  Theorem table_fold AOI w off : exists vals vals' : list (option R * option R),
    fst (Delta_Psi_TMM AOI tab w off false) = Ok vals /\
    length vals = length AOI /\
    fst (Delta_Psi_TMM AOI tab w off true) = Ok vals' /\
    Forall2 (fun v v' => fst v = fst v' /\
      match snd v, snd v' with
      | Some d, Some d' => (0 <= d' - off <= 180)%R /\ cos (rad (d' - off)) = cos (rad (d - off)) /\
          ((d - off <= 180)%R -> d' = d) /\ ((180 < d - off)%R -> (d' - off = 360 - (d - off))%R)
      | None, None => True
      | _, _ => False
      end) vals vals'.
  Proof.
    exists (map (DP_one nA inner nB w off false) AOI), (map (DP_one nA inner nB w off true) AOI).
    rewrite !DP_map, map_length. split; auto. split; auto. split; auto.
    induction AOI as [|x AOI IH]; constructor; auto. unfold DP_one, psi_delta.
    destruct (amp_s _) as [[rs ts]|]; [|split; cbn; auto].
    destruct (amp_p _) as [[rp tp]|]; [|split; cbn; auto].
    cbn [fst snd]. split; auto.
    destruct (delta_of false off rs rp) as [d|] eqn:E.
    - destruct (delta_reflect off rs rp d E) as (d' & E' & H). rewrite E'. exact H.
    - unfold delta_of in *. destruct (cdiv (- rp) rs); cbn [obind] in *; auto.
      destruct (cdiv 1 c); cbn [obind] in *; auto. discriminate.
  Qed.

  Theorem table_normal aoi w off refl rs ts rp tp :
    sin (rad aoi) = 0%R -> one_point aoi w = Ok [mkAmp (Some (rs, ts)) (Some (rp, tp))] -> rp <> 0 ->
    fst (Delta_Psi_TMM [aoi] tab w off refl) = Ok [(Some 45%R, Some (180 + off)%R)].
  Proof. intros H E N. rewrite DP_map. cbn [map]. rewrite (DP_one_normal _ _ _ _ _ _ _ _ _ _ _ H E N). auto. Qed.

  Theorem table_supplement AOI w off refl :
    fst (Delta_Psi_TMM (map (fun x => (180 - x)%R) AOI) tab w off refl) = fst (Delta_Psi_TMM AOI tab w off refl).
  Proof. rewrite !DP_map, map_map. f_equal. apply map_ext. intros; apply DP_one_supp. Qed.

  Theorem table_opposite AOI w off refl : (0 < Re nA)%R -> (0 < w)%R ->
    (forall aoi, In aoi AOI -> cos (rad aoi) <> 0%R /\
      passive_film (Re nA * sin (rad aoi)) w (nm inner) nB /\
      ~ total_reflection (RtoC (Re nA) * RtoC (sin (rad aoi))) nB) ->
    fst (Delta_Psi_TMM (map Ropp AOI) tab w off refl) = fst (Delta_Psi_TMM AOI tab w off refl).
  Proof.
    intros H0 HL HA. rewrite !DP_map, map_map. f_equal. apply map_ext_in. intros aoi Hi.
    destruct (HA aoi Hi) as (X1 & X2 & X3).
    assert (E : forall x, DP_one nA inner nB w off refl x = DP_one (RtoC (Re nA)) inner nB w off refl x)
      by reflexivity.
    rewrite !E. apply DP_one_opp; auto.
  Qed.
End Table.

Theorem table_scale tA nA rA inner tB nB rB tA' rA' tB' rB' AOI w off refl (k : R) : k <> 0%R ->
  fst (Delta_Psi_TMM AOI (table tA' nA rA' (scale_rows k inner) tB' nB rB') (k * w) off refl) =
  fst (Delta_Psi_TMM AOI (table tA nA rA inner tB nB rB) w off refl).
Proof. intros N. rewrite !DP_map. f_equal. apply map_ext. intros; apply DP_one_scale; auto. Qed.

(** end to end: psi and delta of a passive film are those of the unique solution of the
    boundary value problem *)
Theorem end_to_end tA nA rA inner tB nB rB w off aoi front ms back :
  let s := RtoC (Re nA) * RtoC (sin (rad aoi)) in
  (0 < Re nA)%R -> (0 < w)%R -> cos (rad aoi) <> 0%R ->
  passive_film (Re nA * sin (rad aoi)) w (nm inner) nB ->
  physical_stack (RtoC (Re nA)) (nm inner) nB s w front ms back ->
  cosine front = RtoC (Rabs (cos (rad aoi))) ->
  (0 <= Re (cosine back))%R -> ~ total_reflection s nB ->
  Forall (fun m => (Rabs (Im (phase m)) <= 35)%R) ms ->
  exists rs rp,
    (forall r, (exists t, reflection_problem pS front (ms ++ [back]) r t) <-> r = rs) /\
    (forall r, (exists t, reflection_problem pP front (ms ++ [back]) r t) <-> r = rp) /\
    (Cmod rs <= 1)%R /\ (Cmod rp <= 1)%R /\
    (rs <> 0 -> rp <> 0 -> exists psi delta,
      fst (Delta_Psi_TMM [aoi] (table tA nA rA inner tB nB rB) w off false) = Ok [(Some psi, Some delta)] /\
      (0 < psi < 90)%R /\ (0 < delta - off <= 360)%R /\ ellipsometric rs rp psi (delta - off)).
Proof.
  intros s H0 HL HC PF PS Hf Hb NT HB.
  pose proof PF as (F & NC & HN).
  assert (F' : Forall (layer_fine (Re nA * sin (rad aoi)) w) (nm inner)).
  { eapply Forall_impl; [|exact F]. intros nd H. exact (proj1 (film_layer_code _ _ _ HL H)). }
  destruct (passive_defined pS (Re nA) (nm inner) nB PInf PInf (rad aoi) w H0 HL HC F' NC HN) as (a & rs & ts & HE & A1).
  destruct (passive_defined pP (Re nA) (nm inner) nB PInf PInf (rad aoi) w H0 HL HC F' NC HN) as (a' & rp & tp & HE' & A2).
  assert (a' = a) by congruence. subst a'.
  assert (S1 := coh_tmm_solves pS _ _ _ _ _ _ _ _ _ _ _ _ _ HE A1 PS Hf Hb NT HB).
  assert (S2 := coh_tmm_solves pP _ _ _ _ _ _ _ _ _ _ _ _ _ HE A2 PS Hf Hb NT HB).
  pose proof PS as (P1 & P2 & P3 & P4 & P5).
  exists rs, rp. split; [|split; [|split; [|split]]].
  - intros r. split; [intros [t E]; apply S1 in E; tauto|intros ->; exists ts; apply S1; auto].
  - intros r. split; [intros [t E]; apply S2 in E; tauto|intros ->; exists tp; apply S2; auto].
  - eapply (energy_passive pS (Re nA) (nm inner) nB PInf PInf (rad aoi) w a rs ts front back); eauto.
  - eapply (energy_passive pP (Re nA) (nm inner) nB PInf PInf (rad aoi) w a rp tp front back); eauto.
  - intros N1 N2. destruct a as [as_ ap]. cbn [amp amp_s amp_p] in A1, A2. subst as_ ap.
    destruct (table_encodes tA rA tB rB nA nB inner aoi w off rs ts rp tp HE N1 N2) as (psi & delta & Q1 & Q2 & Q3 & Q4 & _).
    eauto 10.
Qed.
