(** * An opaque film hides what is beneath it *)

Require Import Reals.
From Coquelicot Require Import Rcomplements Complex.
Require Import List Bool Lia Lra Psatz.
From Verif Require Import Base Cplx M_tmm Spec_optics P_tmm P_tmm2 P_tmm3 P_tmm4 P_flux P_flux2 P_flux3 P_psidelta P_psidelta2 P_film Spec_opaque.
Import ListNotations.
Open Scope R_scope.
Open Scope C_scope.

Lemma im_le_mod (z : C) : (Rabs (Im z) <= Cmod z)%R.
Proof. eapply Rle_trans; [|apply Rmax_Cmod]. apply Rmax_r. Qed.

Lemma mod_conj (z : C) : Cmod (Cconj z) = Cmod z.
Proof. destruct z as [x y]. unfold Cmod, Cconj. cbn [fst snd]. f_equal. ring. Qed.

(** ** waves that carry no energy upwards *)
Lemma kappa_ratio p (s : R) (n : C) (K : R) : passive n -> (0 < Im (n * code_cos s n)%C)%R ->
  (Im (n * code_cos s n)%C <= K * Re (n * code_cos s n)%C)%R ->
  (0 < Re (kappa p n (code_cos s n)))%R /\ (Rabs (Im (kappa p n (code_cos s n))) <= K * Re (kappa p n (code_cos s n)))%R /\ (0 < K)%R.
Proof.
  intros Hn Q2 QB. pose proof (q_Re_nonneg s n Hn) as Q1.
  destruct (absorbing_code s n Hn p) as [A1 A2].
  assert (NZ : ~ (Re (kappa p n (code_cos s n)) = 0 /\ Im (kappa p n (code_cos s n)) = 0)%R).
  { intros [Z1 Z2]. assert (Z : kappa p n (code_cos s n) = 0) by (apply C_eq; simpl; auto).
    assert (N0 : n <> 0) by (apply passive_nz; auto).
    assert (C0 : code_cos s n <> 0). { intros E. rewrite E in Q2. destruct n; simpl in Q2. lra. }
    destruct p; unfold kappa in Z; apply Cmult_integral in Z as [Z|Z]; auto.
    apply N0. destruct n as [u v]. apply C_eq; simpl; [apply (f_equal Re) in Z|apply (f_equal Im) in Z]; simpl in Z; lra. }
  set (q1 := Re (n * code_cos s n)) in *. set (q2 := Im (n * code_cos s n)) in *.
  set (k1 := Re (kappa p n (code_cos s n))) in *. set (k2 := Im (kappa p n (code_cos s n))) in *.
  clearbody q1 q2 k1 k2.
  assert (Q1' : (0 < q1)%R). { destruct Q1 as [Q1|Q1]; auto. rewrite <- Q1 in QB. lra. }
  assert (K0 : (0 < K)%R). { apply Rmult_lt_reg_r with q1; auto. lra. }
  assert (K1 : (0 <= k1)%R) by (apply Rmult_le_reg_r with q2; [auto|]; lra).
  assert (U : (k2 <= K * k1)%R).
  { apply Rmult_le_reg_r with q1; auto.
    assert (k1 * q2 <= k1 * (K * q1))%R by (apply Rmult_le_compat_l; auto). lra. }
  assert (V : (- k2 <= K * k1)%R).
  { apply Rmult_le_reg_r with q1; auto.
    assert (k1 * q2 <= k1 * (K * q1))%R by (apply Rmult_le_compat_l; auto). lra. }
  split; [|split; [apply Rabs_le_between; lra|exact K0]].
  destruct K1 as [K1|K1]; auto. exfalso. apply NZ. rewrite <- K1 in *. split; [reflexivity|lra].
Qed.

Lemma upward_bound p m (u w : C) (K : R) : (0 < Re (kappa p (idx m) (cosine m)))%R ->
  (Rabs (Im (kappa p (idx m) (cosine m))) <= K * Re (kappa p (idx m) (cosine m)))%R -> (0 <= K)%R ->
  (0 <= flux p m u w)%R -> (Cmod w <= (2 * K + 1) * Cmod u)%R.
Proof.
  intros K1 K2 K0. rewrite flux_kappa. destruct (kappa p (idx m) (cosine m)) as [k1 k2]. cbn [Re Im fst snd] in *. intros F.
  pose proof (Cmod_ge_0 u) as U0. pose proof (Cmod_ge_0 w) as W0.
  pose proof (Cmod_sq u) as U2. pose proof (Cmod_sq w) as W2.
  assert (X : (Rabs (Im (Cconj w * u)%C) <= Cmod w * Cmod u)%R).
  { eapply Rle_trans; [apply im_le_mod|]. rewrite Cmod_mult, mod_conj. lra. }
  assert (E : Re ((k1, k2) * (Cconj (u + w) * (u - w))) = (k1 * (Cmod u * Cmod u - Cmod w * Cmod w) - 2 * k2 * Im (Cconj w * u)%C)%R).
  { rewrite U2, W2. destruct u as [u1 u2], w as [w1 w2]. simpl. ring. }
  rewrite E in F. set (z := Im (Cconj w * u)) in *. clearbody z.
  set (a := Cmod u) in *. set (b := Cmod w) in *. clearbody a b.
  assert (Y : (Rabs (k2 * z) <= K * k1 * (b * a))%R).
  { rewrite Rabs_mult. apply Rmult_le_compat; auto using Rabs_pos. }
  assert (Y2 : (- (k2 * z) <= K * k1 * (b * a))%R) by (pose proof (Rle_abs (- (k2 * z))); rewrite Rabs_Ropp in *; lra).
  assert (Q : (0 <= a * a - b * b + 2 * K * (b * a))%R).
  { apply Rmult_le_reg_l with k1; auto. lra. }
  destruct (Rle_lt_dec b ((2 * K + 1) * a)) as [L|L]; [exact L|exfalso].
  assert (KA : (0 <= 2 * K * a)%R) by (apply Rmult_le_pos; lra).
  assert (B1 : (b * ((2 * K + 1) * a) < b * b)%R) by (apply Rmult_lt_compat_l; lra).
  assert (B2 : (a * a <= b * a)%R) by (apply Rmult_le_compat_r; lra). lra.
Qed.

Lemma opaque_identity p front film (f' b' r ri ti E : C) : regular front -> continuity p front 1 r film f' b' ->
  continuity p front 1 ri film ti 0 -> b' = E * f' -> regular film -> r - ri = E * (1 - r * ri).
Proof.
  intros RF HC WI Bf _. rewrite continuity_imat in HC, WI by auto. destruct HC as [C1 C2], WI as [I1 I2].
  set (A := ia p front film) in *. set (Bb := ib p front film) in *. rewrite Bf in C1, C2.
  assert (Ati : A * ti = 1) by (rewrite I1; ring).
  assert (ER : ri = Bb * ti) by (rewrite I2; ring).
  assert (C1' : f' * (A + Bb * E) = 1) by (rewrite C1; ring).
  assert (C2' : r = f' * (Bb + A * E)) by (rewrite C2; ring).
  assert (NA : A <> 0) by (intros Z; rewrite Z in Ati; apply C1_neq_0; rewrite <- Ati; ring).
  assert (ND : A + Bb * E <> 0) by (intros Z; rewrite Z in C1'; apply C1_neq_0; rewrite <- C1'; ring).
  assert (Et : ti = 1 / A) by (rewrite <- Ati; field; auto).
  assert (Ef : f' = 1 / (A + Bb * E)) by (rewrite <- C1'; field; auto).
  rewrite ER, C2', Et, Ef. field; auto.
Qed.

Theorem opaque_bulk p (n0 : R) nF d inner nN dA dB dA' dB' th0 lam a r t film ab rb tb (K : R) :
  let s := RtoC n0 * RtoC (sin th0) in
  (0 < n0)%R -> (0 < lam)%R ->
  Forall (film_layer (n0 * sin th0) lam) ((nF, d) :: inner) -> passive nN ->
  layer_ok s lam (nF, d) film -> (0 <= Re (cosine film))%R -> (35 < Im (phase film))%R ->
  (Im (nF * cosine film)%C <= K * Re (nF * cosine film)%C)%R ->
  coh_tmm (ns (RtoC n0) ((nF, d) :: inner) nN) (ds dA ((nF, d) :: inner) dB) [(th0, lam)] = Ok [a] ->
  amp p a = Some (r, t) ->
  coh_tmm (ns (RtoC n0) [] nF) (ds dA' [] dB') [(th0, lam)] = Ok [ab] ->
  amp p ab = Some (rb, tb) ->
  (Cmod (r - rb)%C <= 2 * (2 * K + 1) * exp (-70))%R /\ (Cmod r <= 1)%R /\ (Cmod rb <= 1)%R.
Proof.
  intros s H0 L FA HN OKF HR HI HK HC A HCb Ab. inversion FA as [|? ? FF FI]; subst.
  assert (Es : s = RtoC (n0 * sin th0)) by (unfold s; rewrite RtoC_mult; reflexivity).
  assert (HL : (lam <> 0)%R) by lra.
  rewrite Es in OKF. destruct (film_cos _ _ _ _ L FF OKF HR HI) as [FC FP]. cbn [fst snd] in FC, FP.
  rewrite FC in HK. pose proof FF as (PF & _).
  assert (SN : forall n, passive n -> snell s (code_end s n) /\ (0 <= Re (cosine (code_end s n)))%R).
  { intros n Pn. split; [|rewrite Es; apply c_Re]. split; [cbn; apply passive_nz; exact Pn|]. cbn [cosine idx code_end]. apply code_cos_sq. }
  set (front := mkMedium (RtoC n0) (RtoC (Rabs (cos th0))) 0).
  assert (FINE : Forall (layer_fine (n0 * sin th0) lam) ((nF, d) :: inner)).
  { eapply Forall_impl; [|exact FA]. intros nd H. exact (proj1 (film_layer_code _ _ _ L H)). }
  assert (R1 : (Cmod r <= 1)%R).
  { eapply (energy_passive p n0 ((nF, d) :: inner) nN dA dB th0 lam a r t front (code_end s nN)); eauto; apply SN; exact HN. }
  assert (R2 : (Cmod rb <= 1)%R).
  { eapply (energy_passive p n0 [] nF dA' dB' th0 lam ab rb tb front (code_end s nF)); eauto; apply SN; exact PF. }
  split; [|split; [exact R1|exact R2]].
  pose proof (coh_tmm_one_true _ _ _ _ _ _ _ _ HC) as EA. rewrite EA in A. pose proof A as A2. apply tmm_point_iff in A2 as (_ & _ & GD & _).
  assert (C0 : cos th0 <> 0%R) by (exact (c_front_pos n0 th0 p lam _ _ H0 GD)).
  apply tmm_point_waves in A as (NZ & _ & U).
  assert (W : reflection_problem p (code_end s n0) (code_rest s lam true ((nF, d) :: inner) nN) r t) by (apply U; auto).
  fold s in GD. apply good_regular in GD.
  rewrite (coh_tmm_one_true _ _ _ _ _ _ _ _ HCb) in Ab. apply tmm_point_waves in Ab as (_ & _ & Ui). fold s in Ui.
  set (cft := code_layer s lam true (nF, d)).
  assert (WI : continuity p (code_end s n0) 1 rb cft tb 0).
  { assert (X : reflection_problem p (code_end s n0) (code_rest s lam true [] nF) rb tb) by (apply Ui; auto).
    unfold reflection_problem, code_rest in *. cbn [map app waves] in *. destruct X as [X1 X2].
    split; unfold tangential_1, tangential_2, code_end, cft, code_layer in *; cbn [idx cosine fst snd] in *; auto. }
  assert (W' : exists f' b', continuity p (code_end s n0) 1 r cft f' b' /\
     waves p cft (f' * cexp (Ci * phase cft)) (b' * cexp (- (Ci * phase cft))) (map (code_layer s lam true) inner ++ [code_end s nN]) t).
  { unfold reflection_problem, code_rest in W. cbn [map app] in W. fold cft in W. destruct inner; exact W. }
  destruct W' as (f' & b' & HC' & HW).
  assert (GR : regular (code_end s n0) /\ regular cft).
  { unfold code_rest in GD. cbn [map app all_regular] in GD. fold cft in GD. destruct GD as [X1 X2]. split; [exact X1|].
    destruct inner; cbn [map app all_regular] in X2; exact (proj1 X2). }
  destruct GR as [GR GF].
  (* energy *)
  assert (FX : (0 <= flux p cft (f' * cexp (Ci * phase cft))%C (b' * cexp (- (Ci * phase cft)))%C)%R).
  { rewrite Es in HW. unfold cft in *. rewrite Es in *. apply stack_flux in HW; [|exact L|].
    2:{ inversion FINE; auto. }
    eapply Rle_trans; [|exact HW]. rewrite flux_forward. apply Rmult_le_pos; [|apply Rmult_le_pos; apply Cmod_ge_0].
    unfold code_end. cbn [idx cosine]. destruct (class_nonneg (n0 * sin th0) nN HN). destruct p; auto. }
  assert (Q2 : (0 < Im (nF * code_cos (n0 * sin th0)%R nF)%C)%R).
  { rewrite FP in HI. rewrite raw_phase_D in HI by lra. set (D := (2 * PI * d / lam)%R) in *.
    assert (D0 : (0 <= D)%R).
    { unfold D. destruct FF as (_ & Hd & _). cbn [snd] in Hd. apply Rmult_le_pos; [|left; apply Rinv_0_lt_compat; auto].
      pose proof PI_RGT_0. apply Rmult_le_pos; lra. }
    set (q := nF * code_cos (n0 * sin th0)%R nF) in *.
    replace (Im (q * RtoC D)) with (Im q * D)%R in HI by (destruct q; simpl; ring).
    destruct (Rlt_dec 0 (Im q)) as [|n1]; auto. exfalso. apply Rnot_lt_le in n1.
    assert (Im q * D <= 0 * D)%R by (apply Rmult_le_compat_r; auto). lra. }
  destruct (kappa_ratio p (n0 * sin th0) nF K PF Q2 HK) as (K1 & K2 & K0).
  assert (UB : (Cmod (b' * cexp (- (Ci * phase cft)))%C <= (2 * K + 1) * Cmod (f' * cexp (Ci * phase cft))%C)%R).
  { apply (upward_bound p cft _ _ K); [| |lra|exact FX]; unfold cft, code_layer; cbn [idx cosine fst snd]; rewrite Es; auto. }
  set (e := cexp (Ci * phase cft)) in *. set (e' := cexp (- (Ci * phase cft))) in *.
  assert (EE : e * e' = 1) by apply cexp_opp_r.
  assert (PH : (Im (phase cft) = 35)%R).
  { unfold cft, code_layer, clip35. cbn [phase fst snd]. rewrite Es, <- FP. cbn [Im snd]. apply Rmin_right. lra. }
  assert (Ce : (Cmod e = exp (-35))%R).
  { unfold e. rewrite Cmod_cexp. f_equal. destruct (phase cft) as [x y]. simpl in *. lra. }
  assert (e0 : e <> 0) by (intros Z; rewrite Z, Cmod_0 in Ce; pose proof (exp_pos (-35)); lra).
  rewrite !Cmod_mult in UB.
  assert (Ce' : (Cmod e' = exp 35)%R).
  { apply (f_equal Cmod) in EE. rewrite Cmod_mult, Cmod_1, Ce in EE. apply Rmult_eq_reg_l with (exp (-35)); [|pose proof (exp_pos (-35)); lra].
    rewrite EE, <- exp_plus. replace (-35 + 35)%R with 0%R by ring. symmetry. apply exp_0. }
  rewrite Ce, Ce' in UB.
  assert (BB : (Cmod b' <= (2 * K + 1) * exp (-70) * Cmod f')%R).
  { apply Rmult_le_reg_r with (exp 35); [apply exp_pos|]. eapply Rle_trans; [exact UB|]. right.
    replace (-70)%R with (-35 + -35)%R by ring. rewrite exp_plus.
    transitivity ((2 * K + 1) * (Cmod f' * exp (-35)) * (exp (-35) * exp 35))%R; [|ring].
    rewrite <- exp_plus. replace (-35 + 35)%R with 0%R by ring. rewrite exp_0. ring. }
  destruct (Ceq_dec f' 0) as [F0|F0].
  { exfalso. rewrite F0, Cmod_0, Rmult_0_r in BB. assert (B0 : b' = 0) by (apply Cmod_eq_0; pose proof (Cmod_ge_0 b'); lra).
    rewrite continuity_imat in HC' by auto. destruct HC' as [X _]. rewrite F0, B0 in X. apply C1_neq_0. rewrite X. ring. }
  assert (BE : b' = (b' / f') * f') by (field; auto).
  pose proof (opaque_identity p _ cft f' b' r rb tb (b' / f') GR HC' WI BE GF) as KEY. rewrite KEY, Cmod_mult.
  pose proof (one_minus_le r rb R1 R2) as OM.
  assert (EB : (Cmod (b' / f')%C <= (2 * K + 1) * exp (-70))%R).
  { rewrite Cmod_div by auto. apply Rmult_le_reg_r with (Cmod f'); [apply Cmod_gt_0; auto|]. unfold Rdiv. rewrite Rmult_assoc, Rinv_l, Rmult_1_r; [exact BB|].
    apply Rgt_not_eq, Cmod_gt_0; auto. }
  replace (2 * (2 * K + 1) * exp (-70))%R with ((2 * K + 1) * exp (-70) * 2)%R by ring.
  apply Rmult_le_compat; auto using Cmod_ge_0.
Qed.

Theorem opaque_film_bulk p (n0 : R) nF d inner nN dA dB dA' dB' th0 lam a r t ab rb tb (K : R) :
  (0 < n0)%R -> (0 < lam)%R ->
  Forall (film_layer (n0 * sin th0) lam) ((nF, d) :: inner) -> passive nN ->
  opaque_film (n0 * sin th0) lam K (nF, d) ->
  coh_tmm (ns (RtoC n0) ((nF, d) :: inner) nN) (ds dA ((nF, d) :: inner) dB) [(th0, lam)] = Ok [a] ->
  amp p a = Some (r, t) ->
  coh_tmm (ns (RtoC n0) [] nF) (ds dA' [] dB') [(th0, lam)] = Ok [ab] ->
  amp p ab = Some (rb, tb) ->
  (Cmod (r - rb)%C <= 2 * (2 * K + 1) * exp (-70))%R.
Proof.
  intros H0 L F N (film & O1 & O2 & O3 & O4) HC A HB B. rewrite RtoC_mult in O1.
  exact (proj1 (opaque_bulk p n0 nF d inner nN dA dB dA' dB' th0 lam a r t film ab rb tb K H0 L F N O1 O2 O3 O4 HC A HB B)).
Qed.

Lemma hidden_common p (n0 : R) nF d inner nN dA dB th0 lam a r t (K : R) :
  (0 < n0)%R -> (0 < lam)%R ->
  Forall (film_layer (n0 * sin th0) lam) ((nF, d) :: inner) -> passive nN ->
  opaque_film (n0 * sin th0) lam K (nF, d) ->
  coh_tmm (ns (RtoC n0) ((nF, d) :: inner) nN) (ds dA ((nF, d) :: inner) dB) [(th0, lam)] = Ok [a] ->
  amp p a = Some (r, t) ->
  exists ab rb tb, coh_tmm (ns (RtoC n0) [] nF) (ds PInf [] PInf) [(th0, lam)] = Ok [ab] /\ amp p ab = Some (rb, tb) /\
   (Cmod (r - rb)%C <= 2 * (2 * K + 1) * exp (-70))%R /\ (Cmod r <= 1)%R.
Proof.
  intros H0 L F N O HC A. 
  assert (C0 : cos th0 <> 0%R).
  { pose proof (coh_tmm_one_true _ _ _ _ _ _ _ _ HC) as EA. rewrite EA in A. apply tmm_point_iff in A as (_ & _ & GD & _).
    exact (c_front_pos n0 th0 p lam _ _ H0 GD). }
  inversion F as [|? ? FF FI]; subst.
  destruct (passive_defined p n0 [] nF PInf PInf th0 lam H0 L C0 (Forall_nil _) (Forall_nil _))
    as (ab & rb & tb & HB & B). { apply FF. }
  exists ab, rb, tb. split; [exact HB|]. split; [exact B|].
  destruct O as (film & O1 & O2 & O3 & O4). rewrite RtoC_mult in O1.
  destruct (opaque_bulk p n0 nF d inner nN dA dB PInf PInf th0 lam a r t film ab rb tb K H0 L F N O1 O2 O3 O4 HC A HB B) as (X1 & X2 & _).
  split; [exact X1|exact X2].
Qed.

Theorem opaque_hidden p (n0 : R) nF d inner nN dA dB inner' nN' dA' dB' th0 lam a r t a' r' t' (K : R) :
  (0 < n0)%R -> (0 < lam)%R ->
  Forall (film_layer (n0 * sin th0) lam) ((nF, d) :: inner) -> passive nN ->
  Forall (film_layer (n0 * sin th0) lam) ((nF, d) :: inner') -> passive nN' ->
  opaque_film (n0 * sin th0) lam K (nF, d) ->
  coh_tmm (ns (RtoC n0) ((nF, d) :: inner) nN) (ds dA ((nF, d) :: inner) dB) [(th0, lam)] = Ok [a] ->
  amp p a = Some (r, t) ->
  coh_tmm (ns (RtoC n0) ((nF, d) :: inner') nN') (ds dA' ((nF, d) :: inner') dB') [(th0, lam)] = Ok [a'] ->
  amp p a' = Some (r', t') ->
  (Cmod (r - r')%C <= 4 * (2 * K + 1) * exp (-70))%R.
Proof.
  intros H0 L F N F' N' O HC A HC' A'.
  destruct (hidden_common p n0 nF d inner nN dA dB th0 lam a r t K H0 L F N O HC A) as (ab & rb & tb & HB & B & X & _).
  destruct (hidden_common p n0 nF d inner' nN' dA' dB' th0 lam a' r' t' K H0 L F' N' O HC' A') as (ab' & rb' & tb' & HB' & B' & X' & _).
  assert (EA : ab = ab') by (pose proof (eq_trans (eq_sym HB) HB') as E; injection E; auto). subst ab'.
  rewrite B in B'. injection B' as <- _.
  replace (r - r') with ((r - rb) + - (r' - rb)) by ring.
  eapply Rle_trans; [apply Cmod_triangle|]. rewrite Cmod_opp. lra.
Qed.

(** the constant of [film_layer] *)
Lemma opaque_K (s lam K : R) nd : film_layer s lam nd -> opaque_film s lam K nd -> opaque_film s lam (10 ^ 14) nd.
Proof.
  intros (_ & _ & H) (film & O1 & O2 & O3 & _). exists film. split; [exact O1|]. split; [exact O2|]. split; [exact O3|].
  destruct (H film O1 O2) as [X|X]; [lra|]. destruct O1 as (E & _). rewrite <- E. exact X.
Qed.

Theorem opaque_hidden_any p (n0 : R) nF d inner nN dA dB inner' nN' dA' dB' th0 lam a r t a' r' t' film :
  (0 < n0)%R -> (0 < lam)%R ->
  Forall (film_layer (n0 * sin th0) lam) ((nF, d) :: inner) -> passive nN ->
  Forall (film_layer (n0 * sin th0) lam) ((nF, d) :: inner') -> passive nN' ->
  layer_ok (RtoC (n0 * sin th0)) lam (nF, d) film -> (0 <= Re (cosine film))%R -> (35 < Im (phase film))%R ->
  coh_tmm (ns (RtoC n0) ((nF, d) :: inner) nN) (ds dA ((nF, d) :: inner) dB) [(th0, lam)] = Ok [a] ->
  amp p a = Some (r, t) ->
  coh_tmm (ns (RtoC n0) ((nF, d) :: inner') nN') (ds dA' ((nF, d) :: inner') dB') [(th0, lam)] = Ok [a'] ->
  amp p a' = Some (r', t') ->
  (Cmod (r - r')%C <= 4 * exp (-35))%R.
Proof.
  intros H0 L F N F' N' O1 O2 O3 HC A HC' A'.
  assert (O : opaque_film (n0 * sin th0) lam (10 ^ 14) (nF, d)).
  { exists film. split; [exact O1|]. split; [exact O2|]. split; [exact O3|]. inversion F as [|? ? (_ & _ & H) _]; subst.
    destruct (H film O1 O2) as [X|X]; [lra|]. destruct O1 as (E & _). rewrite <- E. exact X. }
  pose proof (opaque_hidden p n0 nF d inner nN dA dB inner' nN' dA' dB' th0 lam a r t a' r' t' _ H0 L F N F' N' O HC A HC' A') as X.
  eapply Rle_trans; [exact X|]. pose proof exp35_big as B. replace (-70)%R with (-35 + -35)%R by ring. rewrite exp_plus.
  pose proof (exp_pos (-35)) as P.
  assert (E : (exp 35 * exp (-35) = 1)%R) by (rewrite <- exp_plus; replace (35 + -35)%R with 0%R by ring; apply exp_0).
  assert (Y : ((2 * 10 ^ 14 + 1) * exp (-35) <= exp 35 * exp (-35))%R) by (apply Rmult_le_compat_r; lra). rewrite E in Y.
  replace (4 * (2 * 10 ^ 14 + 1) * (exp (-35) * exp (-35)))%R with (4 * exp (-35) * ((2 * 10 ^ 14 + 1) * exp (-35)))%R by ring.
  rewrite <- (Rmult_1_r (4 * exp (-35))) at 2. apply Rmult_le_compat_l; lra.
Qed.

(** ** psi *)
Lemma atan_lip (x y : R) : (Rabs (atan x - atan y) <= Rabs (x - y))%R.
Proof.
  assert (W : forall u v, (u < v)%R -> (0 <= atan v - atan u <= v - u)%R).
  { intros u v H. destruct (MVT_cor2 atan (fun z => / (1 + z ^ 2))%R u v H) as (c & E & _).
    { intros c _. exact (derivable_pt_lim_atan c). }
    rewrite E. assert (P : (1 <= 1 + c ^ 2)%R) by nra. assert (I0 : (0 < / (1 + c ^ 2))%R) by (apply Rinv_0_lt_compat; lra).
    assert (I1 : (/ (1 + c ^ 2) <= 1)%R) by (rewrite <- Rinv_1; apply Rinv_le_contravar; lra). split; [apply Rmult_le_pos; lra|].
    rewrite <- (Rmult_1_l (v - u)) at 2. apply Rmult_le_compat_r; lra. }
  destruct (Rtotal_order x y) as [H|[->|H]].
  - pose proof (W _ _ H). rewrite (Rabs_left1 (atan x - atan y)), (Rabs_left1 (x - y)); lra.
  - rewrite !Rminus_diag_eq by reflexivity. lra.
  - pose proof (W _ _ H). rewrite (Rabs_right (atan x - atan y)), (Rabs_right (x - y)); lra.
Qed.

Lemma ratio_close (rs rp rs' rp' : C) (e m : R) : (0 < m)%R -> (m <= Cmod rs)%R -> (m <= Cmod rs')%R -> (Cmod rp <= 1)%R -> (Cmod rs <= 1)%R ->
  (Cmod (rs - rs')%C <= e)%R -> (Cmod (rp - rp')%C <= e)%R -> (Cmod (rp / rs - rp' / rs')%C <= 2 * e / (m * m))%R.
Proof.
  intros M S S' P1 S1 D1 D2.
  assert (N : rs <> 0) by (apply Cmod_gt_0; lra). assert (N' : rs' <> 0) by (apply Cmod_gt_0; lra).
  replace (rp / rs - rp' / rs') with ((rp * (rs' - rs) + rs * (rp - rp')) / (rs * rs')) by (field; auto).
  rewrite Cmod_div by (intros Z; apply Cmult_integral in Z as [Z|Z]; auto). rewrite (Cmod_mult rs rs').
  assert (NUM : (Cmod (rp * (rs' - rs) + rs * (rp - rp'))%C <= 2 * e)%R).
  { eapply Rle_trans; [apply Cmod_triangle|]. rewrite !Cmod_mult.
    replace (rs' - rs) with (- (rs - rs')) by ring. rewrite Cmod_opp.
    pose proof (Cmod_ge_0 rp). pose proof (Cmod_ge_0 rs). pose proof (Cmod_ge_0 (rs - rs')). pose proof (Cmod_ge_0 (rp - rp')).
    assert (Cmod rp * Cmod (rs - rs')%C <= 1 * e)%R by (apply Rmult_le_compat; auto).
    assert (Cmod rs * Cmod (rp - rp')%C <= 1 * e)%R by (apply Rmult_le_compat; auto). lra. }
  assert (DEN : (m * m <= Cmod rs * Cmod rs')%R) by (apply Rmult_le_compat; lra).
  assert (MM : (0 < m * m)%R) by (apply Rmult_lt_0_compat; auto).
  unfold Rdiv. apply Rmult_le_compat; auto using Cmod_ge_0.
  - left. apply Rinv_0_lt_compat. lra.
  - apply Rinv_le_contravar; auto.
Qed.

Theorem opaque_psi (n0 : R) nF d inner nN dA dB inner' nN' dA' dB' th0 lam a rs ts rp tp a' rs' ts' rp' tp' (K m : R) refl off psi psi' :
  (0 < n0)%R -> (0 < lam)%R ->
  Forall (film_layer (n0 * sin th0) lam) ((nF, d) :: inner) -> passive nN ->
  Forall (film_layer (n0 * sin th0) lam) ((nF, d) :: inner') -> passive nN' ->
  opaque_film (n0 * sin th0) lam K (nF, d) ->
  coh_tmm (ns (RtoC n0) ((nF, d) :: inner) nN) (ds dA ((nF, d) :: inner) dB) [(th0, lam)] = Ok [a] ->
  amp pS a = Some (rs, ts) -> amp pP a = Some (rp, tp) ->
  coh_tmm (ns (RtoC n0) ((nF, d) :: inner') nN') (ds dA' ((nF, d) :: inner') dB') [(th0, lam)] = Ok [a'] ->
  amp pS a' = Some (rs', ts') -> amp pP a' = Some (rp', tp') ->
  (0 < m)%R -> (m <= Cmod rs)%R -> (m <= Cmod rs')%R ->
  fst (psi_delta refl off a) = Some psi -> fst (psi_delta refl off a') = Some psi' ->
  (Rabs (psi - psi') <= 8 * (2 * K + 1) * exp (-70) / (m * m) * (180 / PI))%R.
Proof.
  intros H0 L F N F' N' O HC AS AP HC' AS' AP' M S S' PS PS'.
  pose proof (opaque_hidden pS n0 nF d inner nN dA dB inner' nN' dA' dB' th0 lam a rs ts a' rs' ts' K H0 L F N F' N' O HC AS HC' AS') as D1.
  pose proof (opaque_hidden pP n0 nF d inner nN dA dB inner' nN' dA' dB' th0 lam a rp tp a' rp' tp' K H0 L F N F' N' O HC AP HC' AP') as D2.
  destruct (hidden_common pS n0 nF d inner nN dA dB th0 lam a rs ts K H0 L F N O HC AS) as (_ & _ & _ & _ & _ & _ & S1).
  destruct (hidden_common pP n0 nF d inner nN dA dB th0 lam a rp tp K H0 L F N O HC AP) as (_ & _ & _ & _ & _ & _ & P1).
  pose proof (ratio_close rs rp rs' rp' _ m M S S' P1 S1 D1 D2) as R0.
  cbn [amp] in AS, AP, AS', AP'. unfold psi_delta in PS, PS'. rewrite AS, AP in PS. rewrite AS', AP' in PS'. cbn [fst] in PS, PS'.
  unfold psi_of in PS, PS'. destruct (Ceq_dec rs 0) as [Z|_]; [rewrite Z, Cmod_0 in S; lra|]. destruct (Ceq_dec rs' 0) as [Z|_]; [rewrite Z, Cmod_0 in S'; lra|].
  injection PS as <-. injection PS' as <-. rewrite <- Rmult_minus_distr_r, Rabs_mult.
  assert (P : (0 < 180 / PI)%R) by (apply Rdiv_lt_0_compat; [lra|apply PI_RGT_0]).
  rewrite (Rabs_right (180 / PI)) by lra. apply Rmult_le_compat_r; [lra|].
  eapply Rle_trans; [apply atan_lip|]. eapply Rle_trans; [|eapply Rle_trans; [exact R0|right; unfold Rdiv; ring]].
  pose proof (Cmod_triangle (rp / rs - rp' / rs') (rp' / rs')) as T1. pose proof (Cmod_triangle (- (rp / rs - rp' / rs')) (rp / rs)) as T2.
  replace (rp / rs - rp' / rs' + rp' / rs') with (rp / rs) in T1 by ring.
  replace (- (rp / rs - rp' / rs') + rp / rs) with (rp' / rs') in T2 by ring. rewrite Cmod_opp in T2.
  apply Rabs_le_between. lra.
Qed.
