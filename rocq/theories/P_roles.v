(** * The roles of parameters; plotted wavelengths; truncation; the sharp Tauc-Lorentz oscillator *)

Require Import Reals List Bool Arith Lra Lia String Sorting.Sorted.
From Coquelicot Require Import Coquelicot.
From Verif Require Import Base Cplx M_ema P_ema M_disp Spec_disp P_disp P_disp2 Spec_kk P_kk3 M_struct M_model P_model P_model2
  M_data M_objective Spec_objective P_objective P_objective2 Spec_roles.
Import ListNotations.
Open Scope list_scope.
Open Scope R_scope.

(** ** Sums over oscillators *)
Lemma over_all_sum3 (v : pid -> R) f : forall a b c, over_all f (oscillators v a b c) = sum3 (fun x y z => f (v x) (v y) (v z)) a b c.
Proof.
  unfold over_all, oscillators. induction a as [|x a IH]; intros [|y b] [|z c]; cbn [map combine fold_right sum3]; try reflexivity.
  rewrite IH. reflexivity.
Qed.
Lemma Forall_all3 (v : pid -> R) (P : R -> R -> R -> Prop) : forall a b c, all3 (fun x y z => P (v x) (v y) (v z)) a b c ->
  List.Forall (fun o => P (osc_A o) (osc_B o) (osc_E o)) (oscillators v a b c).
Proof.
  unfold oscillators. induction a as [|x a IH]; intros [|y b] [|z c] H; cbn [map combine all3] in *; try constructor; try tauto.
  apply IH. tauto.
Qed.

Lemma index_csqrt z : index_of z (csqrt z).
Proof. split; [apply csqrt_sq|apply csqrt_Re_nonneg]. Qed.

Lemma photon_eq w : w <> 0 -> nm_eV_conversion w = Some (photon w).
Proof. intros H. unfold nm_eV_conversion. destruct (Req_EM_T w 0); [contradiction|reflexivity]. Qed.
Lemma photon_pos w : 0 < w -> 0 < photon w.
Proof. intros H. unfold photon. apply Rdiv_lt_0_compat; [lra|exact H]. Qed.

Theorem roles_cauchy v A B Cc wl name w : w <> 0 ->
  sc_complex (inst_scat v (ScattererT (T_Cauchy A B Cc) wl name)) (Some w) =
  Ok (Some (v A + v B / (w / 1000) ^ 2 + v Cc / (w / 1000) ^ 4, 0)).
Proof. intros W. unfold inst_scat. cbn [sct_kind sct_wavelength sct_name]. apply cauchy_formula. exact W. Qed.

Theorem roles_sellmeier v Am En P Einf wl name w : w <> 0 -> (w / 1000) ^ 2 <> v En ^ 2 ->
  let e := v Einf + v Am * (w / 1000) ^ 2 / ((w / 1000) ^ 2 - v En ^ 2) - v P * (w / 1000) ^ 2 in
  0 <= e ->
  exists n, sc_complex (inst_scat v (ScattererT (T_Sellmeier Am En P Einf) wl name)) (Some w) = Ok (Some n) /\ index_of (RtoC e) n.
Proof.
  intros W R e E. unfold inst_scat. cbn [sct_kind sct_wavelength sct_name].
  rewrite (sellmeier_eps _ _ _ _ _ _ _ e W (sellmeier_formula _ _ _ _ _ R)).
  destruct (Rle_dec 0 e); [|contradiction]. eexists. split; [reflexivity|].
  rewrite <- csqrt_nonneg_real by exact E. apply index_csqrt.
Qed.

Theorem roles_lorentz v Am Br En Einf wl name w n : w <> 0 ->
  sc_complex (inst_scat v (ScattererT (T_Lorentz Am Br En Einf) wl name)) (Some w) = Ok (Some n) ->
  index_of (RtoC (v Einf) + csum3 (fun A B E => RtoC (v A) / lorentz_denominator (v B) (v E) (RtoC (photon w))) Am Br En)%C n.
Proof.
  intros W H. unfold inst_scat, sc_complex in H. cbn [sct_kind sct_wavelength sct_name sc_kind sc_wavelength] in H.
  rewrite choose_wav_some in H by exact W. unfold complex_of_epsilon in H. rewrite (photon_eq w W) in H. cbn [rmap] in H.
  destruct (lorentz_epsilon _ _ _) as [z|] eqn:E; cbn [omap] in H; [|discriminate]. injection H as <-.
  assert (Z : (RtoC (v Einf) + csum3 (fun A B E => RtoC (v A) / lorentz_denominator (v B) (v E) (RtoC (photon w))) Am Br En)%C = z).
  2:{ rewrite Z. apply index_csqrt. }
  unfold lorentz_epsilon in E. destruct (osum _) as [t|] eqn:S; cbn [omap] in E; [|discriminate]. injection E as <-.
  rewrite Cplus_comm. f_equal. revert Br En t S. unfold oscillators.
  induction Am as [|a Am IH]; intros [|b Br] [|e En] t S; cbn [map combine osum] in S; cbn [csum3]; try (injection S as <-; reflexivity).
  destruct (lorentz_term (photon w) (v a, v b, v e)) as [x|] eqn:L; cbn [olift2 obind] in S; [|discriminate].
  destruct (osum (map _ _)) as [y|] eqn:S'; cbn in S; [|discriminate]. injection S as <-.
  rewrite (IH Br En y S'). f_equal.
  assert (K : lorentz_epsilon [(v a, v b, v e)] 0 (photon w) = Some (x + RtoC 0 + RtoC 0)%C).
  { unfold lorentz_epsilon. cbn [map osum]. rewrite L. reflexivity. }
  assert (D : lorentz_denominator (v b) (v e) (RtoC (photon w)) <> RtoC 0).
  { intros Z. unfold lorentz_term in L. cbn [cdivo] in L. unfold cdivo in L.
    destruct (Ceq_dec _ _) as [_|N] in L; [discriminate|]. apply N. rewrite <- Z. unfold lorentz_denominator.
    apply (f_equal2 (fun a b : C => (a - b)%C)); [|rewrite RtoC_mult; ring]. rewrite RtoC_minus. simpl. rewrite !RtoC_mult. ring. }
  rewrite lorentz_single in K by exact D.
  assert (K' : (RtoC (v a) / lorentz_denominator (v b) (v e) (RtoC (photon w)) + RtoC 0)%C = (x + RtoC 0 + RtoC 0)%C) by congruence.
  rewrite !Cplus_0_r in K'. exact K'.
Qed.

Theorem roles_gauss v h Am Br En Einf wl name w : w <> 0 -> keeps_length h -> Am <> [] ->
  all3 (fun A B E => 0 < v B) Am Br En ->
  exists n re im, sc_complex (inst_scat v (ScattererT (T_Gauss h Am Br En Einf) wl name)) (Some w) = Ok (Some n) /\
  index_of (re, im) n /\
  interpolates grid2048 (map (fun x => sum3 (fun A B E => gauss_absorption (v A) (v B) (v E) x) Am Br En) grid2048) (photon w) im.
Proof.
  intros W Hh N P. unfold inst_scat, sc_complex. cbn [sct_kind sct_wavelength sct_name sc_kind sc_wavelength].
  rewrite choose_wav_some by exact W. unfold complex_of_epsilon. rewrite (photon_eq w W).
  pose proof P as PP. apply (Forall_all3 v (fun _ B _ => 0 < B)) in P.
  assert (N' : oscillators v Am Br En <> []).
  { intros Z. apply N. destruct Am; [reflexivity|]. exfalso. destruct Br, En; cbn in PP; try contradiction. discriminate Z. }
  destruct (gauss_result h (oscillators v Am Br En) (v Einf) (photon w) Hh N' P) as (re & im & Q & _ & I2).
  rewrite Q. cbn [rmap omap]. exists (csqrt (re, im)), re, im. split; [reflexivity|]. split; [apply index_csqrt|].
  change grid2048 with e_pad. erewrite map_ext; [exact I2|]. intros x. symmetry.
  exact (over_all_sum3 v (fun A B E => gauss_absorption A B E x) Am Br En).
Qed.

Theorem roles_tauc_lorentz v Am Cc En Eg Einf wl name w : 0 < w -> 0 <= v Eg -> photon w <> v Eg ->
  all3 (fun A B E => 0 < v B /\ 0 < v E /\ v B ^ 2 <= 2 * v E ^ 2) Am Cc En ->
  exists n re, sc_complex (inst_scat v (ScattererT (T_TaucLorentz Am Cc En Eg Einf) wl name)) (Some w) = Ok (Some n) /\
  index_of (v Einf + re, sum3 (fun A B E => tauc_lorentz_absorption (v A) (v B) (v E) (v Eg) (photon w)) Am Cc En) n /\
  kramers_kronig (fun xi => sum3 (fun A B E => tauc_lorentz_absorption (v A) (v B) (v E) (v Eg) xi) Am Cc En) (photon w) re.
Proof.
  intros W G N P. unfold inst_scat, sc_complex. cbn [sct_kind sct_wavelength sct_name sc_kind sc_wavelength].
  rewrite choose_wav_some by lra. unfold complex_of_epsilon. rewrite (photon_eq w) by lra.
  apply (Forall_all3 v (fun _ B E => 0 < B /\ 0 < E /\ B ^ 2 <= 2 * E ^ 2)) in P.
  destruct (tl_kk_claim (oscillators v Am Cc En) (v Eg) (v Einf) (photon w) G (photon_pos w W) N P) as (z & Z & I1 & I2).
  rewrite Z. cbn [rmap omap]. exists (csqrt z), (Re z - v Einf). split; [reflexivity|]. split.
  - replace (v Einf + (Re z - v Einf), _) with z; [apply index_csqrt|]. destruct z as [a b]. cbn [Re Im fst snd] in *. f_equal; [ring|].
    rewrite I1. apply (over_all_sum3 v (fun A B E => tauc_lorentz_absorption A B E (v Eg) (photon w))).
  - intros eps He. destruct (I2 eps He) as (d0 & b0 & D0 & B0 & K). exists d0, b0. split; [exact D0|]. split; [exact B0|].
    intros d b Hd Hb. destruct (K d b Hd Hb) as (x & y & X & Y & Z'). exists x, y.
    split; [|split; [|exact Z']]; (eapply is_RInt_ext; [|eassumption]); intros t _; cbv beta;
      rewrite <- (over_all_sum3 v (fun A B E => tauc_lorentz_absorption A B E (v Eg) t)); reflexivity.
Qed.

(** ** The sharp Tauc-Lorentz oscillator *)
Ltac st' od := repeat (rewrite od by (assumption || lra || nra); cbn [obind]).
Theorem tl_sharp A Ei Eg Einf e : 0 <= Eg -> 0 < Ei -> Ei <> Eg -> 0 < e -> e <> Eg -> e <> Ei ->
  tl_epsilon [(A, 0, Ei)] Eg Einf e =
  Some (RtoC (Einf + if Rlt_dec Eg Ei then A * (Ei - Eg) ^ 2 / (Ei * (Ei ^ 2 - e ^ 2)) else 0)).
Proof.
  intros G E NE e0 Ng Ne. pose proof PI_RGT_0 as PIp.
  assert (S1 : sqrt (4 * Ei ^ 2 - 0 ^ 2) = 2 * Ei). { replace (4 * Ei ^ 2 - 0 ^ 2) with ((2 * Ei) ^ 2) by ring. apply sqrt_pow2. lra. }
  assert (S2 : sqrt (Ei ^ 2 - 0 ^ 2 / 2) = Ei). { replace (Ei ^ 2 - 0 ^ 2 / 2) with (Ei ^ 2) by field. apply sqrt_pow2. lra. }
  assert (D : e ^ 2 - Ei ^ 2 <> 0) by (replace (e ^ 2 - Ei ^ 2) with ((e - Ei) * (e + Ei)) by ring; apply Rmult_integral_contrapositive_currified; lra).
  assert (D2 : tl_zeta4 e 0 (2 * Ei) Ei = (e ^ 2 - Ei ^ 2) ^ 2) by (unfold tl_zeta4; ring).
  assert (D3 : (e ^ 2 - Ei ^ 2) ^ 2 <> 0) by (apply pow_nonzero; exact D).
  assert (Q1 : 0 < (Ei - Eg) ^ 2) by (apply pow2_gt_0; lra).
  assert (Q2 : sqrt ((Ei ^ 2 - Eg ^ 2) ^ 2 + Eg ^ 2 * 0 ^ 2) <> 0).
  { apply Rgt_not_eq, sqrt_lt_R0. replace ((Ei ^ 2 - Eg ^ 2) ^ 2 + Eg ^ 2 * 0 ^ 2) with ((Ei - Eg) ^ 2 * (Ei + Eg) ^ 2) by ring.
    apply Rmult_lt_0_compat; [exact Q1|]. apply pow2_gt_0. lra. }
  assert (od : forall a b, b <> 0 -> odiv a b = Some (a / b)) by (intros a b H; unfold odiv; destruct (Req_EM_T b 0); [contradiction|reflexivity]).
  assert (ol : forall a, 0 < a -> oln a = Some (ln a)) by (intros a H; unfold oln; destruct (Rlt_dec 0 a); [reflexivity|contradiction]).
  assert (os : forall a, 0 <= a -> osqrt a = Some (sqrt a)) by (intros a H; unfold osqrt; destruct (Rle_dec 0 a); [reflexivity|contradiction]).
  assert (E1 : tl_e1 Eg e (A, 0, Ei) = Some (if Rlt_dec Eg Ei then A * (Ei - Eg) ^ 2 / (Ei * (Ei ^ 2 - e ^ 2)) else 0)).
  { unfold tl_e1. rewrite os by nra. cbn [obind]. rewrite os by nra. cbn [obind]. rewrite S1, S2. cbv zeta. rewrite D2.
    st' od.
    assert (P1 : 0 < (Ei ^ 2 + Eg ^ 2 + 2 * Ei * Eg) / (Ei ^ 2 + Eg ^ 2 - 2 * Ei * Eg)) by (apply Rdiv_lt_0_compat; nra).
    rewrite ol by exact P1. cbn [obind].
    st' od.
    assert (T1 : oatan_div (2 * Eg + 2 * Ei) 0 = Some (PI / 2)).
    { unfold oatan_div. destruct (Req_EM_T 0 0); [|contradiction]. destruct (Rlt_dec 0 (2 * Eg + 2 * Ei)); [reflexivity|lra]. }
    assert (T2 : oatan_div (2 * Ei - 2 * Eg) 0 = Some (if Rlt_dec Eg Ei then PI / 2 else - (PI / 2))).
    { unfold oatan_div. destruct (Req_EM_T 0 0); [|contradiction]. destruct (Rlt_dec Eg Ei).
      - destruct (Rlt_dec 0 (2 * Ei - 2 * Eg)); [reflexivity|lra].
      - destruct (Rlt_dec 0 (2 * Ei - 2 * Eg)); [lra|]. destruct (Rlt_dec (2 * Ei - 2 * Eg) 0); [reflexivity|lra]. }
    assert (RR : 2 * (Ei ^ 2 - Eg ^ 2) / (2 * Ei) = (Ei - Eg) * ((Ei + Eg) / Ei)) by (field; lra).
    assert (RP : 0 < (Ei + Eg) / Ei) by (apply Rdiv_lt_0_compat; lra).
    assert (T3 : oatan_div (2 * (Ei ^ 2 - Eg ^ 2) / (2 * Ei)) 0 = Some (if Rlt_dec Eg Ei then PI / 2 else - (PI / 2))).
    { rewrite RR. unfold oatan_div. destruct (Req_EM_T 0 0); [|contradiction]. destruct (Rlt_dec Eg Ei).
      - destruct (Rlt_dec 0 _) as [|X]; [reflexivity|]. exfalso. apply X. nra.
      - destruct (Rlt_dec 0 _) as [X|_]; [nra|]. destruct (Rlt_dec _ 0) as [|X]; [reflexivity|]. exfalso. apply X. nra. }
    rewrite T1. cbn [obind]. rewrite T2. cbn [obind].
    st' od.
    st' od. rewrite T3. cbn [obind].
    st' od.
    assert (Ab : 0 < Rabs (e - Eg)) by (apply Rabs_pos_lt; lra).
    assert (P2 : 0 < Rabs (e - Eg) / (e + Eg)) by (apply Rdiv_lt_0_compat; lra).
    rewrite ol by exact P2. cbn [obind].
    st' od.
    assert (P3 : 0 < Rabs (e - Eg) * (e + Eg) / sqrt ((Ei ^ 2 - Eg ^ 2) ^ 2 + Eg ^ 2 * 0 ^ 2)).
    { apply Rdiv_lt_0_compat; [apply Rmult_lt_0_compat; lra|]. pose proof (sqrt_pos ((Ei ^ 2 - Eg ^ 2) ^ 2 + Eg ^ 2 * 0 ^ 2)). lra. }
    rewrite ol by exact P3. cbn [obind]. f_equal. unfold tl_a_atan.
    destruct (Rlt_dec Eg Ei).
    - field. repeat split; try lra; nra.
    - field. repeat split; try lra; nra. }
  unfold tl_epsilon. cbn [map osum]. unfold tl_term. rewrite E1. cbn [obind].
  unfold tl_e2. rewrite od. 2:{ apply Rmult_integral_contrapositive_currified; [lra|]. replace ((e ^ 2 - Ei ^ 2) ^ 2 + (0 * e) ^ 2) with ((e ^ 2 - Ei ^ 2) ^ 2) by ring. exact D3. }
  cbn [omap obind]. set (x := if Rlt_dec Eg Ei then _ else _). set (y := _ * (if Rlt_dec 0 (e - Eg) then 1 else 0)).
  assert (Y : y = 0) by (unfold y; unfold Rdiv; rewrite !Rmult_0_r, !Rmult_0_l; ring). rewrite Y. clearbody x.
  cbn. f_equal. unfold RtoC, Cplus. cbn [fst snd]. f_equal; ring.
Qed.

(** ** Truncation *)
Lemma trunc_spec x : towards_zero x (trunc x).
Proof.
  unfold trunc, towards_zero. destruct (Rle_dec 0 x) as [P|P].
  - destruct (base_Int_part x) as [B1 B2]. split; [eexists; reflexivity|].
    assert (Z : (0 <= Int_part x)%Z). { assert (H : -1 < IZR (Int_part x)) by lra. apply lt_IZR in H. lia. }
    apply IZR_le in Z. rewrite !Rabs_right by lra. split; [nra|lra].
  - destruct (base_Int_part (- x)) as [B1 B2]. split; [exists (- Int_part (- x))%Z; symmetry; apply opp_IZR|].
    assert (Z : (0 <= Int_part (- x))%Z). { assert (H : -1 < IZR (Int_part (- x))) by lra. apply lt_IZR in H. lia. }
    apply IZR_le in Z. rewrite Rabs_Ropp. rewrite (Rabs_right (IZR _)) by lra. rewrite Rabs_left by lra. split; [nra|lra].
Qed.
Lemma cut_store nan l : Forall2 (cut nan) l (map (store (DInt nan)) l).
Proof.
  induction l as [|[x|] l IH]; cbn [map]; constructor; auto; cbn [cut store]; [|reflexivity].
  eexists. split; [reflexivity|apply trunc_spec].
Qed.
Theorem int_cut ext nan s off flip X psi delta s' : model ext DFloat s off flip X = (Ok (psi, delta), s') ->
  exists psi' delta', model ext (DInt nan) s off flip X = (Ok (psi', delta'), s') /\ Forall2 (cut nan) psi psi' /\ Forall2 (cut nan) delta delta'.
Proof.
  intros H. rewrite int_truncates, H. do 2 eexists. split; [reflexivity|]. split; apply cut_store.
Qed.

(** ** Plotted wavelengths *)
Lemma plotted_drawn data : drawn data (plotted_wavelengths data).
Proof.
  destruct data as [d|]; cbn [drawn plotted_wavelengths]; [|reflexivity].
  exists (np_unique d). split; [apply np_unique_sorted|]. split; [intros x; apply np_unique_In|].
  destruct (Nat.ltb_spec 8 (List.length (np_unique d))) as [L|L]; (split; [intros K; try lia; reflexivity|]); intros K; try lia.
  pose proof (np_unique_sorted d) as S. pose proof (fun x => np_unique_In x d) as U.
  destruct (np_unique d) as [|a u] eqn:E; [cbn in K; lia|]. exists a, (List.last (a :: u) 0). split; [apply U; left; reflexivity|].
  split; [apply U; apply last_In; discriminate|]. split.
  - intros x I. apply U in I. split; [|apply sorted_last_max; assumption].
    destruct I as [->|I]; [lra|]. inversion S as [|? ? ? F]; subst. rewrite Forall_forall in F. specialize (F x I). lra.
  - unfold linspace6. cbn [map seq hd]. set (b := List.last (a :: u) 0). cbn [INR]. repeat (f_equal; try (field)).
Qed.
Theorem plot_drawn ext s data reverse cs s' : plot_structure ext s data reverse = (Ok cs, s') ->
  exists ws, drawn data ws /\
  Forall2 (fun w c => ri_profile ext (set_wavelength (set_reverse s reverse) (Some w)) None 0 = Ok c) ws cs /\
  (ws <> [] -> st_wavelength s' = Some (List.last ws 0)).
Proof.
  intros H. destruct (plot_effects _ _ _ _ _ _ H) as (F & _ & _ & _ & _ & _ & _ & W).
  exists (plotted_wavelengths data). split; [apply plotted_drawn|]. split; [exact F|].
  intros N. rewrite W. destruct (plotted_wavelengths data); [contradiction|reflexivity].
Qed.

(** ** The wavelength after an evaluation *)
Theorem call_leaves sy m X st r st' : call_model sy m X st = (Ok r, st') -> X <> [] ->
  let a := mo_structure (the_model sy m) in
  st_store st' = st_store st /\ st_flips st' = st_flips st /\
  (forall b, b <> a -> nth b (st_wavelengths st') None = nth b (st_wavelengths st) None) /\
  ((a < List.length (st_wavelengths st))%nat ->
     exists w aoi, In (w, aoi) X /\ (forall w' a', In (w', a') X -> w' <= w) /\ nth a (st_wavelengths st') None = Some w).
Proof.
  intros H N a. unfold call_model in H. destruct (model _ _ _ _ _ _) as [r0 s] eqn:E. injection H as -> <-. cbn [st_store st_flips st_wavelengths].
  split; [reflexivity|]. split; [reflexivity|]. split.
  - intros b Hb. apply nth_update_ne. intros Q. apply Hb. symmetry. exact Q.
  - intros L. destruct (model_leaves _ _ _ _ _ _ _ _ E) as [_ M]. destruct (M N) as (w & aoi & I1 & I2 & ->). exists w, aoi. split; [exact I1|]. split; [exact I2|].
    fold a. rewrite nth_update_same. destruct (nth_error (st_wavelengths st) a) eqn:Q; [reflexivity|]. apply nth_error_None in Q. lia.
Qed.
Lemma drawn_nine : exists ws, drawn (Some (map INR (seq 1 9))) ws /\ List.length ws = 6%nat.
Proof.
  eexists. split.
  - exists (map INR (seq 1 9)). split; [|split; [reflexivity|split; [intros K; cbn in K; lia|]]].
    + cbn [seq map INR]. repeat (constructor; [|repeat constructor; lra]). constructor.
    + intros _. exists (INR 1), (INR 9). split; [apply in_map, in_seq; lia|]. split; [apply in_map, in_seq; lia|]. split; [|reflexivity].
      intros x I1. apply in_map_iff in I1 as (k & <- & I1). apply in_seq in I1. split; apply le_INR; lia.
  - reflexivity.
Qed.
