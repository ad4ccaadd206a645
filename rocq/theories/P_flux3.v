(** * Passive stacks: every division performed by coh_tmm is by a non-zero number. *)

Require Import Reals.
From Coquelicot Require Import Rcomplements Complex.
Require Import List Bool Arith Lra Lia Psatz.
From Verif Require Import Base Cplx M_tmm Spec_optics P_tmm P_tmm2 P_tmm3 P_tmm4 P_flux P_flux2.
Import ListNotations.
Open Scope R_scope.
Open Scope C_scope.

Lemma ccos_carcsin_cut_neg x : (x < -1)%R -> ccos (carcsin (RtoC x)) = (0, sqrt (x * x - 1))%R.
Proof.
  intros H.
  assert (M1 : Cmod (RtoC x + 1) = (- x - 1)%R).
  { rewrite <- RtoC_plus, Cmod_R, Rabs_left; lra. }
  assert (M2 : Cmod (RtoC x - 1) = (1 - x)%R).
  { rewrite <- RtoC_minus, Cmod_R, Rabs_left; lra. }
  unfold ccos. rewrite sin_a, cos_a, sinh_b, cosh_b. rewrite M1, M2.
  unfold sgnp. simpl Im. destruct (Rle_dec 0 0); [|lra].
  replace ((- x - 1 - (1 - x)) / 2)%R with (-1)%R by field.
  replace ((- x - 1 + (1 - x)) / 2)%R with (- x)%R by field.
  replace (1 - -1 * -1)%R with 0%R by ring. rewrite sqrt_0.
  apply C_eq; cbn [Re Im fst snd]; [ring|].
  replace ((- x) ^ 2 - 1)%R with (x * x - 1)%R by ring. ring.
Qed.

(** classification of the code's cosine *)
Lemma cos_class (s : R) (n : C) : passive n ->
  ((0 < Re (n * code_cos s n)%C)%R /\ (0 < Re (Cconj n * code_cos s n)%C)%R) \/
  (Im n = 0%R /\ exists y, code_cos s n = (0, y)%R /\ s <> 0%R /\
     ((0 < s)%R -> (y <= 0)%R) /\ ((s < 0)%R -> (0 <= y)%R)).
Proof.
  intros Hp. pose proof Hp as [Ha [Hb|Hb]].
  - left. split; [apply strict_S|apply strict_P]; auto.
  - symmetry in Hb.
    assert (En : n = RtoC (Re n)) by (destruct n; simpl in *; subst; reflexivity).
    destruct (Rlt_dec (Rabs s) (Re n)) as [T|T].
    + left. destruct (transp_below s n Hp Hb T) as [-> P].
      set (c := sqrt _) in *. rewrite En. simpl.
      assert (0 < Re n * c)%R by (apply Rmult_lt_0_compat; auto). split; lra.
    + right. split; auto. apply Rnot_lt_le in T.
      destruct (Req_EM_T (Rabs s) (Re n)) as [E|E].
      * assert (S2 : (s * s = Re n * Re n)%R).
        { rewrite <- E. rewrite <- Rabs_mult. symmetry. apply Rabs_right. apply Rle_ge, Rle_0_sqr. }
        exists 0%R. split; [|split; [|split; intros; lra]].
        -- assert (Z : code_cos s n * code_cos s n = 0).
           { rewrite code_cos_sq. assert (RtoC (Re n) <> 0) by (intros X; apply RtoC_inj in X; lra).
             rewrite En. replace (1 - RtoC s / RtoC (Re n) * (RtoC s / RtoC (Re n))) with
               ((RtoC (Re n) * RtoC (Re n) - RtoC s * RtoC s) / (RtoC (Re n) * RtoC (Re n))) by (field; auto).
             rewrite <- !RtoC_mult, S2. field. rewrite RtoC_mult. apply Cmult_neq_0; auto. }
           apply Cmult_integral in Z. destruct Z as [-> | ->]; reflexivity.
        -- intros ->. rewrite Rabs_R0 in E. lra.
      * assert (T' : (Re n < Rabs s)%R) by lra. clear E T.
        destruct (Rlt_dec 0 s) as [P|P].
        -- rewrite Rabs_right in T' by lra.
           destruct (transp_above s n Hp Hb T') as (k & Hk & ->).
           exists (- k)%R. repeat split; intros; lra.
        -- rewrite Rabs_left1 in T' by lra.
           exists (sqrt (s / Re n * (s / Re n) - 1)). repeat split; try lra.
           ++ unfold code_cos. rewrite En. rewrite <- RtoC_div by lra. simpl Re.
              apply ccos_carcsin_cut_neg.
              apply Rmult_lt_reg_r with (Re n); auto. unfold Rdiv. rewrite Rmult_assoc, Rinv_l by lra. lra.
           ++ intros _. apply sqrt_pos.
Qed.

Lemma class_nonneg (s : R) (n : C) : passive n ->
  (0 <= Re (n * code_cos s n)%C)%R /\ (0 <= Re (Cconj n * code_cos s n)%C)%R.
Proof.
  intros Hp. destruct (cos_class s n Hp) as [[A B]|(I & y & -> & _)]; [lra|].
  destruct n as [a b]; simpl in *. subst. split; lra.
Qed.

Lemma fden_nz p (s : R) (n n' : C) d d' : passive n -> passive n' -> n * code_cos s n <> 0 ->
  fden p (mkMedium n (code_cos s n) d) (mkMedium n' (code_cos s n') d') <> 0.
Proof.
  intros Hp Hp' R E.
  destruct (class_nonneg s n Hp) as [Q K]. destruct (class_nonneg s n' Hp') as [Q' K'].
  destruct p; unfold fden in E; cbn [idx cosine] in E.
  - pose proof (f_equal Re E) as E1.
    assert (E1' : (Re (n * code_cos s n)%C + Re (n' * code_cos s n')%C = 0)%R) by exact E1. clear E1.
    destruct (cos_class s n Hp) as [[A _]|(I & y & EC & S & Y1 & Y2)]; [lra|].
    destruct (cos_class s n' Hp') as [[A _]|(I' & y' & EC' & _ & Y1' & Y2')]; [lra|].
    rewrite EC, EC' in E. rewrite EC in R.
    destruct n as [a b], n' as [a' b']; destruct Hp as [Ha _], Hp' as [Ha' _]; simpl in *. subst b b'.
    pose proof (f_equal Im E) as E2. simpl in E2.
    assert (y <> 0%R).
    { intros ->. apply R. apply C_eq; simpl; ring. }
    destruct (Rlt_dec 0 s); [specialize (Y1 r); specialize (Y1' r)|assert (s < 0)%R by lra; specialize (Y2 H0); specialize (Y2' H0)].
    + assert (a * y < 0)%R by nra. assert (a' * y' <= 0)%R by nra. lra.
    + assert (0 < a * y)%R by nra. assert (0 <= a' * y')%R by nra. lra.
  - assert (E1 : ((Re n' * Re n' + Im n' * Im n') * Re (Cconj n * code_cos s n)%C +
       (Re n * Re n + Im n * Im n) * Re (Cconj n' * code_cos s n')%C = 0)%R).
    { transitivity (Re (Cconj n * Cconj n' * (n' * code_cos s n + n * code_cos s n'))%C).
      - destruct n as [a b], n' as [a' b'], (code_cos s (a, b)), (code_cos s (a', b')). simpl. ring.
      - rewrite E. simpl. ring. }
    assert (N : (0 < Re n * Re n + Im n * Im n)%R) by (destruct Hp; nra).
    assert (N' : (0 < Re n' * Re n' + Im n' * Im n')%R) by (destruct Hp'; nra).
    set (k := Re (Cconj n * code_cos s n)) in *. set (k' := Re (Cconj n' * code_cos s n')) in *.
    assert (0 <= (Re n' * Re n' + Im n' * Im n') * k)%R by (apply Rmult_le_pos; lra).
    assert (0 <= (Re n * Re n + Im n * Im n) * k')%R by (apply Rmult_le_pos; lra).
    destruct (cos_class s n Hp) as [[_ A]|(I & y & EC & S & Y1 & Y2)].
    { fold k in A. assert (0 < (Re n' * Re n' + Im n' * Im n') * k)%R by (apply Rmult_lt_0_compat; lra). lra. }
    destruct (cos_class s n' Hp') as [[_ A]|(I' & y' & EC' & _ & Y1' & Y2')].
    { fold k' in A. assert (0 < (Re n * Re n + Im n * Im n) * k')%R by (apply Rmult_lt_0_compat; lra). lra. }
    clear E1 H H0 N N'. subst k k'. clear K K' Q Q'.
    rewrite EC, EC' in E. rewrite EC in R.
    destruct n as [a b], n' as [a' b']; destruct Hp as [Ha _], Hp' as [Ha' _]; simpl in *. subst b b'.
    pose proof (f_equal Im E) as E2. simpl in E2.
    assert (y <> 0%R).
    { intros ->. apply R. apply C_eq; simpl; ring. }
    destruct (Rlt_dec 0 s); [specialize (Y1 r); specialize (Y1' r)|assert (s < 0)%R by lra; specialize (Y2 H0); specialize (Y2' H0)].
    + assert (a' * y < 0)%R by nra. assert (a * y' <= 0)%R by nra. lra.
    + assert (0 < a' * y)%R by nra. assert (0 <= a * y')%R by nra. lra.
Qed.

Lemma regular_nc (s : R) (n : C) : passive n -> not_critical s n -> n * code_cos s n <> 0.
Proof.
  intros Hp NC E. apply NC.
  assert (n <> 0) by (apply passive_nz; auto).
  assert (code_cos s n = 0).
  { apply Cmult_integral in E. destruct E; [contradiction|auto]. }
  pose proof (code_cos_sq s n) as X. rewrite H0 in X.
  transitivity (n * n * (1 - RtoC s / n * (RtoC s / n)) + RtoC s * RtoC s); [field; auto|].
  rewrite <- X. ring.
Qed.

Lemma good_passive p (s lam : R) inner nN : passive nN ->
  Forall (fun nd => passive (fst nd) /\ not_critical s (fst nd)) inner ->
  forall n ph, passive n -> n * code_cos s n <> 0 ->
  good p (mkMedium n (code_cos s n) ph) (code_rest s lam true inner nN).
Proof.
  intros HN. induction 1 as [|[n' d] inner [Hp Hc] F IH]; intros n ph Hn R.
  - unfold code_rest. simpl. split; [exact R|]. split; [|exact I].
    apply fden_nz; auto.
  - change (code_rest s lam true ((n', d) :: inner) nN) with
      (code_layer s lam true (n', d) :: code_rest s lam true inner nN).
    cbn [good]. split; [exact R|]. split.
    + unfold code_layer. cbn [fst snd]. apply fden_nz; auto.
    + unfold code_layer. cbn [fst snd]. apply IH; auto. apply regular_nc; auto.
Qed.

Lemma waves_zero p rest : forall m t, all_regular m rest -> Forall (fun m => idx m <> 0) rest ->
  waves p m 0 0 rest t -> t = 0.
Proof.
  induction rest as [|x rest IH]; intros m t R NZ W; [contradiction|].
  inversion NZ as [|? ? Hx NZ']; subst. destruct R as [R Rr].
  assert (T : tangential_1 p m 0 0 = 0 /\ tangential_2 p m 0 0 = 0).
  { unfold tangential_1, tangential_2. destruct p; split; ring. }
  destruct rest as [|y rest].
  - simpl in W. destruct W as [W _]. rewrite (proj1 T) in W. unfold tangential_1 in W.
    destruct p.
    + rewrite W. ring.
    + symmetry in W. apply Cmult_integral in W. destruct W as [W|W]; [contradiction|].
      rewrite <- W. ring.
  - destruct W as (f' & b' & [C1 C2] & W). rewrite (proj1 T) in C1. rewrite (proj2 T) in C2.
    assert (regular x) as Rx by (destruct rest; destruct Rr; auto).
    assert (f' + b' = 0 /\ f' - b' = 0) as [Z1 Z2].
    { pose proof (Cmult_neq_0_r _ _ Rx) as NC.
      unfold tangential_1, tangential_2 in C1, C2. destruct p; symmetry in C1, C2.
      - split; auto. apply Cmult_integral in C2. destruct C2; [contradiction|auto].
      - apply Cmult_integral in C1. apply Cmult_integral in C2.
        destruct C1; [contradiction|]. destruct C2; [contradiction|]. auto. }
    assert (f' = 0).
    { assert (2 * f' = 0) by (transitivity ((f' + b') + (f' - b')); [ring|rewrite Z1, Z2; ring]).
      apply Cmult_integral in H. destruct H; auto. exfalso; apply C2_neq_0; auto. }
    assert (b' = 0) by (rewrite H, Cplus_0_l in Z1; auto).
    subst f' b'. rewrite !Cmult_0_l in W. eapply IH; eauto.
Qed.

Theorem passive_defined p (n0 : R) inner nN dA dB th0 lam :
  (0 < n0)%R -> (0 < lam)%R -> cos th0 <> 0%R ->
  Forall (layer_fine (n0 * sin th0) lam) inner ->
  Forall (fun nd => not_critical (n0 * sin th0) (fst nd)) inner ->
  passive nN ->
  exists a r t, coh_tmm (ns (RtoC n0) inner nN) (ds dA inner dB) [(th0, lam)] = Ok [a] /\
    amp p a = Some (r, t).
Proof.
  intros H0 L HC F NC HN.
  rewrite coh_tmm_one_ok by apply n0_ok_real. rewrite <- tmm_point_clip.
  assert (P0 : passive (RtoC n0)) by (split; simpl; lra).
  assert (NZ : all_nonzero (RtoC n0) inner nN).
  { split; [apply passive_nz; auto|]. split; [|apply passive_nz; auto].
    eapply Forall_impl; [|exact F]. intros nd (Hp & _). apply passive_nz; auto. }
  set (s := (n0 * sin th0)%R) in *.
  assert (Es : RtoC n0 * RtoC (sin th0) = RtoC s) by (unfold s; rewrite RtoC_mult; auto).
  assert (C0 : code_cos s (RtoC n0) = RtoC (Rabs (cos th0))).
  { rewrite <- Es. apply code_cos_front. apply NZ. }
  assert (R0 : RtoC n0 * code_cos s (RtoC n0) <> 0).
  { rewrite C0. apply Cmult_neq_0; [apply NZ|]. intros X. apply RtoC_inj in X.
    apply Rabs_no_R0 in HC. contradiction. }
  assert (G : good p (code_end s (RtoC n0)) (code_rest s lam true inner nN)).
  { apply good_passive; auto. rewrite Forall_forall in *. intros nd Hnd. split; auto.
    apply (F nd Hnd). }
  pose proof (good_regular _ _ _ G) as RG.
  set (T := tm p (code_end s (RtoC n0)) (code_rest s lam true inner nN)).
  assert (M : m00 T <> 0).
  { intros Z.
    assert (W : waves p (code_end s (RtoC n0)) (m00 T) (m10 T) (code_rest s lam true inner nN) 1).
    { apply waves_tm; [apply rest_nonempty|exact RG|]. unfold T. split; ring. }
    assert (FL : (flux p (code_end s nN) 1 0 <= flux p (code_end s (RtoC n0)) (m00 T) (m10 T))%R)
      by (eapply stack_flux; eauto).
    assert (FB : (0 <= flux p (code_end s nN) 1 0)%R).
    { rewrite flux_forward. cbn [idx cosine code_end]. rewrite Cmod_1.
      destruct (class_nonneg s nN HN) as [A B].
      destruct p; unfold kappa; lra. }
    rewrite Z in FL. rewrite (flux_front p (code_end s (RtoC n0))) in FL; [|reflexivity|cbn [code_end cosine]; rewrite C0; reflexivity].
    cbn [code_end idx cosine] in FL. rewrite C0, Cmod_0 in FL. simpl in FL.
    assert (K : (0 < n0 * Rabs (cos th0))%R) by (apply Rmult_lt_0_compat; auto; apply Rabs_pos_lt; auto).
    pose proof (Cmod_ge_0 (m10 T)) as M1.
    assert (M0 : Cmod (m10 T) = 0%R).
    { assert (Cmod (m10 T) * Cmod (m10 T) <= 0)%R.
      { apply Rmult_le_reg_l with (n0 * Rabs (cos th0))%R; auto. lra. }
      nra. }
    apply Cmod_eq_0 in M0. rewrite Z, M0 in W.
    apply waves_zero in W; [exfalso; apply C1_neq_0; auto|exact RG|].
    unfold code_rest. apply Forall_app. split.
    - rewrite Forall_map. destruct NZ as (_ & NZ & _). eapply Forall_impl; [|exact NZ]. auto.
    - constructor; [apply NZ|constructor]. }
  eexists _, (m10 T / m00 T), (1 / m00 T). split; [reflexivity|].
  apply tmm_point_iff. rewrite Es. repeat split; auto; try apply NZ. intros _; lra.
Qed.
