(** * Lemmas: the admittance method and the code *)

Require Import Reals Lra Lia Psatz List.
From Coquelicot Require Import Coquelicot.
Require Import List.
From Verif Require Import Base Cplx M_tmm Spec_optics Spec_admit P_tmm2 P_tmm3 P_psidelta P_film P_examples P_admit.
Import ListNotations.
Open Scope R_scope.
Open Scope C_scope.

Lemma stack_regular n0 inner nN s lam front ms back (c : R) :
  physical_stack n0 inner nN s lam front ms back -> cosine front = RtoC c -> c <> 0%R ->
  Forall (fun m => cosine m <> 0) ms ->
  regular_medium front /\ idx back <> 0 /\ Forall regular_medium ms.
Proof.
  intros (P1 & P2 & P3 & P4 & P5) E N F. split; [|split].
  - split; [apply P2|]. rewrite E. intros Z. apply RtoC_inj in Z. auto.
  - apply P5.
  - clear - P3 F. induction P3 as [|nd m l l' H H' IH]; auto. inversion F; subst. constructor; auto.
    destruct H as (_ & [H1 _] & _). split; auto.
Qed.

Theorem code_admittance p n0 inner nN dA dB th0 lam a r t front ms back :
  let s := n0 * RtoC (sin th0) in
  coh_tmm (ns n0 inner nN) (ds dA inner dB) [(th0, lam)] = Ok [a] ->
  amp p a = Some (r, t) ->
  physical_stack n0 inner nN s lam front ms back ->
  cosine front = RtoC (Rabs (cos th0)) -> cos th0 <> 0%R ->
  (0 <= Re (cosine back))%R -> ~ total_reflection s nN ->
  Forall (fun m => cosine m <> 0 /\ (Rabs (Im (phase m)) <= 35)%R) ms ->
  let B := fst (loaded p ms back) in
  let D := snd (loaded p ms back) in
  let y0 := admittance p front in
  y0 * B + D <> 0 /\
  r = (y0 * B - D) / (y0 * B + D) /\
  t = 2 * y0 * unit_field p front / (unit_field p back * (y0 * B + D)).
Proof.
  intros s H A PS CF C0 CB NT F.
  assert (F1 : Forall (fun m => cosine m <> 0) ms) by (eapply Forall_impl; [|exact F]; cbv beta; tauto).
  assert (F2 : Forall (fun m => (Rabs (Im (phase m)) <= 35)%R) ms) by (eapply Forall_impl; [|exact F]; cbv beta; tauto).
  destruct (stack_regular _ _ _ _ _ _ _ _ _ PS CF (Rabs_no_R0 _ C0) F1) as (R1 & R2 & R3).
  apply waves_admittance; auto. apply (coh_tmm_solves p _ _ _ _ _ _ _ _ _ _ _ _ _ H A PS CF CB NT F2). auto.
Qed.

Theorem code_absentee p n0 inner1 nL dL inner2 nN dA dB dA' dB' th0 lam a r t a' r' t' front ms1 m ms2 back :
  let s := n0 * RtoC (sin th0) in
  coh_tmm (ns n0 (inner1 ++ (nL, dL) :: inner2) nN) (ds dA (inner1 ++ (nL, dL) :: inner2) dB) [(th0, lam)] = Ok [a] ->
  coh_tmm (ns n0 (inner1 ++ inner2) nN) (ds dA' (inner1 ++ inner2) dB') [(th0, lam)] = Ok [a'] ->
  amp p a = Some (r, t) -> amp p a' = Some (r', t') ->
  physical_stack n0 (inner1 ++ (nL, dL) :: inner2) nN s lam front (ms1 ++ m :: ms2) back ->
  length ms1 = length inner1 ->
  cosine front = RtoC (Rabs (cos th0)) -> cos th0 <> 0%R ->
  (0 <= Re (cosine back))%R -> ~ total_reflection s nN ->
  Forall (fun m => cosine m <> 0 /\ (Rabs (Im (phase m)) <= 35)%R) (ms1 ++ m :: ms2) ->
  half_wave m ->
  r = r' /\ (t = t' \/ t = - t').
Proof.
  intros s H H' A A' PS LE CF C0 CB NT F HW.
  assert (F1 : Forall (fun m => cosine m <> 0) (ms1 ++ m :: ms2)) by (eapply Forall_impl; [|exact F]; cbv beta; tauto).
  assert (F2 : Forall (fun m => (Rabs (Im (phase m)) <= 35)%R) (ms1 ++ m :: ms2)) by (eapply Forall_impl; [|exact F]; cbv beta; tauto).
  destruct (stack_regular _ _ _ _ _ _ _ _ _ PS CF (Rabs_no_R0 _ C0) F1) as (R1 & R2 & R3).
  assert (PS' : physical_stack n0 (inner1 ++ inner2) nN s lam front (ms1 ++ ms2) back).
  { destruct PS as (P1 & P2 & P3 & P4 & P5). split; [exact P1|]. split; [exact P2|]. split; [|split; auto].
    apply Forall2_app_inv_l in P3 as (u1 & u2 & U1 & U2 & E).
    inversion U2 as [|? mm ? uu V1 V2]; subst.
    assert (L1 : length u1 = length ms1).
    { rewrite LE. clear - U1. induction U1; simpl; auto. }
    assert (Q : ms1 = u1 /\ m :: ms2 = mm :: uu).
    { clear - E L1. revert u1 E L1. induction ms1 as [|x ms1 IH]; intros [|y u1] E L1; simpl in L1; try discriminate; auto.
      simpl in E. injection E as E1 E2. destruct (IH u1 E2) as [I1 I2]; [lia|]. split; auto. congruence. }
    destruct Q as [-> Q]. injection Q as -> ->. apply Forall2_app; auto. }
  assert (F2' : Forall (fun m => (Rabs (Im (phase m)) <= 35)%R) (ms1 ++ ms2)).
  { apply Forall_app in F2 as [G1 G2]. inversion G2; subst. apply Forall_app; auto. }
  apply (waves_absentee p front ms1 m ms2 back); auto.
  - apply (coh_tmm_solves p _ _ _ _ _ _ _ _ _ _ _ _ _ H A PS CF CB NT F2). auto.
  - apply (coh_tmm_solves p _ _ _ _ _ _ _ _ _ _ _ _ _ H' A' PS' CF CB NT F2'). auto.
Qed.

(** ** Mirrors *)
Definition glass (s w n d : R) : medium :=
  mkMedium (RtoC n) (RtoC (normal s n / n)) (RtoC (2 * PI * normal s n * d / w)).

Lemma normal_pos s n : (s * s < n * n)%R -> (0 < normal s n)%R.
Proof. intros H. apply sqrt_lt_R0. lra. Qed.
Lemma normal_sq s n : (s * s < n * n)%R -> (normal s n * normal s n = n * n - s * s)%R.
Proof. intros H. apply sqrt_sqrt. lra. Qed.

Lemma glass_snell s w n d : (0 < n)%R -> (s * s < n * n)%R -> snell (RtoC s) (glass s w n d).
Proof.
  intros Hn Hs. split; cbn [idx cosine glass]; [intros Z; apply RtoC_inj in Z; lra|].
  rewrite <- RtoC_div by lra. rewrite <- !RtoC_mult, <- RtoC_minus. f_equal.
  replace (normal s n / n * (normal s n / n))%R with (normal s n * normal s n / (n * n))%R by (field; lra).
  rewrite normal_sq by auto. field. lra.
Qed.
Lemma glass_ok s w n d : (0 < n)%R -> (0 < w)%R -> (s * s < n * n)%R -> layer_ok (RtoC s) w (RtoC n, d) (glass s w n d).
Proof.
  intros Hn Hw Hs. split; [reflexivity|]. split; [apply glass_snell; auto|].
  cbn [phase cosine glass fst snd]. rewrite <- !RtoC_mult, <- RtoC_div by lra. f_equal. field. lra.
Qed.

Lemma glass_quarter s w n d (j : nat) : (0 < w)%R -> (4 * normal s n * d = (2 * INR j + 1) * w)%R ->
  quarter_wave (glass s w n d).
Proof.
  intros Hw E. unfold quarter_wave, glass. cbn [phase].
  replace (2 * PI * normal s n * d / w)%R with (PI / 2 + INR j * PI)%R.
  2:{ transitivity (PI / 2 * (4 * normal s n * d) / w)%R; [rewrite E; field; lra|field; lra]. }
  unfold ccos. cbn [Re Im fst snd RtoC]. rewrite cosh_0, sinh_0.
  assert (Z : cos (PI / 2 + INR j * PI) = 0%R).
  { rewrite cos_plus, cos_PI2. replace (sin (INR j * PI)) with 0%R; [ring|]. symmetry.
    apply sin_eq_0_1. exists (Z.of_nat j). rewrite <- INR_IZR_INZ. ring. }
  rewrite Z. apply C_eq; simpl; ring.
Qed.

Lemma glass_admittance p s w n d : (0 < n)%R ->
  admittance p (glass s w n d) = RtoC (match p with pS => normal s n | pP => normal s n / (n * n) end).
Proof.
  intros Hn. destruct p; unfold admittance, glass; cbn [idx cosine].
  - rewrite <- RtoC_mult. f_equal. field. lra.
  - rewrite <- RtoC_div by lra. f_equal. field. lra.
Qed.

Lemma cpow_R (x : R) n : cpow (RtoC x) n = RtoC (x ^ n).
Proof. induction n as [|n IH]; cbn [cpow pow]; auto. rewrite IH, <- RtoC_mult. reflexivity. Qed.

Lemma y_pos p s n : (0 < n)%R -> (s * s < n * n)%R -> (0 < tilted p s n)%R.
Proof.
  intros Hn Hs. pose proof (normal_pos s n Hs). destruct p; unfold tilted; auto.
  apply Rdiv_lt_0_compat; auto. nra.
Qed.

Lemma nm_periods N nH dH rH nL dL rL :
  nm (periods N nH dH rH nL dL rL) = concat (repeat [(RtoC nH, (dH / 10)%R); (RtoC nL, (dL / 10)%R)] N).
Proof.
  unfold nm, periods. rewrite concat_map. f_equal. induction N as [|N IH]; cbn [repeat map]; auto. rewrite IH. reflexivity.
Qed.

Lemma F_periods {A} (P : A -> Prop) x y N : P x -> P y -> Forall P (concat (repeat [x; y] N)).
Proof. intros H1 H2. induction N as [|N IH]; cbn [repeat concat app]; auto. Qed.
Lemma F2_periods {A B} (P : A -> B -> Prop) x y x' y' N : P x x' -> P y y' ->
  Forall2 P (concat (repeat [x; y] N)) (concat (repeat [x'; y'] N)).
Proof. intros H1 H2. induction N as [|N IH]; cbn [repeat concat app]; auto. Qed.

Lemma sq_abs (s n : R) : (0 < n)%R -> (s * s < n * n)%R -> (Rabs s <= n)%R.
Proof. intros Hn H. apply Rabs_le. split; nra. Qed.

Lemma quarter_thick s n d w j : (s * s < n * n)%R -> (0 < w)%R -> (4 * normal s n * (d / 10) = (2 * INR j + 1) * w)%R -> (0 <= d / 10)%R.
Proof.
  intros Hs Hw E. pose proof (normal_pos s n Hs) as Q. pose proof (pos_INR j) as J.
  assert (X : (0 < 4 * normal s n * (d / 10))%R) by (rewrite E; apply Rmult_lt_0_compat; lra).
  destruct (Rle_or_lt 0 (d / 10)) as [G|G]; auto. exfalso. nra.
Qed.

Theorem mirror_amplitudes n0 nH dH rH nL dL rL nB aoi w N :
  quarter_mirror n0 nH dH nL dL nB aoi w ->
  let s := (n0 * sin (rad aoi))%R in
  exists ts tp,
  coh_tmm (ns (RtoC n0) (nm (periods N nH dH rH nL dL rL)) (RtoC nB))
          (ds PInf (nm (periods N nH dH rH nL dL rL)) PInf) [(rad aoi, w)] =
  Ok [mkAmp (Some (RtoC (mismatch (tilted pS s n0) (mirror_admittance pS s nH nL nB N)), ts))
            (Some (RtoC (mismatch (tilted pP s n0) (mirror_admittance pP s nH nL nB N)), tp))].
Proof.
  intros ((H0 & HH & HL & HB & Hw) & HC & (SH & SL & SB) & (jH & QH) & (jL & QL)) s.
  fold s in SH, SL, SB, QH, QL.
  assert (S0 : (s * s < n0 * n0)%R).
  { unfold s. pose proof (sin2_cos2 (rad aoi)) as K. unfold Rsqr in K.
    assert (0 < cos (rad aoi) * cos (rad aoi))%R by nra.
    replace (n0 * sin (rad aoi) * (n0 * sin (rad aoi)))%R with (n0 * n0 * (sin (rad aoi) * sin (rad aoi)))%R by ring.
    assert (0 < n0 * n0)%R by nra. nra. }
  rewrite nm_periods.
  set (inner := concat (repeat [(RtoC nH, (dH / 10)%R); (RtoC nL, (dL / 10)%R)] N)).
  assert (PF : passive_film s w inner (RtoC nB)).
  { split; [|split].
    - apply F_periods; apply film_layer_transparent; auto; cbn [Re Im fst snd RtoC]; try (split; simpl; lra);
        try (apply sq_abs; auto);
        [exact (quarter_thick s nH dH w jH SH Hw QH)|exact (quarter_thick s nL dL w jL SL Hw QL)].
    - apply F_periods; cbn [fst]; apply not_crit_gt; simpl; lra.
    - split; simpl; lra. }
  destruct (passive_defined' pS n0 inner (RtoC nB) PInf PInf (rad aoi) w H0 Hw HC PF) as (a & rs & ts & HE & A1).
  destruct (passive_defined' pP n0 inner (RtoC nB) PInf PInf (rad aoi) w H0 Hw HC PF) as (a' & rp & tp & HE' & A2).
  assert (a' = a) by congruence. subst a'.
  set (mH := glass s w nH (dH / 10)). set (mL := glass s w nL (dL / 10)).
  set (ms := concat (repeat [mH; mL] N)).
  set (back := glass s w nB 0). set (front := glass s w n0 0).
  assert (Es : RtoC n0 * RtoC (sin (rad aoi)) = RtoC s) by (rewrite <- RtoC_mult; reflexivity).
  assert (PS : physical_stack (RtoC n0) inner (RtoC nB) (RtoC n0 * RtoC (sin (rad aoi))) w front ms back).
  { rewrite Es. split; [reflexivity|]. split; [apply glass_snell; auto|].
    split; [apply F2_periods; apply glass_ok; auto|]. split; [reflexivity|apply glass_snell; auto]. }
  assert (CF : cosine front = RtoC (Rabs (cos (rad aoi)))).
  { unfold front, glass. cbn [cosine]. f_equal. unfold normal.
    replace (n0 * n0 - s * s)%R with ((n0 * Rabs (cos (rad aoi))) * (n0 * Rabs (cos (rad aoi))))%R.
    - rewrite sqrt_square; [field; lra|]. apply Rmult_le_pos; [lra|apply Rabs_pos].
    - replace (n0 * Rabs (cos (rad aoi)) * (n0 * Rabs (cos (rad aoi))))%R with
        (n0 * n0 * (Rabs (cos (rad aoi)) * Rabs (cos (rad aoi))))%R by ring.
      rewrite <- Rabs_mult, Rabs_right by nra. pose proof (sin2_cos2 (rad aoi)) as K. unfold Rsqr in K.
      unfold s. replace (cos (rad aoi) * cos (rad aoi))%R with (1 - sin (rad aoi) * sin (rad aoi))%R by lra. ring. }
  assert (CB : (0 <= Re (cosine back))%R).
  { unfold back, glass. cbn [cosine Re fst RtoC]. apply Rlt_le, Rdiv_lt_0_compat; auto. apply normal_pos; auto. }
  assert (NT : ~ total_reflection (RtoC n0 * RtoC (sin (rad aoi))) (RtoC nB)).
  { rewrite Es. apply no_TIR; auto. apply sq_abs; auto. }
  assert (RG : forall n d, (0 < n)%R -> (s * s < n * n)%R -> regular_medium (glass s w n d)).
  { intros n d G1 G2. split; unfold glass; cbn [idx cosine]; intros Z; apply RtoC_inj in Z; [lra|].
    pose proof (Rdiv_lt_0_compat _ _ (normal_pos s n G2) G1). lra. }
  assert (FB : Forall (fun m => (Rabs (Im (phase m)) <= 35)%R) ms).
  { apply F_periods; cbn [mH mL glass phase Im snd RtoC]; rewrite Rabs_R0; lra. }
  assert (GEN : forall p r t, amp p a = Some (r, t) ->
    r = RtoC (mismatch (tilted p s n0) (mirror_admittance p s nH nL nB N))).
  { intros p r t A.
    assert (W : reflection_problem p front (ms ++ [back]) r t).
    { apply (coh_tmm_solves p _ _ _ _ _ _ _ _ _ _ _ _ _ HE A PS CF CB NT FB). auto. }
    destruct (waves_mirror p front mH mL back N r t (RG _ _ H0 S0) (proj1 (RG _ _ HB SB)) (RG _ _ HH SH) (RG _ _ HL SL)
      (glass_quarter _ _ _ _ jH Hw QH) (glass_quarter _ _ _ _ jL Hw QL) W) as [_ Er].
    unfold mH, mL, back, front in Er. rewrite !glass_admittance in Er by auto.
    change (match p with pS => normal s n0 | pP => (normal s n0 / (n0 * n0))%R end) with (tilted p s n0) in Er.
    change (match p with pS => normal s nH | pP => (normal s nH / (nH * nH))%R end) with (tilted p s nH) in Er.
    change (match p with pS => normal s nL | pP => (normal s nL / (nL * nL))%R end) with (tilted p s nL) in Er.
    change (match p with pS => normal s nB | pP => (normal s nB / (nB * nB))%R end) with (tilted p s nB) in Er.
    pose proof (y_pos p s n0 H0 S0) as Y0. pose proof (y_pos p s nH HH SH) as YH.
    pose proof (y_pos p s nL HL SL) as YL. pose proof (y_pos p s nB HB SB) as YB.
    rewrite <- !RtoC_mult, <- RtoC_div in Er by (apply Rmult_integral_contrapositive; split; lra).
    rewrite cpow_R, <- !RtoC_mult in Er.
    replace ((tilted p s nH * tilted p s nH / (tilted p s nL * tilted p s nL)) ^ N * tilted p s nB)%R
      with (mirror_admittance p s nH nL nB N) in Er.
    2:{ unfold mirror_admittance. rewrite pow_mult. f_equal. f_equal. field. lra. }
    assert (YM : (0 < mirror_admittance p s nH nL nB N)%R).
    { unfold mirror_admittance. apply Rmult_lt_0_compat; auto. apply pow_lt. apply Rdiv_lt_0_compat; auto. }
    rewrite <- RtoC_plus, <- RtoC_minus, <- RtoC_div in Er by lra. exact Er. }
  exists ts, tp. rewrite HE. destruct a as [as_ ap]. cbn [amp amp_s amp_p] in *.
  pose proof (GEN pS _ _ A1) as E1. pose proof (GEN pP _ _ A2) as E2. subst as_ ap. rewrite <- E1, <- E2. reflexivity.
Qed.
