(** * Lemmas: coatings of quarter-wave layers *)

Require Import Reals Lra Lia Psatz List.
From Coquelicot Require Import Coquelicot.
Require Import List.
From Verif Require Import Base Cplx M_tmm Spec_optics Spec_admit Spec_coating P_tmm P_tmm2 P_tmm3 P_psidelta P_psidelta2 P_film P_examples P_admit P_admit2 P_admit3 P_admit4.
Import ListNotations.
Open Scope R_scope.

Definition lmed (s w : R) (l : R * R * R) : medium := glass s w (fst (fst l)) (snd (fst l) / 10).

Lemma nm_coat layers : nm (coat_rows layers) = map (fun l => (RtoC (fst (fst l)), snd (fst l) / 10)) layers.
Proof. unfold nm, coat_rows. rewrite map_map. reflexivity. Qed.

Lemma coated_pos p s w layers nB : 0 < nB -> s * s < nB * nB -> Forall (quarter_layer s w) layers -> 0 < coated p s layers nB.
Proof.
  intros HB SB F. induction F as [|((n, d), r) ls (Hn & Sn & _) F IH]; cbn [coated fold_right].
  - apply y_pos; auto.
  - pose proof (y_pos p s n Hn Sn). fold (coated p s ls nB). cbn [fst snd]. apply Rdiv_lt_0_compat; auto. nra.
Qed.

Lemma quarter_sin m : quarter_wave m -> csin (phase m) <> RtoC 0.
Proof.
  unfold quarter_wave. intros Q Z. pose proof (csin2_ccos2 (phase m)) as K. rewrite Q, Z in K.
  apply (f_equal Re) in K. simpl in K. lra.
Qed.

Lemma loaded_coated p s w layers nB : 0 < w -> 0 < nB -> s * s < nB * nB -> Forall (quarter_layer s w) layers ->
  let BD := loaded p (map (lmed s w) layers) (glass s w nB 0) in
  fst BD <> RtoC 0 /\ snd BD = (RtoC (coated p s layers nB) * fst BD)%C.
Proof.
  intros Hw HB SB F. induction F as [|((n, d), r) ls Q F IH]; cbn [map loaded coated fold_right].
  - cbn [fst snd]. split; [apply C1_neq_0|]. rewrite glass_admittance by auto.
    destruct p; unfold tilted; ring.
  - fold (loaded p (map (lmed s w) ls) (glass s w nB 0)). fold (coated p s ls nB).
    destruct Q as (Hn & Sn & j & E).
    pose proof (coated_pos p s w ls nB HB SB F) as Y. pose proof (y_pos p s n Hn Sn) as T.
    cbv zeta in IH. destruct (loaded p (map (lmed s w) ls) (glass s w nB 0)) as [B D]. cbn [fst snd] in IH. destruct IH as [I1 I2].
    unfold through, lmed. cbn [fst snd].
    pose proof (glass_quarter s w n (d / 10) j Hw E) as QW. pose proof (quarter_sin _ QW) as SN. unfold quarter_wave in QW. rewrite QW.
    assert (A : admittance p (glass s w n (d / 10)) = RtoC (tilted p s n)) by (rewrite glass_admittance by auto; destruct p; reflexivity).
    rewrite A, I2.
    set (z := csin (phase (glass s w n (d / 10)))) in *. clearbody z.
    set (y := tilted p s n) in *. set (Yb := coated p s ls nB) in *. clearbody y Yb.
    assert (Ny : RtoC y <> RtoC 0) by (intros X; apply RtoC_inj in X; lra).
    assert (NY : RtoC Yb <> RtoC 0) by (intros X; apply RtoC_inj in X; lra).
    split.
    + intros X. assert (X' : (Ci * z * (RtoC Yb * B) / RtoC y = RtoC 0)%C).
      { transitivity (- (RtoC 0 * B - Ci * z / RtoC y * (RtoC Yb * B)))%C; [field; auto|]. rewrite X. ring. }
      revert X'. unfold Cdiv. repeat apply Cmult_neq_0; auto.
      * intros X'. apply (f_equal Im) in X'. simpl in X'. lra.
      * intros X'. apply C1_neq_0. rewrite <- (Cinv_r (RtoC y)) by auto. rewrite X'. ring.
    + rewrite RtoC_div, RtoC_mult by lra. field. auto.
Qed.

Theorem coating_amplitudes n0 layers nB aoi w :
  quarter_coating n0 layers nB aoi w ->
  exists ts tp,
  coh_tmm (ns (RtoC n0) (nm (coat_rows layers)) (RtoC nB)) (ds PInf (nm (coat_rows layers)) PInf) [(rad aoi, w)] =
  Ok [mkAmp (Some (RtoC (coating_r pS n0 layers nB aoi), ts)) (Some (RtoC (coating_r pP n0 layers nB aoi), tp))].
Proof.
  unfold quarter_coating, coating_r. set (s := n0 * sin (rad aoi)). intros (H0 & HB & Hw & HC & SB & F).
  pose proof (s0_lt n0 aoi H0 HC) as S0. fold s in S0.
  rewrite nm_coat. set (inner := map (fun l : R * R * R => (RtoC (fst (fst l)), snd (fst l) / 10)) layers).
  assert (PF : passive_film s w inner (RtoC nB)).
  { split; [|split].
    - unfold inner. apply Forall_map. eapply Forall_impl; [|exact F]. intros ((n, d), r) (Hn & Sn & j & E). cbn [fst snd].
      apply film_layer_transparent; auto; cbn [Re Im fst snd RtoC]; try (split; simpl; lra);
        [apply sq_abs; auto|exact (quarter_thick s n d w j Sn Hw E)].
    - unfold inner. apply Forall_map. eapply Forall_impl; [|exact F]. intros ((n, d), r) (Hn & Sn & j & E). cbn [fst snd].
      apply not_crit_gt; simpl; lra.
    - split; simpl; lra. }
  destruct (passive_defined' pS n0 inner (RtoC nB) PInf PInf (rad aoi) w H0 Hw HC PF) as (a & rs & ts & HE & A1).
  destruct (passive_defined' pP n0 inner (RtoC nB) PInf PInf (rad aoi) w H0 Hw HC PF) as (a' & rp & tp & HE' & A2).
  assert (a' = a) by congruence. subst a'.
  set (ms := map (lmed s w) layers). set (back := glass s w nB 0). set (front := glass s w n0 0).
  assert (Es : (RtoC n0 * RtoC (sin (rad aoi)))%C = RtoC s) by (rewrite <- RtoC_mult; reflexivity).
  assert (PS : physical_stack (RtoC n0) inner (RtoC nB) (RtoC n0 * RtoC (sin (rad aoi)))%C w front ms back).
  { rewrite Es. split; [reflexivity|]. split; [apply glass_snell; auto|].
    split; [|split; [reflexivity|apply glass_snell; auto]].
    unfold inner, ms. clear - F Hw. induction F as [|((n, d), r) ls (Hn & Sn & _) F IH]; cbn [map]; constructor; auto.
    apply glass_ok; auto. }
  assert (CF : cosine front = RtoC (Rabs (cos (rad aoi)))).
  { unfold front, glass. cbn [cosine]. f_equal. unfold normal.
    replace (n0 * n0 - s * s) with ((n0 * Rabs (cos (rad aoi))) * (n0 * Rabs (cos (rad aoi)))).
    - rewrite sqrt_square; [field; lra|]. apply Rmult_le_pos; [lra|apply Rabs_pos].
    - replace (n0 * Rabs (cos (rad aoi)) * (n0 * Rabs (cos (rad aoi)))) with
        (n0 * n0 * (Rabs (cos (rad aoi)) * Rabs (cos (rad aoi)))) by ring.
      rewrite <- Rabs_mult, Rabs_right by nra. pose proof (sin2_cos2 (rad aoi)) as K. unfold Rsqr in K.
      unfold s. replace (cos (rad aoi) * cos (rad aoi)) with (1 - sin (rad aoi) * sin (rad aoi)) by lra. ring. }
  assert (CB : 0 <= Re (cosine back)).
  { unfold back, glass. cbn [cosine Re fst RtoC]. apply Rlt_le, Rdiv_lt_0_compat; auto. apply normal_pos; auto. }
  assert (NT : ~ total_reflection (RtoC n0 * RtoC (sin (rad aoi)))%C (RtoC nB)).
  { rewrite Es. apply no_TIR; auto. apply sq_abs; auto. }
  assert (FB : Forall (fun m => cosine m <> RtoC 0 /\ Rabs (Im (phase m)) <= 35) ms).
  { unfold ms. apply Forall_map. eapply Forall_impl; [|exact F]. intros ((n, d), r) (Hn & Sn & _).
    unfold lmed, glass. cbn [fst snd cosine phase Im RtoC]. split; [|rewrite Rabs_R0; lra].
    intros Z; apply RtoC_inj in Z. pose proof (Rdiv_lt_0_compat _ _ (normal_pos s n Sn) Hn). lra. }
  assert (GEN : forall p r t, amp p a = Some (r, t) -> r = RtoC (mismatch (tilted p s n0) (coated p s layers nB))).
  { intros p r t A.
    destruct (code_admittance p _ _ _ _ _ _ _ _ _ _ _ _ _ HE A PS CF HC CB NT FB) as (_ & Er & _).
    destruct (loaded_coated p s w layers nB Hw HB SB F) as [L1 L2]. fold ms back in L1, L2. rewrite L2 in Er.
    set (B := fst (loaded p ms back)) in *. clearbody B.
    assert (A0 : admittance p front = RtoC (tilted p s n0)) by (unfold front; rewrite glass_admittance by auto; destruct p; reflexivity).
    rewrite A0 in Er. rewrite Er. pose proof (coated_pos p s w layers nB HB SB F) as Y. pose proof (y_pos p s n0 H0 S0) as Y0.
    unfold mismatch. rewrite RtoC_div, RtoC_minus, RtoC_plus by lra.
    assert (NZ : (RtoC (tilted p s n0) + RtoC (coated p s layers nB))%C <> RtoC 0).
    { rewrite <- RtoC_plus. intros X; apply RtoC_inj in X; lra. }
    field. split; auto.
    replace (RtoC (tilted p s n0) * B + RtoC (coated p s layers nB) * B)%C with ((RtoC (tilted p s n0) + RtoC (coated p s layers nB)) * B)%C by ring.
    apply Cmult_neq_0; auto. }
  exists ts, tp. rewrite HE. destruct a as [as_ ap]. cbn [amp amp_s amp_p] in *.
  pose proof (GEN pS _ _ A1) as E1. pose proof (GEN pP _ _ A2) as E2. subst as_ ap. rewrite <- E1, <- E2. reflexivity.
Qed.

Theorem coating_reading tA rA tB rB n0 layers nB aoi w off :
  quarter_coating n0 layers nB aoi w ->
  exists psi delta,
  fst (Delta_Psi_TMM [aoi] (table tA (RtoC n0) rA (coat_rows layers) tB (RtoC nB) rB) w off false) = Ok [(psi, delta)] /\
  reading off (coating_r pS n0 layers nB aoi) (coating_r pP n0 layers nB aoi) psi delta.
Proof.
  intros Q. destruct (coating_amplitudes n0 layers nB aoi w Q) as (ts & tp & H).
  set (rs := coating_r pS n0 layers nB aoi) in *. set (rp := coating_r pP n0 layers nB aoi) in *. clearbody rs rp.
  assert (NZ : forall x, x <> 0 -> RtoC x <> RtoC 0) by (intros x G Z; apply RtoC_inj in Z; auto).
  destruct (table_degenerate tA rA tB rB (RtoC n0) (RtoC nB) (coat_rows layers) aoi w off false (RtoC rs) ts (RtoC rp) tp H) as (D1 & D2 & D3).
  destruct (Req_dec rs 0) as [Es|Es]; destruct (Req_dec rp 0) as [Ep|Ep].
  - eexists _, _. split; [apply D3; congruence|apply Reading_none; auto].
  - eexists _, _. split; [apply D2; [congruence|auto]|apply Reading_p; auto].
  - eexists _, _. split; [apply D1; [auto|congruence]|apply Reading_s; auto].
  - eexists _, _. split; [|apply Reading_both; auto].
    destruct (table_encodes tA rA tB rB (RtoC n0) (RtoC nB) (coat_rows layers) aoi w off (RtoC rs) ts (RtoC rp) tp H (NZ _ Es) (NZ _ Ep))
      as (psi & delta & E & _ & _ & _ & U).
    rewrite E.
    destruct (U (atan (Rabs (rp / rs)) * (180 / PI)) (if Rlt_dec (rp * rs) 0 then 180 else 360)) as [U1 U2].
    + pose proof PI_RGT_0 as HP. pose proof (atan_bound (Rabs (rp / rs))) as B.
      assert (0 <= atan (Rabs (rp / rs))).
      { rewrite <- atan_0. destruct (Rabs_pos (rp / rs)) as [L|L]; [left; apply atan_increasing; auto|rewrite <- L; lra]. }
      split.
      * apply Rmult_le_pos; auto. left. apply Rdiv_lt_0_compat; lra.
      * apply Rlt_le_trans with (PI / 2 * (180 / PI)); [|right; field; lra].
        apply Rmult_lt_compat_r; [apply Rdiv_lt_0_compat; lra|lra].
    + destruct Rlt_dec; lra.
    + apply real_angles; auto.
    + rewrite U1, U2. replace (off + (delta - off)) with delta by ring. reflexivity.
Qed.

(** ** One layer *)
Lemma mismatch_0 y0 y : 0 < y0 -> 0 < y -> mismatch y0 y = 0 <-> y = y0.
Proof.
  intros H0 H. unfold mismatch. split.
  - intros E. apply (f_equal (fun x => x * (y0 + y))) in E. field_simplify in E; lra.
  - intros ->. field. lra.
Qed.

Theorem antireflection p n0 n d r nB aoi w :
  quarter_coating n0 [(n, d, r)] nB aoi w ->
  let s := n0 * sin (rad aoi) in
  coating_r p n0 [(n, d, r)] nB aoi = 0 <-> tilted p s n * tilted p s n = tilted p s n0 * tilted p s nB.
Proof.
  intros Q s. unfold coating_r. fold s. destruct Q as (H0 & HB & Hw & HC & SB & F).
  pose proof (s0_lt n0 aoi H0 HC) as S0. fold s in S0, SB, F.
  pose proof (coated_pos p s w _ nB HB SB F) as Y. pose proof (y_pos p s n0 H0 S0) as Y0. pose proof (y_pos p s nB HB SB) as YB.
  rewrite mismatch_0 by auto. cbn [coated fold_right fst snd]. set (a := tilted p s n) in *. set (b := tilted p s nB) in *. set (c := tilted p s n0) in *.
  clearbody a b c. split; intros E.
  - rewrite <- E. field. lra.
  - rewrite E. field. lra.
Qed.

(** normal incidence *)
Lemma normal_0 n : 0 < n -> normal 0 n = n.
Proof. intros H. unfold normal. replace (n * n - 0 * 0) with (n * n) by ring. apply sqrt_square. lra. Qed.
Lemma tilted_0 p n : 0 < n -> tilted p 0 n = match p with pS => n | pP => / n end.
Proof. intros H. destruct p; unfold tilted; rewrite normal_0 by auto; auto. field. lra. Qed.

Theorem perfect_coating tA rA tB rB n0 n d r nB w off :
  0 < n0 -> 0 < n -> 0 < nB -> 0 < w -> n * n = n0 * nB -> (exists j, 4 * n * (d / 10) = (2 * INR j + 1) * w) ->
  fst (Delta_Psi_TMM [0] (table tA (RtoC n0) rA (coat_rows [(n, d, r)]) tB (RtoC nB) rB) w off false) = Ok [(None, None)].
Proof.
  intros H0 Hn HB Hw E [j J].
  assert (R0 : rad 0 = 0) by (unfold rad; field).
  assert (Z : n0 * sin (rad 0) = 0) by (rewrite R0, sin_0; ring).
  assert (Q : quarter_coating n0 [(n, d, r)] nB 0 w).
  { unfold quarter_coating. rewrite Z, R0, cos_0. repeat split; auto; try lra; try nra. constructor; [|constructor].
    split; [auto|]. split; [nra|]. exists j. rewrite normal_0; auto. }
  destruct (coating_reading tA rA tB rB n0 _ nB 0 w off Q) as (psi & delta & D & RD). rewrite D.
  assert (G : forall p, coating_r p n0 [(n, d, r)] nB 0 = 0).
  { intros p. apply (antireflection p _ _ _ _ _ _ _ Q). rewrite Z, !tilted_0 by auto. destruct p; auto.
    rewrite <- !Rinv_mult. congruence. }
  inversion RD; subst; try (exfalso; match goal with H : _ <> 0 |- _ => apply H, G end). reflexivity.
Qed.
