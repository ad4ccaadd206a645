(** * Delta_Psi_TMM: psi and delta. *)

Require Import Reals.
From Coquelicot Require Import Rcomplements Complex.
Require Import List Bool Arith Lra Lia Psatz.
From Verif Require Import Base Cplx M_tmm Spec_optics P_tmm P_tmm2 P_tmm3 P_tmm4 P_flux P_flux2 P_flux3.
Import ListNotations.
Open Scope R_scope.
Open Scope C_scope.

(** a layer table written out: fronting, inner rows (index, thickness in Angstrom,
    roughness), backing *)
Definition rows (inner : list (C * R * R)) : list layer :=
  map (fun x => mkLayer (snd (fst x)) (Some (fst (fst x))) (snd x)) inner.
Definition table (tA : R) (nA : C) (rA : R) (inner : list (C * R * R)) (tB : R) (nB : C) (rB : R)
  : list layer :=
  mkLayer tA (Some nA) rA :: rows inner ++ [mkLayer tB (Some nB) rB].
(** the same film as (index, thickness in nm) *)
Definition nm (inner : list (C * R * R)) : list (C * R) :=
  map (fun x => (fst (fst x), (snd (fst x) / 10)%R)) inner.

Definition points (w : R) (AOI : list R) : list (R * R) := map (fun a => (rad a, w)) AOI.

Lemma mapM_app {A B} (f : A -> option B) l m a b :
  mapM f l = Some a -> mapM f m = Some b -> mapM f (l ++ m) = Some (a ++ b).
Proof.
  revert a; induction l as [|x l IH]; simpl; intros a H1 H2.
  - assert (a = []) as -> by congruence. auto.
  - destruct (f x); simpl in *; [|discriminate]. destruct (mapM f l); simpl in *; [|discriminate].
    assert (a = b0 :: l0) as -> by congruence. rewrite (IH l0); auto.
Qed.

Lemma rows_ri inner : mapM l_ri (rows inner) = Some (map fst (nm inner)).
Proof.
  unfold rows, nm. induction inner as [|x inner IH]; auto. simpl. simpl in IH. rewrite IH. reflexivity.
Qed.

Lemma table_ri tA nA rA inner tB nB rB :
  mapM l_ri (drop_k (mkLayer tA (Some nA) rA) :: rows inner ++ [mkLayer tB (Some nB) rB]) =
  Some (ns (RtoC (Re nA)) (nm inner) nB).
Proof.
  change (drop_k (mkLayer tA (Some nA) rA) :: rows inner ++ [mkLayer tB (Some nB) rB]) with
    ([drop_k (mkLayer tA (Some nA) rA)] ++ (rows inner ++ [mkLayer tB (Some nB) rB])).
  unfold ns. rewrite (mapM_app _ _ _ [RtoC (Re nA)] (map fst (nm inner) ++ [nB])); auto.
  apply mapM_app; auto. apply rows_ri.
Qed.

Lemma table_thicks l0 inner lN : thicks (l0 :: rows inner ++ [lN]) = ds PInf (nm inner) PInf.
Proof.
  assert (E : thicks (l0 :: rows inner ++ [lN]) =
    PInf :: map (fun l => Fin (l_thick l / 10)) (removelast (rows inner ++ [lN])) ++ [PInf]).
  { destruct inner; reflexivity. }
  rewrite E, removelast_app1. unfold ds, rows, nm. rewrite !map_map. reflexivity.
Qed.

Lemma DP_table AOI tA nA rA inner tB nB rB w off refl :
  Delta_Psi_TMM AOI (table tA nA rA inner tB nB rB) w off refl =
  (rmap (map (psi_delta refl off))
     (coh_tmm (ns (RtoC (Re nA)) (nm inner) nB) (ds PInf (nm inner) PInf) (points w AOI)),
   table tA (RtoC (Re nA)) rA inner tB nB rB).
Proof.
  unfold Delta_Psi_TMM, table. rewrite table_ri. f_equal.
  unfold drop_k. rewrite table_thicks. reflexivity.
Qed.

(** what is calculated for one angle; never an exception *)
Definition DP_one (nA : C) (inner : list (C * R * R)) (nB : C) (w off : R) (refl : bool) (aoi : R) : option R * option R :=
  psi_delta refl off (tmm_point (ns (RtoC (Re nA)) (nm inner) nB) (ds PInf (nm inner) PInf) true (rad aoi) w)
  .
Lemma coh_tmm_real_ok (n0 : R) inner nN dA dB pts :
  coh_tmm (ns (RtoC n0) inner nN) (ds dA inner dB) pts =
  Ok (map (fun p => tmm_point (ns (RtoC n0) inner nN) (ds dA inner dB) true (fst p) (snd p)) pts).
Proof.
  destruct pts as [|p pts].
  - unfold coh_tmm, ns, ds. cbn [forallb negb].
    assert (L1 : (length (RtoC n0 :: map fst inner ++ [nN]) <? 2)%nat = false).
    { apply Nat.ltb_ge. simpl. rewrite app_length; simpl; lia. }
    rewrite L1, thickness_same by (simpl; rewrite !app_length, !map_length; reflexivity). reflexivity.
  - apply coh_tmm_from_points; [congruence|].
    generalize (p :: pts). induction l as [|[th lam] l IH]; cbn [map fst snd]; constructor; auto.
    rewrite coh_tmm_one_ok by apply n0_ok_real. rewrite <- tmm_point_clip. reflexivity.
Qed.

Lemma DP_map AOI tA nA rA inner tB nB rB w off refl :
  fst (Delta_Psi_TMM AOI (table tA nA rA inner tB nB rB) w off refl) =
  Ok (map (DP_one nA inner nB w off refl) AOI).
Proof.
  rewrite DP_table, coh_tmm_real_ok. cbn [fst rmap]. f_equal. unfold points.
  rewrite !map_map. reflexivity.
Qed.

(** ** Encoding of r_p / r_s *)
Lemma Cmod_pos (z : C) : z <> 0 -> (0 < Cmod z)%R.
Proof. intros H. apply Cmod_gt_0; auto. Qed.

Lemma deg_rad x : (rad (x * (180 / PI)) = x)%R.
Proof. unfold rad. field. apply PI_neq0. Qed.

Lemma psi_delta_spec (off : R) (rs rp : C) : rs <> 0 -> rp <> 0 ->
  exists psi delta, psi_of rs rp = Some psi /\ delta_of false off rs rp = Some delta /\
  (0 < psi < 90)%R /\ (0 < delta - off <= 360)%R /\ ellipsometric rs rp psi (delta - off).
Proof.
  intros Hs Hp. pose proof PI_RGT_0 as PP.
  assert (Hq : - rp / rs <> 0).
  { intros E. apply Hp. transitivity (- (- rp / rs * rs)); [field; auto|rewrite E; ring]. }
  unfold psi_of, delta_of. destruct (Ceq_dec rs 0) as [|_]; [contradiction|].
  rewrite cdiv_some by auto. cbn [obind]. rewrite cdiv_some by auto. cbn [obind].
  set (z := 1 / (- rp / rs)).
  set (d := (carg z + PI)%R).
  eexists _, _. split; [reflexivity|]. split; [reflexivity|].
  assert (Hr : rp / rs <> 0).
  { intros E. apply Hp. transitivity (rp / rs * rs); [field; auto|rewrite E; ring]. }
  set (rho := Cmod (rp / rs)).
  assert (Hrho : (0 < rho)%R) by (apply Cmod_pos; auto).
  assert (A0 : (0 < atan rho < PI / 2)%R).
  { pose proof (atan_bound rho). split; [|lra]. rewrite <- atan_0. apply atan_increasing; auto. }
  pose proof (carg_bounds z) as CB.
  assert (PI2 : (PI * (180 / PI) = 180)%R) by (field; lra).
  assert (C180 : (0 < 180 / PI)%R) by (apply Rmult_lt_0_compat; [lra|apply Rinv_0_lt_compat; auto]).
  split; [|split].
  - split; [apply Rmult_lt_0_compat; lra|].
    apply Rlt_le_trans with (PI / 2 * (180 / PI))%R; [apply Rmult_lt_compat_r; lra|].
    apply Req_le. field. lra.
  - replace (d * (180 / PI) + off - off)%R with (d * (180 / PI))%R by ring. unfold d. split.
    + apply Rmult_lt_0_compat; lra.
    + apply Rle_trans with (2 * PI * (180 / PI))%R; [apply Rmult_le_compat_r; lra|].
      apply Req_le. field. lra.
  - replace (d * (180 / PI) + off - off)%R with (d * (180 / PI))%R by ring.
    unfold ellipsometric. rewrite !deg_rad, tan_atan.
    assert (Zp : z = RtoC (Cmod z) * cexp (Ci * RtoC (carg z))).
    { rewrite (carg_polar z) at 1. unfold cexp.
      replace (Re (Ci * RtoC (carg z))) with 0%R by (simpl; ring).
      replace (Im (Ci * RtoC (carg z))) with (carg z) by (simpl; ring).
      rewrite exp_0. apply C_eq; simpl; ring. }
    assert (Zn : z <> 0).
    { intros E. apply C1_neq_0. transitivity (z * (- rp / rs)); [unfold z; field; auto|rewrite E; ring]. }
    assert (Ed : cexp (Ci * RtoC d) = - cexp (Ci * RtoC (carg z))).
    { unfold d. rewrite RtoC_plus. replace (Ci * (RtoC (carg z) + RtoC PI)) with (Ci * RtoC (carg z) + Ci * RtoC PI) by ring.
      rewrite cexp_add.
      assert (cexp (Ci * RtoC PI) = - RtoC 1) as ->.
      { unfold cexp. replace (Re (Ci * RtoC PI)) with 0%R by (simpl; ring).
        replace (Im (Ci * RtoC PI)) with PI by (simpl; ring).
        rewrite exp_0, cos_PI, sin_PI. apply C_eq; simpl; ring. }
      ring. }
    assert (Mz : Cmod z = (/ rho)%R).
    { unfold z, rho. rewrite Cmod_div by auto. rewrite Cmod_1.
      replace (- rp / rs) with (- (rp / rs)) by (field; auto). rewrite Cmod_opp.
      unfold Rdiv. ring. }
    rewrite cexp_opp, Ed.
    pose proof (cexp_neq_0 (Ci * RtoC (carg z))) as EN.
    assert (Hrc : RtoC rho <> 0) by (intros E; apply RtoC_inj in E; lra).
    replace (RtoC rho * / - cexp (Ci * RtoC (carg z))) with
      (- / (RtoC (/ rho) * cexp (Ci * RtoC (carg z)))).
    2:{ rewrite RtoC_inv by lra. field; auto. }
    rewrite <- Mz, <- Zp. unfold z. field; auto.
Qed.

(** ... and they are the only such angles *)
Lemma ellipsometric_unique (rs rp : C) psi delta psi' delta' : rs <> 0 -> rp <> 0 ->
  (0 <= psi < 90)%R -> (0 <= psi' < 90)%R -> (0 < delta <= 360)%R -> (0 < delta' <= 360)%R ->
  ellipsometric rs rp psi delta -> ellipsometric rs rp psi' delta' -> psi = psi' /\ delta = delta'.
Proof.
  intros Hs Hp P P' D D' E E'. unfold ellipsometric in *. pose proof PI_RGT_0 as PP.
  assert (TN : forall x, (0 <= x < 90)%R -> (0 <= rad x < PI / 2)%R).
  { intros x Hx. unfold rad. assert (0 < PI / 180)%R by lra. split.
    - apply Rmult_le_pos; lra.
    - apply Rlt_le_trans with (90 * (PI / 180))%R; [apply Rmult_lt_compat_r; lra|lra]. }
  assert (TP : forall x, (0 <= x < 90)%R -> (0 <= tan (rad x))%R).
  { intros x Hx. destruct (TN x Hx) as [[H1|H1] H2].
    - left. apply tan_gt_0; auto.
    - rewrite <- H1, tan_0. lra. }
  assert (M : forall psi delta, (0 <= psi < 90)%R ->
     Cmod (RtoC (tan (rad psi)) * cexp (- (Ci * RtoC (rad delta)))) = tan (rad psi)).
  { intros x y Hx. rewrite Cmod_mult, Cmod_R, Cmod_cexp, Rabs_right by (apply Rle_ge; auto).
    replace (Re (- (Ci * RtoC (rad y)))) with 0%R by (simpl; ring). rewrite exp_0. ring. }
  assert (ET : tan (rad psi) = tan (rad psi')).
  { rewrite <- (M psi delta), <- (M psi' delta') by auto. congruence. }
  split.
  - assert (rad psi = rad psi').
    { pose proof (TN _ P). pose proof (TN _ P').
      rewrite <- (atan_tan (rad psi)), <- (atan_tan (rad psi')) by lra. congruence. }
    unfold rad in H. apply Rmult_eq_reg_r in H; auto. lra.
  - assert (NZ : tan (rad psi) <> 0%R).
    { intros Z. rewrite Z in E. apply Hp. transitivity (rp / rs * rs); [field; auto|]. rewrite E. ring. }
    rewrite E in E'. rewrite <- ET in E'. apply Cmult_reg_l in E'.
    2:{ intros X. apply RtoC_inj in X. auto. }
    assert (K : forall y, cexp (- (Ci * RtoC (rad y))) = (cos (rad y), - sin (rad y))%R).
    { intros y. unfold cexp. replace (Re (- (Ci * RtoC (rad y)))) with 0%R by (simpl; ring).
      replace (Im (- (Ci * RtoC (rad y)))) with (- rad y)%R by (simpl; ring).
      rewrite exp_0, cos_neg, sin_neg. apply C_eq; simpl; ring. }
    rewrite !K in E'. pose proof (f_equal Re E') as E1. pose proof (f_equal Im E') as E2. simpl in E1, E2.
    assert (RD : forall y, (0 < y <= 360)%R -> (- PI < rad y - PI <= PI)%R).
    { intros y Hy. unfold rad. assert (0 < PI / 180)%R by lra. split.
      - assert (0 < y * (PI / 180))%R by (apply Rmult_lt_0_compat; lra). lra.
      - assert (y * (PI / 180) <= 360 * (PI / 180))%R by (apply Rmult_le_compat_r; lra). lra. }
    assert (rad delta - PI = rad delta' - PI)%R.
    { apply angle_unique; auto.
      - rewrite !cos_minus, cos_PI, sin_PI. rewrite E1. ring.
      - rewrite !sin_minus, cos_PI, sin_PI. assert (sin (rad delta) = sin (rad delta')) as -> by lra. ring. }
    unfold rad in H. apply Rmult_eq_reg_r with (PI / 180)%R; lra.
Qed.

(** ** Folding *)
Lemma delta_reflect off (rs rp : C) delta : delta_of false off rs rp = Some delta ->
  exists delta', delta_of true off rs rp = Some delta' /\ (0 <= delta' - off <= 180)%R /\
   cos (rad (delta' - off)) = cos (rad (delta - off)) /\
   ((delta - off <= 180)%R -> delta' = delta) /\
   ((180 < delta - off)%R -> (delta' - off = 360 - (delta - off))%R).
Proof.
  unfold delta_of. destruct (cdiv (- rp) rs) as [q|]; cbn [obind]; [|discriminate].
  destruct (cdiv 1 q) as [z|]; cbn [obind]; [|discriminate].
  intros H. assert (delta = (carg z + PI) * (180 / PI) + off)%R as -> by congruence. clear H.
  pose proof PI_RGT_0 as PP. pose proof (carg_bounds z) as CB.
  set (d := (carg z + PI)%R) in *.
  assert (C180 : (0 < 180 / PI)%R) by (apply Rmult_lt_0_compat; [lra|apply Rinv_0_lt_compat; auto]).
  assert (PI2 : (PI * (180 / PI) = 180)%R) by (field; lra).
  eexists. split; [reflexivity|].
  assert (Q : forall x, (x * (180 / PI) + off - off = x * (180 / PI))%R) by (intros; ring).
  rewrite !Q, !deg_rad.
  assert (LE : forall x y, (x <= y)%R -> (x * (180 / PI) <= y * (180 / PI))%R)
    by (intros; apply Rmult_le_compat_r; lra).
  assert (LT : forall x y, (x < y)%R -> (x * (180 / PI) < y * (180 / PI))%R)
    by (intros; apply Rmult_lt_compat_r; lra).
  destruct (Rlt_dec PI d) as [L|L].
  - assert (0 <= 2 * PI - d <= PI)%R by (unfold d in *; lra).
    repeat split.
    + rewrite <- (Rmult_0_l (180 / PI)). apply LE. lra.
    + eapply Rle_trans; [apply LE; apply (proj2 H)|]. lra.
    + rewrite <- (cos_neg d). rewrite <- (cos_period (- d) 1). f_equal. simpl. ring.
    + intros X. exfalso. pose proof (LT PI d L). lra.
    + intros _. transitivity (2 * (PI * (180 / PI)) - d * (180 / PI))%R; [ring|rewrite PI2; ring].
  - apply Rnot_lt_le in L. repeat split; auto.
    + rewrite <- (Rmult_0_l (180 / PI)). apply LE. unfold d; lra.
    + eapply Rle_trans; [apply LE; apply L|]. lra.
    + intros X. exfalso. pose proof (LE d PI L). lra.
Qed.

(** ** Normal incidence *)
Lemma psi_delta_normal refl off (rp : C) : rp <> 0 ->
  psi_of (- rp) rp = Some 45%R /\ delta_of refl off (- rp) rp = Some (180 + off)%R.
Proof.
  intros Hp. assert (Hs : - rp <> 0).
  { intros E. apply Hp. transitivity (- - rp); [ring|rewrite E; ring]. }
  pose proof PI_RGT_0 as PP.
  unfold psi_of, delta_of. destruct (Ceq_dec (- rp) 0); [contradiction|]. split.
  - f_equal. replace (rp / - rp) with (- RtoC 1) by (field; auto).
    rewrite Cmod_opp, Cmod_1, atan_1. field. lra.
  - rewrite cdiv_some by auto. cbn [obind].
    replace (- rp / - rp) with (RtoC 1) by (field; auto).
    rewrite cdiv_some by apply C1_neq_0. cbn [obind].
    replace (RtoC 1 / RtoC 1) with (RtoC 1) by (field; apply C1_neq_0).
    assert (carg 1 = 0%R) as ->.
    { apply carg_unique with 1%R; try lra. rewrite cos_0, sin_0. apply C_eq; simpl; ring. }
    assert ((if refl then if Rlt_dec PI (0 + PI) then 2 * PI - (0 + PI) else 0 + PI else 0 + PI) = PI)%R as ->.
    { destruct refl; [|ring]. destruct (Rlt_dec PI (0 + PI)); lra. }
    f_equal. field. lra.
Qed.
