(** * The whole calculation *)

Require Import Reals List Bool ZArith String Lra Lia.
From Coquelicot Require Import Complex.
From Verif Require Import Base Cplx M_tmm Spec_optics P_tmm P_tmm3 P_psidelta P_psidelta2 P_film M_ema M_disp M_struct
  Spec_struct P_struct P_struct2 M_model P_model P_model2 Spec_whole.
Import ListNotations.
Open Scope list_scope.
Open Scope R_scope.

Lemma solvated_unique s tbl y a b : solvated s tbl y a -> solvated s tbl y b -> a = b.
Proof.
  intros [L1 H1] [L2 H2]. apply (nth_ext _ _ row0 row0); [congruence|].
  intros i Hi. rewrite L1 in Hi. destruct (H1 i Hi) as (A1 & A2 & A3 & A4 & A5 & A6).
  destruct (H2 i Hi) as (B1 & B2 & B3 & B4 & B5 & B6).
  destruct (Nat.eq_dec i 0) as [E|E]; [rewrite A4, B4; auto|].
  destruct (Nat.eq_dec i (List.length tbl - 1)) as [E'|E']; [rewrite A4, B4; auto|].
  assert (E2 : s_ri (nth i a row0) = s_ri (nth i b row0)).
  { destruct (s_ri (nth i tbl row0)) as [n|] eqn:En.
    - destruct (A5 ltac:(lia) n eq_refl) as (m & Q1 & Q2). destruct (B5 ltac:(lia) n eq_refl) as (m' & Q3 & Q4).
      congruence.
    - rewrite A6, B6; auto; lia. }
  destruct (nth i a row0), (nth i b row0). cbn in *. congruence.
Qed.

Lemma slabs_rows_at ext s w rows : slab_ends (st_data s) ->
  List.Forall (fun c => c_default_interface c = true) (st_data s) -> st_contract s <= 0 ->
  rows_at s w rows -> structure_slabs ext (set_wavelength s (Some w)) None = (Ok (Some rows), set_wavelength s (Some w)).
Proof.
  intros H1 H2 H3 (base & tbl & B & O & [[N ->]|(N & E & y & I & V)]).
  - apply (slabs_plain ext (set_wavelength s (Some w)) None base); auto.
  - destruct (slabs_solvated ext (set_wavelength s (Some w)) None base tbl y) as (rows' & Q & V'); auto.
    rewrite Q. rewrite (solvated_unique _ _ _ _ _ V' V). reflexivity.
Qed.

(** the phases of two solutions of Snell's law agree up to sign *)
Lemma phase_sign (s : C) lam nd m m' : layer_ok s lam nd m -> layer_ok s lam nd m' ->
  phase m' = phase m \/ phase m' = Copp (phase m).
Proof.
  intros (I1 & (N1 & S1) & F1) (I2 & (N2 & S2) & F2).
  assert (Q : ((cosine m' - cosine m) * (cosine m' + cosine m) = 0)%C).
  { rewrite I1 in S1. rewrite I2 in S2. replace ((cosine m' - cosine m) * (cosine m' + cosine m))%C
      with (cosine m' * cosine m' - cosine m * cosine m)%C by ring. rewrite S1, S2. ring. }
  destruct (Ceq_dec (cosine m' - cosine m)%C 0) as [E|E].
  - left. rewrite F1, F2. replace (cosine m') with (cosine m); auto.
    replace (cosine m') with ((cosine m' - cosine m) + cosine m)%C by ring. rewrite E. ring.
  - right. assert (E' : (cosine m' + cosine m = 0)%C).
    { destruct (Ceq_dec (cosine m' + cosine m)%C 0) as [|E']; auto. exfalso. exact (Cmult_neq_0 _ _ E E' Q). }
    replace (cosine m') with (- cosine m)%C in F2.
    2:{ replace (cosine m') with ((cosine m' + cosine m) - cosine m)%C by ring. rewrite E'. ring. }
    rewrite F1, F2. unfold Cdiv. ring.
Qed.

Lemma lit_film (s : R) w inner nB ms :
  List.Forall (fun nd => passive (fst nd) /\ 0 <= snd nd /\ not_critical s (fst nd)) inner -> passive nB ->
  Forall2 (layer_ok (RtoC s) w) inner ms -> List.Forall (fun m => Rabs (Im (phase m)) <= 35) ms ->
  passive_film s w inner nB.
Proof.
  intros H P F B. split; [|split; auto].
  - revert H B. induction F as [|nd m inner ms L F IH]; intros H B; constructor.
    + apply Forall_cons_iff in H, B. destruct H as [(H1 & H2 & _) _], B as [B _]. split; [|split]; auto.
      intros m' L' _. left. destruct (phase_sign _ _ _ _ _ L L') as [E|E]; rewrite E.
      * eapply Rle_trans; [apply Rle_abs|exact B].
      * cbn [Im Copp snd fst]. eapply Rle_trans; [apply Rle_abs|]. rewrite Rabs_Ropp. exact B.
    + apply IH; [inversion H|inversion B]; auto.
  - eapply Forall_impl; [|exact H]. cbn beta. tauto.
Qed.

Lemma map_layer_table rowA mid rowB nA inner nB : s_ri rowA = Some nA -> s_ri rowB = Some nB ->
  Forall2 (fun r nd => s_ri r = Some (fst nd) /\ s_thick r = 10 * snd nd) mid inner ->
  exists full, nm full = inner /\
    map layer_of (rowA :: mid ++ [rowB]) = table (s_thick rowA) nA (s_rough rowA) full (s_thick rowB) nB (s_rough rowB).
Proof.
  intros A B F.
  assert (exists full, nm full = inner /\ map layer_of mid = rows full) as (full & E1 & E2).
  { clear A B. induction F as [|r nd mid inner [H1 H2] F (full & E1 & E2)].
    - exists []. auto.
    - exists ((fst nd, s_thick r, s_rough r) :: full). destruct nd as [n d]. cbn [fst snd] in *. split.
      + unfold nm in *. cbn [map fst snd]. rewrite E1. f_equal. f_equal. rewrite H2. field.
      + unfold rows in *. cbn [map fst snd]. rewrite E2. f_equal. unfold layer_of. rewrite H1. reflexivity. }
  exists full. split; auto. unfold table. cbn [map]. rewrite map_app, E2. unfold layer_of at 1. rewrite A.
  cbn [map]. unfold layer_of. rewrite B. reflexivity.
Qed.

Lemma lit_measured ext s off flip x st : slab_ends (st_data s) ->
  List.Forall (fun c => c_default_interface c = true) (st_data s) -> st_contract s <= 0 ->
  lit_structure s x st -> reflecting st ->
  exists pd, fst (one_wavelength ext s off flip (fst x) [snd x]) = Ok [(Some (fst pd), Some (snd pd))] /\
             measured off flip st pd.
Proof.
  intros H1 H2 H3 (rows & RA & L) RF.
  destruct L as (rowA & mid & rowB & nA & inner & nB & -> & EA & EB & F & Hw & Hn & PB & PI_ & PS & HC & Hf & Hb & NT & B).
  pose proof (slabs_rows_at ext s (fst x) _ H1 H2 H3 RA) as Sl.
  destruct (map_layer_table rowA mid rowB nA inner nB EA EB F) as (full & E1 & E2). subst inner.
  pose proof PS as (P1 & P2 & P3 & P4 & P5).
  assert (PF : passive_film (Re nA * sin (rad (snd x))) (fst x) (nm full) nB).
  { eapply lit_film; eauto. rewrite RtoC_mult. exact P3. }
  destruct st as [[front ms] back]. cbn [fst snd] in *.
  destruct (end_to_end (s_thick rowA) nA (s_rough rowA) full (s_thick rowB) nB (s_rough rowB) (fst x) off (snd x) front ms back
             Hn Hw HC PF PS Hf Hb NT B) as (rs & rp & R1 & R2 & C1 & C2 & K).
  assert (N1 : rs <> RtoC 0). { destruct (proj2 (R1 rs) eq_refl) as [t T]. exact (RF pS _ _ T). }
  assert (N2 : rp <> RtoC 0). { destruct (proj2 (R2 rp) eq_refl) as [t T]. exact (RF pP _ _ T). }
  destruct (K N1 N2) as (psi & delta & Q & K1 & K2 & K3).
  assert (O : forall fl, fst (one_wavelength ext s off fl (fst x) [snd x]) =
    fst (Delta_Psi_TMM [snd x] (table (s_thick rowA) nA (s_rough rowA) full (s_thick rowB) nB (s_rough rowB)) (fst x) off fl)).
  { intros fl. unfold one_wavelength. rewrite Sl, E2. reflexivity. }
  destruct flip.
  - destruct (table_fold (s_thick rowA) (s_rough rowA) (s_thick rowB) (s_rough rowB) nA nB full [snd x] (fst x) off)
      as (vals & vals' & V1 & _ & V2 & V3).
    rewrite Q in V1. injection V1 as <-. inversion V3 as [|? v ? ? [W1 W2] W3]; subst. inversion W3; subst.
    destruct v as [p' d']. cbn [fst snd] in *. subst p'. destruct d' as [d'|]; [|contradiction].
    exists (psi, d'). split; [rewrite O; exact V2|].
    exists rs, rp, (delta - off). cbn [fst snd]. repeat (split; auto; try tauto).
    destruct W2 as (_ & _ & W2 & W4). destruct (Rle_dec (delta - off) 180) as [D|D].
    + rewrite Rmin_left by lra. rewrite W2 by auto. lra.
    + rewrite Rmin_right by lra. pose proof (W4 ltac:(lra)). lra.
  - exists (psi, delta). split; [rewrite O; exact Q|].
    exists rs, rp, (delta - off). cbn [fst snd]. repeat (split; auto; try tauto). lra.
Qed.

Theorem model_whole ext s off flip X stacks : slab_ends (st_data s) ->
  List.Forall (fun c => c_default_interface c = true) (st_data s) -> st_contract s <= 0 ->
  Forall2 (lit_structure s) X stacks -> List.Forall reflecting stacks ->
  exists pds, fst (model ext DFloat s off flip X) = Ok (map (fun pd => Some (fst pd)) pds, map (fun pd => Some (snd pd)) pds) /\
    Forall2 (measured off flip) stacks pds.
Proof.
  intros H1 H2 H3 F R.
  assert (exists pds, Forall2 (fun x pd => fst (model ext DFloat s off flip [x]) = Ok ([Some (fst pd)], [Some (snd pd)])) X pds /\
            Forall2 (measured off flip) stacks pds) as (pds & E & M).
  { induction F as [|x st X stacks L F IH]; [exists []; split; constructor|].
    apply Forall_cons_iff in R. destruct R as [R1 R2]. destruct (IH R2) as (pds & E & M).
    destruct (lit_measured ext s off flip x st H1 H2 H3 L R1) as (pd & O & Mp).
    exists (pd :: pds). split; constructor; auto.
    assert (V : val ext s off flip x = (Some (fst pd), Some (snd pd))) by (unfold val; rewrite O; reflexivity).
    rewrite model_single by (unfold fine; rewrite V; exact O). rewrite V. reflexivity. }
  exists pds. split; auto.
  rewrite (batch_from_points ext s off flip X (map (fun pd => (Some (fst pd), Some (snd pd))) pds)).
  - rewrite !map_map. reflexivity.
  - clear M F. induction E; cbn [map]; constructor; auto.
Qed.
