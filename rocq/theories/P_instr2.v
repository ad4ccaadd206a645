(** * The FilmSense loader *)

Require Import Reals ZArith Lra Lia List Bool String Ascii Sorting.Sorted.
From Coquelicot Require Import Complex.
From Verif Require Import Base Cplx M_disp M_model P_model M_data Spec_data P_data P_struct M_ep4 Spec_ep4 P_ep4 P_ep4b P_ep4e M_instr Spec_instr P_instr.
Import ListNotations.
Open Scope list_scope.
Open Scope R_scope.

(** ** inversion *)
Lemma rad_pos x : 0 < x -> 0 < rad x.
Proof. intros H. unfold rad. pose proof PI_RGT_0. apply Rmult_lt_0_compat; lra. Qed.
Lemma rad_lt x y : x < y -> rad x < rad y.
Proof. intros H. unfold rad. pose proof PI_RGT_0. apply Rmult_lt_compat_r; lra. Qed.
Lemma rad_180 : rad 180 = PI. Proof. unfold rad. field. Qed.
Lemma rad_deg x : rad x * (180 / PI) = x.
Proof. unfold rad. pose proof PI_RGT_0. field. lra. Qed.

Lemma encoded_psi N Cc S psi delta : encoded N Cc S psi delta -> fs_psi N = Some psi.
Proof.
  intros (Hp & _ & -> & _). unfold fs_psi. cbn [obind].
  assert (0 < rad (2 * psi) < PI) as B.
  { split; [apply rad_pos; lra|]. rewrite <- rad_180. apply rad_lt. lra. }
  pose proof (COS_bound (rad (2 * psi))) as (B1 & B2).
  destruct (Rle_dec (Rabs (cos (rad (2 * psi)))) 1) as [|n].
  - rewrite acos_cos by lra. f_equal. transitivity (rad psi * (180 / PI)); [unfold rad; field; apply PI_neq0|apply rad_deg].
  - exfalso. apply n. apply Rabs_le. lra.
Qed.
Lemma encoded_delta N Cc S psi delta : encoded N Cc S psi delta -> fs_delta N Cc S = Some delta.
Proof.
  intros (Hp & Hd & -> & -> & ->). unfold fs_delta, fs_ratio. cbn [obind].
  assert (0 < rad (2 * psi) < PI) as B.
  { split; [apply rad_pos; lra|]. rewrite <- rad_180. apply rad_lt. lra. }
  assert (0 < sin (rad (2 * psi))) as Sp by (apply sin_gt_0; lra).
  assert (0 < 1 + cos (rad (2 * psi))) as Cp.
  { pose proof (COS_bound (rad (2 * psi))) as (B1 & _).
    destruct (Req_dec (cos (rad (2 * psi))) (-1)) as [E|]; [exfalso|lra].
    pose proof (sin2_cos2 (rad (2 * psi))) as Q. unfold Rsqr in Q. rewrite E in Q. nra. }
  destruct (Req_EM_T (1 + cos (rad (2 * psi))) 0); [lra|]. cbn [omap].
  set (s := sin (rad (2 * psi))) in *. set (n1 := 1 + cos (rad (2 * psi))) in *.
  assert (forall a, cos a = cos (rad delta) -> sin a = sin (rad delta) ->
    ((s * cos (rad delta))%R, (s * sin (rad delta))%R) / RtoC n1 = ((s / n1 * cos a)%R, (s / n1 * sin a)%R))%C as Z.
  { intros a Ec Es. rewrite Ec, Es. unfold Cdiv, Cinv, Cmult, RtoC. cbn [fst snd].
    assert (n1 * n1 <> 0) by nra. f_equal; field; repeat split; try lra; nra. }
  assert (0 < s / n1) as P by (apply Rdiv_lt_0_compat; auto).
  pose proof PI_RGT_0 as PI0.
  destruct (Rle_dec delta 180) as [L|L].
  - rewrite (carg_unique _ (s / n1) (rad delta)); auto.
    + rewrite rad_deg. cbv zeta. destruct (Rlt_dec delta 0); [lra|reflexivity].
    + assert (0 <= rad delta).
      { unfold rad. apply Rmult_le_pos; lra. }
      assert (rad delta <= PI).
      { rewrite <- rad_180. destruct L as [L| ->]; [left; apply rad_lt; auto|right; auto]. }
      lra.
  - assert (rad (delta - 360) = rad delta - 2 * PI) as E by (unfold rad; field).
    rewrite (carg_unique _ (s / n1) (rad (delta - 360))); auto.
    + rewrite rad_deg. cbv zeta. destruct (Rlt_dec (delta - 360) 0); [f_equal; ring|lra].
    + rewrite E. split.
      * assert (rad 180 < rad delta) as Q by (apply rad_lt; lra). rewrite rad_180 in Q. lra.
      * assert (rad delta < rad 360) as Q by (apply rad_lt; lra).
        assert (rad 360 = 2 * PI) as Q' by (unfold rad; field). lra.
    + apply Z; rewrite E.
      * rewrite cos_minus, cos_2PI, sin_2PI. ring.
      * rewrite sin_minus, cos_2PI, sin_2PI. ring.
Qed.
Lemma fs_delta_range N Cc S d : fs_delta N Cc S = Some d -> 0 <= d < 360.
Proof.
  unfold fs_delta. destruct N as [N|], Cc as [Cc|], S as [S|]; cbn [obind]; try discriminate.
  destruct (fs_ratio N Cc S) as [z|]; cbn [omap]; [|discriminate]. cbv zeta. intros H. injection H as <-.
  pose proof (carg_bounds z) as (B1 & B2). pose proof PI_RGT_0 as P.
  assert (0 < 180 / PI) as Q by (apply Rdiv_lt_0_compat; lra).
  assert (carg z * (180 / PI) <= 180).
  { replace 180 with (PI * (180 / PI)) at 2 by (field; lra). apply Rmult_le_compat_r; lra. }
  assert (-180 < carg z * (180 / PI)).
  { replace (-180) with (- PI * (180 / PI)) by (field; lra). apply Rmult_lt_compat_r; lra. }
  destruct (Rlt_dec _ 0); lra.
Qed.
Lemma fs_psi_range N p : fs_psi N = Some p -> 0 <= p <= 90.
Proof.
  unfold fs_psi. destruct N as [N|]; cbn [obind]; [|discriminate].
  destruct (Rle_dec (Rabs N) 1); [|discriminate]. intros H. injection H as <-.
  pose proof (acos_bound N) as (B1 & B2). pose proof PI_RGT_0 as P.
  assert (0 < 180 / PI) as Q by (apply Rdiv_lt_0_compat; lra).
  split; [apply Rmult_le_pos; lra|].
  replace 90 with (PI / 2 * (180 / PI)) by (field; lra). apply Rmult_le_compat_r; lra.
Qed.
Lemma fs_psi_none N : 1 < Rabs N -> fs_psi (Some N) = None.
Proof. intros H. unfold fs_psi. cbn [obind]. destruct (Rle_dec (Rabs N) 1); [lra|reflexivity]. Qed.
Lemma fs_delta_none : fs_delta (Some (-1)) (Some 0) (Some 0) = None.
Proof.
  unfold fs_delta, fs_ratio. cbn [obind]. destruct (Req_EM_T (1 + -1) 0); [|lra].
  destruct (Req_EM_T 0 0); [reflexivity|lra].
Qed.

(** ** layout *)
Lemma head_ok pf pi (dyn : bool) l W T aoi : fs_head pf pi (if dyn then [3] else [3; 4; 5])%nat l W T aoi ->
  fs_header pf pi dyn l = Ok (W, T, aoi).
Proof.
  intros (fs & a & b & vs & c & -> & F & N & Ha & Pa & Hb & Pb & N2 & N3). unfold fs_header.
  rewrite chop1, split_join by auto. rewrite Ha, Hb, Pa, Pb. cbn [rbind].
  rewrite (float_number _ _ _ _ N2). cbn [rbind]. rewrite (floats_numbers _ _ _ _ N3). reflexivity.
Qed.
Lemma block_ok {A} pf is (P : string -> A -> Prop) (Q : A -> list num -> Prop) ls xs rest :
  (forall l x, P l x -> exists r, floats_at pf (split tab l) is = Ok r /\ Q x r) -> Forall2 P ls xs ->
  exists rows, fs_block pf is (List.length ls) (ls ++ rest) = Ok (rows, rest) /\ Forall2 Q xs rows.
Proof.
  intros H F. induction F as [|l x ls xs Hl F IH]; [exists []; split; [reflexivity|constructor]|].
  destruct IH as (rows & E & Fr). destruct (H _ _ Hl) as (r & Er & Qr).
  exists (r :: rows). split; [|constructor; auto].
  cbn [List.length fs_block app readline]. rewrite Er. cbn [rbind]. rewrite E. reflexivity.
Qed.
Lemma waves_ok pf ls ws rest : Forall2 (fs_wave pf) ls ws ->
  exists rows, fs_block pf [0; 1; 2; 3]%nat (List.length ls) (ls ++ rest) = Ok (rows, rest) /\ map (fun r => nth 0 r None) rows = ws.
Proof.
  intros F. destruct (block_ok pf [0; 1; 2; 3]%nat (fs_wave pf) (fun w r => nth 0 r None = w) ls ws rest) as (rows & E & Q); auto.
  - intros l w (fs & v1 & v2 & v3 & F1 & N1). exists [w; v1; v2; v3]. split; [|reflexivity].
    rewrite (split_fields _ _ _ F1). apply floats_numbers. auto.
  - exists rows. split; auto. clear - Q. induction Q as [|w r ws rows E Q IH]; [reflexivity|]. exact (f_equal2 cons E IH).
Qed.
Definition ncs_of (pd : R * R) (r : list num) : Prop :=
  fs_psi (nth 0 r None) = Some (fst pd) /\ fs_delta (nth 0 r None) (nth 1 r None) (nth 2 r None) = Some (snd pd).
Lemma loaded_stores ws aoi pds ncs pts : Forall2 ncs_of pds ncs -> fs_points aoi ws pds pts -> stores (fs_loaded ws aoi ncs) false pts.
Proof.
  intros F (L & ->). unfold stores, fs_loaded. cbn [ld_wav ld_aoi ld_psi ld_delta ld_reflect]. rewrite !map_map.
  unfold p_wav, p_aoi, p_psi, p_delta. cbn [fst snd].
  revert ws L. induction F as [|pd r pds ncs (E1 & E2) F IH]; intros [|w ws] L; try discriminate L.
  { repeat split. }
  injection L as L. destruct (IH ws L) as (I1 & I2 & I3 & I4 & _).
  split; [exact (f_equal (cons w) I1)|]. split; [exact (f_equal (cons aoi) I2)|].
  split; [exact (f_equal2 cons E1 I3)|]. split; [exact (f_equal2 cons E2 I4)|]. reflexivity.
Qed.

Lemma open_fs_standard pf pi head wls ws nls pds W T aoi rest pts :
  fs_head pf pi [3; 4; 5]%nat head W T aoi -> Forall2 (fs_wave pf) wls ws -> Forall2 (fs_ncs pf) nls pds ->
  List.length wls = W -> List.length nls = W -> fs_points aoi ws pds pts ->
  exists x, open_FilmSenseFile pf pi (("Film_Sense_Data" ++ newline)%string :: head :: wls ++ nls ++ rest) = Ok (OneSet x) /\
    stores x false pts.
Proof.
  intros Hh Hw Hn L1 L2 Hp. unfold open_FilmSenseFile. cbn [readline]. rewrite String.eqb_refl.
  unfold fs_standard. cbn [readline]. rewrite (head_ok pf pi false _ _ _ _ Hh). cbn [rbind].
  destruct (waves_ok pf wls ws (nls ++ rest) Hw) as (rows & E & Ew). rewrite L1 in E. rewrite E. cbn [rbind].
  destruct (block_ok pf [0; 1; 2; 3; 4]%nat (fs_ncs pf) ncs_of nls pds rest) as (ncs & E' & Q); auto.
  { intros l pd (fs & N & Cc & S & v3 & v4 & F1 & N1 & En). exists [N; Cc; S; v3; v4]. split.
    - rewrite (split_fields _ _ _ F1). apply floats_numbers. auto.
    - split; cbn [nth]; [eapply encoded_psi; eauto|eapply encoded_delta; eauto]. }
  rewrite L2 in E'. rewrite E'. cbn [rbind rmap]. eexists. split; [reflexivity|]. rewrite Ew. eapply loaded_stores; eauto.
Qed.

Lemma mapR_seq {A B} (f : nat -> result B) (P : A -> B -> Prop) (l : list A) :
  (forall j a, nth_error l j = Some a -> exists b, f j = Ok b /\ P a b) -> 
  exists bs, mapR f (seq 0 (List.length l)) = Ok bs /\ Forall2 P l bs.
Proof.
  assert (forall k, (forall j a, nth_error l j = Some a -> exists b, f (k + j)%nat = Ok b /\ P a b) ->
    exists bs, mapR f (seq k (List.length l)) = Ok bs /\ Forall2 P l bs) as G.
  { induction l as [|a l IH]; intros k H; [exists []; split; [reflexivity|constructor]|].
    destruct (H 0%nat a eq_refl) as (b & E & Pb). rewrite Nat.add_0_r in E.
    destruct (IH (S k)) as (bs & Es & Ps).
    { intros j x Hx. destruct (H (S j) x Hx) as (y & Ey & Py). exists y. split; auto. rewrite <- Ey. f_equal. lia. }
    exists (b :: bs). split; [|constructor; auto]. cbn [List.length seq mapR]. rewrite E. cbn [rbind]. rewrite Es. reflexivity. }
  intros H. apply (G 0%nat). exact H.
Qed.

(** the dataset of a time step *)
Definition fs_step_data (ws : list num) (aoi : num) (pds : list (R * R)) (x : loaded) : Prop :=
  forall pts, fs_points aoi ws pds pts -> stores x false pts.

Lemma step_ok pf l t pds n W : fs_step pf l t pds -> List.length pds = W -> forall wavs aoi ls d,
  exists ncs, Forall2 ncs_of pds ncs /\
  fs_times pf W wavs aoi (S n) (l :: ls) d = fs_times pf W wavs aoi n ls (dict_set req_b t (fs_loaded wavs aoi ncs) d).
Proof.
  intros (fs & c & c' & -> & F & N & Nt & Hj) L wavs aoi ls d.
  destruct (mapR_seq (fs_point pf fs) ncs_of pds) as (ncs & E & Q).
  { intros j pd Hp. destruct (Hj j pd Hp) as (N0 & Cc & S & v3 & v4 & Nn & En).
    exists [N0; Cc; S; v3; v4]. split.
    - unfold fs_point. apply floats_numbers. cbn [map].
      replace (j * 5)%nat with (5 * j)%nat by lia. exact Nn.
    - split; cbn [nth]; [eapply encoded_psi; eauto|eapply encoded_delta; eauto]. }
  exists ncs. split; [exact Q|]. cbn [fs_times readline]. rewrite chop2, split_join by auto.
  rewrite (float_number _ _ _ _ Nt). cbn [rbind]. rewrite <- L, E. reflexivity.
Qed.

Lemma times_ok pf W wavs aoi ls tps rest : Forall2 (fun l tp => fs_step pf l (fst tp) (snd tp)) ls tps ->
  Forall (fun tp => List.length (snd tp) = W) tps -> forall d, NoDup (map fst d ++ map fst tps) ->
  exists d', fs_times pf W wavs aoi (List.length ls) (ls ++ rest) d = Ok (d ++ d') /\ map fst d' = map fst tps /\
    Forall2 (fun tp x => exists ncs, Forall2 ncs_of (snd tp) ncs /\ x = fs_loaded wavs aoi ncs) tps (map snd d').
Proof.
  intros F. induction F as [|l tp ls tps Hl F IH]; intros HW d Nd.
  { exists []. cbn [List.length fs_times map]. rewrite app_nil_r. repeat split. constructor. }
  inversion HW as [|? ? W1 W2].
  destruct (step_ok pf l _ _ (List.length ls) _ Hl W1 wavs aoi (ls ++ rest) d) as (ncs & Q & E).
  cbn [List.length app]. rewrite E. rewrite dict_set_other.
  2: { intros k' Hk'. destruct (req_b (fst tp) k') eqn:Ek; auto. apply req_b_true in Ek. subst k'. exfalso.
       cbn [map] in Nd. apply NoDup_remove_2 in Nd. apply Nd. rewrite in_app_iff. auto. }
  destruct (IH W2 (d ++ [(fst tp, fs_loaded wavs aoi ncs)])) as (d' & E' & K & V).
  { rewrite map_app, <- app_assoc. exact Nd. }
  exists ((fst tp, fs_loaded wavs aoi ncs) :: d'). rewrite E'. rewrite <- app_assoc. split; [reflexivity|].
  cbn [map fst snd]. rewrite K. split; [reflexivity|]. constructor; auto. exists ncs. auto.
Qed.

Lemma open_fs_dynamic pf pi head wls ws heading sls tps W T aoi rest :
  fs_head pf pi [3]%nat head W T aoi -> Forall2 (fs_wave pf) wls ws ->
  Forall2 (fun l tp => fs_step pf l (fst tp) (snd tp)) sls tps ->
  List.length wls = W -> List.length sls = T -> Forall (fun tp => List.length (snd tp) = W) tps -> NoDup (map fst tps) ->
  exists d, open_FilmSenseFile pf pi (("Film_Sense_Dyn_Data" ++ newline)%string :: head :: wls ++ heading :: sls ++ rest) = Ok (Dict d) /\
    map fst d = map fst tps /\
    Forall2 (fun tp x => exists pts, fs_points aoi ws (snd tp) pts /\ stores x false pts) tps (map snd d).
Proof.
  intros Hh Hw Hs L1 L2 HW Nd. unfold open_FilmSenseFile. cbn [readline].
  replace (String.eqb _ _) with false by reflexivity. rewrite String.eqb_refl.
  unfold fs_dynamic. cbn [readline]. rewrite (head_ok pf pi true _ _ _ _ Hh). cbn [rbind].
  destruct (waves_ok pf wls ws (heading :: sls ++ rest) Hw) as (rows & E & Ew). rewrite L1 in E. rewrite E. cbn [rbind readline].
  rewrite Ew. destruct (times_ok pf W ws aoi sls tps rest Hs HW []) as (d & E' & K & V); [exact Nd|].
  rewrite L2 in E'. rewrite E'. cbn [rmap app]. exists d. split; [reflexivity|]. split; [exact K|].
  assert (List.length ws = W) as L3 by (rewrite <- L1; symmetry; exact (F2_length _ _ _ Hw)).
  clear - V HW L3. induction V as [|tp x tps xs (ncs & Q & ->) V IH]; [constructor|].
  inversion HW as [|? ? W1 W2]. constructor; [|apply IH; auto].
  eexists. split; [split; [|reflexivity]; congruence|]. eapply loaded_stores; [exact Q|]. split; [congruence|reflexivity].
Qed.

Lemma open_fs_other pf pi l rest : l <> ("Film_Sense_Data" ++ newline)%string -> l <> ("Film_Sense_Dyn_Data" ++ newline)%string ->
  open_FilmSenseFile pf pi (l :: rest) = Raise AssertionError.
Proof.
  intros N1 N2. unfold open_FilmSenseFile. cbn [readline].
  rewrite (proj2 (String.eqb_neq _ _) N1), (proj2 (String.eqb_neq _ _) N2). reflexivity.
Qed.

(** ** repeated times *)
Definition sets (kvs : list (R * loaded)) (d : list (R * loaded)) : list (R * loaded) :=
  fold_left (fun d kv => dict_set req_b (fst kv) (snd kv) d) kvs d.
Lemma sets_general kvs : forall d, NoDup (map fst d) ->
  NoDup (map fst (sets kvs d)) /\
  (forall k, In k (map fst (sets kvs d)) <-> In k (map fst d) \/ In k (map fst kvs)) /\
  (forall before k x after, kvs = before ++ (k, x) :: after -> ~ In k (map fst after) -> In (k, x) (sets kvs d)) /\
  (forall k, ~ In k (map fst kvs) -> dict_get req_b k (sets kvs d) = dict_get req_b k d).
Proof.
  induction kvs as [|(k0, x0) kvs IH]; intros d N.
  { cbn [sets fold_left map]. split; [auto|]. split; [intros k; simpl; tauto|].
    split; [|auto]. intros [|? ?] ? ? ? E; discriminate. }
  change (sets ((k0, x0) :: kvs) d) with (sets kvs (dict_set req_b k0 x0 d)).
  destruct (dict_set_keys req_b req_b_true k0 x0 d N) as (N' & K).
  destruct (IH _ N') as (I1 & I2 & I3 & I4).
  split; [exact I1|]. split; [|split].
  - intros k. rewrite I2, K. simpl. intuition.
  - intros [|b before] k x after E F.
    + cbn [app] in E. inversion E as [[E1 E2 E3]]. subst k0 x0 kvs.
      apply (dict_get_in req_b req_b_true). rewrite I4 by exact F.
      rewrite (dict_get_set req_b req_b_true). rewrite (proj2 (req_b_true k k) eq_refl). reflexivity.
    + cbn [app] in E. inversion E as [[E1 E2]]. subst kvs. eapply I3; eauto.
  - intros k F. cbn [map fst] in F. rewrite I4 by (intros Hu; apply F; right; auto).
    rewrite (dict_get_set req_b req_b_true). destruct (req_b k k0) eqn:E; auto.
    apply req_b_true in E. subst. exfalso. apply F. left; auto.
Qed.
Definition tp_data (wavs : list num) (aoi : num) (tp : R * list (R * R)) (kv : R * loaded) : Prop :=
  fst kv = fst tp /\ exists ncs, Forall2 ncs_of (snd tp) ncs /\ snd kv = fs_loaded wavs aoi ncs.
Lemma times_sets pf W wavs aoi ls tps rest : Forall2 (fun l tp => fs_step pf l (fst tp) (snd tp)) ls tps ->
  Forall (fun tp => List.length (snd tp) = W) tps -> forall d,
  exists kvs, fs_times pf W wavs aoi (List.length ls) (ls ++ rest) d = Ok (sets kvs d) /\ Forall2 (tp_data wavs aoi) tps kvs.
Proof.
  intros F. induction F as [|l tp ls tps Hl F IH]; intros HW d.
  { exists []. split; [reflexivity|constructor]. }
  inversion HW as [|? ? W1 W2].
  destruct (step_ok pf l _ _ (List.length ls) _ Hl W1 wavs aoi (ls ++ rest) d) as (ncs & Q & E).
  cbn [List.length app]. rewrite E.
  destruct (IH W2 (dict_set req_b (fst tp) (fs_loaded wavs aoi ncs) d)) as (kvs & E' & V).
  exists ((fst tp, fs_loaded wavs aoi ncs) :: kvs). split; [exact E'|].
  constructor; auto. split; [reflexivity|]. exists ncs. auto.
Qed.
Lemma tp_data_keys wavs aoi tps kvs : Forall2 (tp_data wavs aoi) tps kvs -> map fst kvs = map fst tps.
Proof. induction 1 as [|tp kv tps kvs (E & _) H IH]; [reflexivity|]. cbn [map]. rewrite E, IH. reflexivity. Qed.

Lemma open_fs_repeated pf pi head wls ws heading sls tps W T aoi rest :
  fs_head pf pi [3]%nat head W T aoi -> Forall2 (fs_wave pf) wls ws ->
  Forall2 (fun l tp => fs_step pf l (fst tp) (snd tp)) sls tps ->
  List.length wls = W -> List.length sls = T -> Forall (fun tp => List.length (snd tp) = W) tps ->
  exists d, open_FilmSenseFile pf pi (("Film_Sense_Dyn_Data" ++ newline)%string :: head :: wls ++ heading :: sls ++ rest) = Ok (Dict d) /\
    NoDup (map fst d) /\ (forall t, In t (map fst d) <-> In t (map fst tps)) /\
    (forall before t pds after, tps = before ++ (t, pds) :: after -> ~ In t (map fst after) ->
       exists x pts, In (t, x) d /\ fs_points aoi ws pds pts /\ stores x false pts).
Proof.
  intros Hh Hw Hs L1 L2 HW. unfold open_FilmSenseFile. cbn [readline].
  replace (String.eqb _ _) with false by reflexivity. rewrite String.eqb_refl.
  unfold fs_dynamic. cbn [readline]. rewrite (head_ok pf pi true _ _ _ _ Hh). cbn [rbind].
  destruct (waves_ok pf wls ws (heading :: sls ++ rest) Hw) as (rows & E & Ew). rewrite L1 in E. rewrite E. cbn [rbind readline].
  rewrite Ew. destruct (times_sets pf W ws aoi sls tps rest Hs HW []) as (kvs & E' & V).
  rewrite L2 in E'. rewrite E'. cbn [rmap]. exists (sets kvs []). split; [reflexivity|].
  destruct (sets_general kvs [] ltac:(constructor)) as (I1 & I2 & I3 & _).
  pose proof (tp_data_keys _ _ _ _ V) as K.
  split; [exact I1|]. split.
  { intros t. rewrite I2, K. simpl. tauto. }
  intros before t pds after Et Na.
  assert (List.length ws = W) as L3 by (rewrite <- L1; symmetry; exact (F2_length _ _ _ Hw)).
  rewrite Et in V. apply Forall2_app_inv_l in V. destruct V as (kb & ka & _ & V & ->).
  inversion V as [|tp (k, x) ta ka' (Ek & ncs & Q & Ex) V']; subst. cbn [fst snd] in *. subst.
  assert (List.length pds = List.length wls) as Lp.
  { rewrite Forall_forall in HW. apply (HW (t, pds)). rewrite in_app_iff. right. left. reflexivity. }
  exists (fs_loaded (map (fun r => nth 0 r None) rows) aoi ncs). eexists. split; [|split; [split; [|reflexivity]; congruence|]].
  - eapply I3; [reflexivity|]. rewrite (tp_data_keys _ _ _ _ V'). exact Na.
  - eapply loaded_stores; [exact Q|]. split; [congruence|reflexivity].
Qed.

(** ** a file that ends too early *)
Lemma block_short {A} pf is (P : string -> A -> Prop) (Q : A -> list num -> Prop) ls xs n :
  (forall l x, P l x -> exists r, floats_at pf (split tab l) is = Ok r /\ Q x r) -> Forall2 P ls xs ->
  pf EmptyString = None -> (exists is', is = 0%nat :: is') -> (List.length ls < n)%nat ->
  fs_block pf is n ls = Raise ValueError.
Proof.
  intros H F He (is' & ->) L. revert n L. induction F as [|l x ls xs Hl F IH]; intros [|n] L; try (cbn [List.length] in L; lia).
  - cbn [fs_block readline split]. unfold floats_at. cbn [mapR]. unfold float_at at 1. cbn [nth_error]. rewrite He. reflexivity.
  - destruct (H _ _ Hl) as (r & Er & _). cbn [fs_block readline]. rewrite Er. cbn [rbind].
    rewrite IH by (cbn [List.length] in L; lia). reflexivity.
Qed.
Lemma open_fs_short pf pi head wls ws nls pds W T aoi :
  pf EmptyString = None ->
  fs_head pf pi [3; 4; 5]%nat head W T aoi -> Forall2 (fs_wave pf) wls ws -> Forall2 (fs_ncs pf) nls pds ->
  List.length wls = W -> (List.length nls < W)%nat ->
  open_FilmSenseFile pf pi (("Film_Sense_Data" ++ newline)%string :: head :: wls ++ nls) = Raise ValueError.
Proof.
  intros He Hh Hw Hn L1 L2. unfold open_FilmSenseFile. cbn [readline]. rewrite String.eqb_refl.
  unfold fs_standard. cbn [readline]. rewrite (head_ok pf pi false _ _ _ _ Hh). cbn [rbind].
  destruct (waves_ok pf wls ws nls Hw) as (rows & E & Ew). rewrite L1 in E. rewrite E. cbn [rbind].
  rewrite (block_short pf [0; 1; 2; 3; 4]%nat (fs_ncs pf) ncs_of nls pds W); auto.
  - intros l pd (fs & N & Cc & S & v3 & v4 & F1 & N1 & En). exists [N; Cc; S; v3; v4]. split.
    + rewrite (split_fields _ _ _ F1). apply floats_numbers. auto.
    + split; cbn [nth]; [eapply encoded_psi; eauto|eapply encoded_delta; eauto].
  - eauto.
Qed.
