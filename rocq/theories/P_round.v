(** * Simulated data, saved and loaded, are fitted by the model they come from *)

Require Import Reals List Bool String Ascii Lra Lia ZArith.
From Verif Require Import Base M_disp M_struct M_model M_data M_objective Spec_data P_data Spec_objective P_objective P_objective2 Spec_round.
Import ListNotations.
Open Scope list_scope.
Open Scope R_scope.

Lemma load_apart pf h d f d1 h1 : load pf h d f = Ok (d1, h1) -> ~ In (ds_delta d1) [ds_wav d1; ds_aoi d1; ds_psi d1] /\
  ds_file d1 = ds_file d /\ ds_delim d1 = ds_delim d /\ ds_weighted d1 = ds_weighted d.
Proof.
  unfold load. destruct (detect_header _ _ _ _) as [skip rest].
  destruct (loadtxt _ _ _ _) as [rows|e]; cbn [rbind]; [|discriminate]. destruct (unpack4 rows) as [[[[w a] p] x]|e]; cbn [rbind]; [|discriminate].
  unfold set_columns, alloc. intros E. injection E as <- <-. cbn. rewrite !app_length. cbn. split; [lia|auto].
Qed.

Section Round.
Context (X : list (R * R)) (psi delta : list R) (L1 : List.length psi = List.length X) (L2 : List.length delta = List.length X).

Lemma sim_facts : map p_psi (simulated X psi delta) = map Some psi /\ map p_delta (simulated X psi delta) = map Some delta /\
  Forall2 measured (simulated X psi delta) X /\ List.length (simulated X psi delta) = List.length X.
Proof.
  revert psi delta L1 L2. induction X as [|x X' IH]; intros [|p psi'] [|d delta'] M1 M2; try discriminate; cbn in M1, M2.
  - repeat split. constructor.
  - injection M1 as M1. injection M2 as M2. destruct (IH psi' delta' M1 M2) as (H1 & H2 & H3 & H4).
    unfold simulated in *. cbn [combine map]. cbn [p_psi p_delta fst snd] in *. rewrite H1, H2.
    split; [reflexivity|]. split; [reflexivity|]. split; [constructor; [split; reflexivity|exact H3]|].
    cbn [List.length]. rewrite H4. reflexivity.
Qed.

Lemma sim_fold : Forall (fun x => x <= 180) delta -> map fold_point (simulated X psi delta) = simulated X psi delta.
Proof.
  intros F. unfold simulated. rewrite map_map. apply map_ext_in. intros [[w a] [p d]] I. unfold fold_point. cbn [fst snd fold_delta].
  apply in_combine_r in I. apply in_combine_r in I. rewrite Forall_forall in F. specialize (F d I).
  destruct (Rlt_dec 180 d); [lra|reflexivity].
Qed.
End Round.

Lemma load_new pf pr h d pts h0 name refl : holds h d pts -> (2 <= List.length pts)%nat ->
  Forall (point_survives pf pr) pts -> pf "# wavelength"%string = None ->
  exists lines, save pr h d = Ok lines /\
  exists d' h', new_dataset pf h0 tab (FromFile name lines) refl = Ok (d', h') /\ ds_flipped d' = refl /\ ds_weighted d' = false /\
    ds_mask d' = MBool (map (fun _ => true) pts) /\ holds h' d' (if refl then map fold_point pts else pts).
Proof.
  intros H N F HH.
  destruct (save_load pf pr h d pts h0 (DataSE 0 0 0 0 (MBool []) false false (Some name) tab) H N F HH eq_refl) as (lines & S & d1 & h1 & E & H1 & M).
  exists lines. split; [exact S|]. destruct (load_apart _ _ _ _ _ _ E) as (A & AF & AD & AW). cbn in AF, AD, AW.
  unfold new_dataset. cbn [take_source]. rewrite E. cbn [rbind]. do 2 eexists. split; [reflexivity|]. cbn [ds_flipped ds_weighted ds_mask].
  split; [reflexivity|]. split; [exact AW|].
  destruct H1 as (H1 & H2 & H3 & H4).
  assert (N1 : ds_delta d1 <> ds_wav d1) by (intros K; apply A; rewrite K; simpl; auto).
  assert (N2 : ds_delta d1 <> ds_aoi d1) by (intros K; apply A; rewrite K; simpl; auto).
  assert (N3 : ds_delta d1 <> ds_psi d1) by (intros K; apply A; rewrite K; simpl; auto).
  destruct refl.
  - split.
    + unfold all_true. rewrite (arr_nth _ _ (map p_wav pts)) by (rewrite nth_error_update_ne; auto). rewrite map_map. reflexivity.
    + unfold holds. cbn [ds_wav ds_aoi ds_psi ds_delta]. rewrite !nth_error_update_ne by auto. rewrite nth_error_update, H4, H1, H2, H3.
      cbn [option_map]. rewrite !map_map. split; [reflexivity|]. split; [reflexivity|]. split; reflexivity.
  - split.
    + unfold all_true. rewrite (arr_nth _ _ _ H1), map_map. reflexivity.
    + unfold holds. cbn [ds_wav ds_aoi ds_psi ds_delta]. auto.
Qed.

Lemma update_same (l : list bool) m b : nth m l false = b -> (m < List.length l)%nat -> update l m (fun _ => b) = l.
Proof. revert m; induction l as [|x l IH]; intros [|m] E K; cbn in *; try lia; [congruence|]. f_equal. apply IH; [exact E|lia]. Qed.

Lemma predicts_arrays sy h st m X psi delta : predicts (with_arrays sy h) st m X psi delta <-> predicts sy st m X psi delta.
Proof. reflexivity. Qed.

Lemma predicts_length sy st m X psi delta : predicts sy st m X psi delta -> List.length psi = List.length X /\ List.length delta = List.length X.
Proof.
  unfold predicts. destruct (call_model sy m X st) as [r st2] eqn:E. cbn [fst]. intros ->. exact (call_model_length _ _ _ _ _ _ _ E).
Qed.

(** without weights the likelihood is at most 0 *)
Lemma sum_nonneg l : Forall (fun x => 0 <= x) l -> 0 <= Rsum l.
Proof. unfold Rsum. induction 1 as [|x l H F IH]; cbn [fold_right]; lra. Qed.
Lemma some_all (P : R -> Prop) (l : list num) : (forall x, In (Some x) l -> P x) -> forall l', all_some l = Some l' -> Forall P l'.
Proof.
  unfold all_some. induction l as [|x l IH]; cbn [mapM]; intros H l' E; [injection E as <-; constructor|].
  destruct x as [x|]; cbn [obind] in E; [|discriminate]. destruct (mapM (fun x => x) l) as [l2|]; cbn [obind] in E; [|discriminate].
  injection E as <-. constructor; [apply H; left; reflexivity|]. apply IH; [|reflexivity]. intros y I. apply H. right. exact I.
Qed.
Lemma in_map2 {A B D} (f : A -> B -> D) a b x : In x (map2 f a b) -> exists u v, In u a /\ In v b /\ x = f u v.
Proof.
  revert b. induction a as [|u a IH]; intros [|v b] H; cbn [map2] in H; try destruct H as [].
  - exists u, v. cbn. auto.
  - destruct (IH _ H) as (u' & v' & H1 & H2 & H3). exists u', v'. cbn. auto.
Qed.
Lemma variances_pos sy st o psi delta v : In (Some v) (variances sy st o psi delta) -> 1 <= v.
Proof.
  unfold variances. destruct (ob_lnsigma o) as [p|]; rewrite in_map_iff.
  - intros (m & E & _). destruct m as [m|]; [|discriminate]. cbn [omap] in E. injection E as <-.
    pose proof (exp_pos (2 * value sy st p)). assert (0 <= exp (2 * value sy st p) * m * m) by (rewrite Rmult_assoc; apply Rmult_le_pos; nra). lra.
  - intros (m & E & _). injection E as <-. lra.
Qed.

Lemma logl_nonpos sy o v st l : weighted o = false -> fst (logl sy o v st) = Ok l -> l <= 0.
Proof.
  intros W. unfold logl, bind. destruct (setp sy o v st) as [[[]|e] st1]; [|discriminate].
  destruct (evaluate sy o st1) as [[[[[psi delta] ?] ?]|e] st2]; [|discriminate].
  destruct (residuals sy o None st2) as [[res|e] st3]; [|discriminate].
  destruct (all_some _) as [ts|] eqn:A; [|discriminate]. unfold ret. cbn [fst]. intros E. injection E as <-.
  assert (0 <= Rsum ts); [|lra]. apply sum_nonneg. refine (some_all (fun x => 0 <= x) _ _ _ A).
  intros x I. apply in_map2 in I as (vv & r & I1 & _ & E). unfold logl_term in E. rewrite W in E. destruct vv as [vv|]; [|discriminate].
  destruct r as [r|]; [|discriminate]. cbn [olift2] in E. injection E as ->. apply variances_pos in I1.
  rewrite Rplus_0_l. apply Rmult_le_pos; [apply pow2_ge_0|]. left. apply Rinv_0_lt_compat. lra.
Qed.

Lemma circ_zero x : circle_distance 360 x x 0.
Proof.
  split; [exists 0%Z; replace (x - x + 0 * 360) with 0 by ring; rewrite Rabs_R0; reflexivity|]. intros k. apply Rabs_pos.
Qed.
Lemma circ_fun p a b d d' : circle_distance p a b d -> circle_distance p a b d' -> d = d'.
Proof. intros [[k ->] H] [[k' ->] H']. specialize (H k'). specialize (H' k). lra. Qed.

Section Fit.
Context (sy : system) (o : objective) (st : state) (X : list (R * R)) (psi delta : list R).
Context (P : predicts sy st (ob_model o) X (map Some psi) (map Some delta)) (HD : has_data sy o (simulated X psi delta) X).

Lemma zero_residuals : fst (residuals sy o None st) = Ok (map (fun _ => Some 0) (psi ++ delta)).
Proof.
  destruct (predicts_length _ _ _ _ _ _ P) as [L1 L2]. rewrite map_length in L1, L2.
  destruct (sim_facts X psi delta L1 L2) as (F1 & F2 & F3 & F4).
  destruct (residuals_spec sy o None st st _ X _ _ HD eq_refl P) as (rp & rd & E & E1 & E2 & E3 & E4 & N).
  rewrite E. f_equal. rewrite map_app. rewrite map_length in E3, E4.
  assert (K : forall (r : list num) (l : list R), List.length r = List.length l -> (forall i, (i < List.length r)%nat -> nth_error r i = Some (Some 0)) -> r = map (fun _ => Some 0) l).
  { clear. induction r as [|a r IH]; intros [|b l] L H; try discriminate; [reflexivity|]. cbn [map]. f_equal.
    - specialize (H 0%nat ltac:(cbn; lia)). cbn in H. congruence.
    - apply IH; [cbn in L; lia|]. intros i Hi. exact (H (Datatypes.S i) ltac:(cbn; lia)). }
  assert (Q : forall i, (i < List.length X)%nat -> nth_error rp i = Some (Some 0) /\ nth_error rd i = Some (Some 0)).
  { intros i Hi. destruct (nth_error (simulated X psi delta) i) as [x|] eqn:Hx; [|apply nth_error_None in Hx; lia].
    assert (H1 : nth_error (map Some psi) i = Some (p_psi x)) by (rewrite <- F1; apply map_nth_error; exact Hx).
    assert (H2 : nth_error (map Some delta) i = Some (p_delta x)) by (rewrite <- F2; apply map_nth_error; exact Hx).
    destruct (N i x _ _ Hx H1 H2) as (a & b & Ha & Ma & Hb & Mb).
    assert (S1 : exists p, p_psi x = Some p) by (apply nth_error_In in H1; apply in_map_iff in H1 as (p & E0 & _); exists p; auto).
    assert (S2 : exists d, p_delta x = Some d) by (apply nth_error_In in H2; apply in_map_iff in H2 as (p & E0 & _); exists p; auto).
    destruct S1 as [p Sp]. destruct S2 as [d Sd]. rewrite Sp in Ma. rewrite Sd in Mb. cbn in Ma, Mb. destruct Mb as (dd & -> & B & _).
    rewrite Ha, Hb, Ma. replace (p - p) with 0 by ring. split; [reflexivity|]. do 2 f_equal.
    apply (circ_fun 360 d d); [apply B|apply circ_zero]. replace (d - d) with 0 by ring. rewrite Rabs_R0. lra. }
  f_equal; apply K; try congruence; intros i Hi; apply Q; lia.
Qed.

Lemma zero_chisqr : fst (chisqr sy o None st) = Ok (Some 0).
Proof.
  destruct (chisqr_spec sy o None st) as (H & _). rewrite (H (map (fun _ => 0) (psi ++ delta))).
  - do 2 f_equal. apply sum_sq_zero. intros x I. apply in_map_iff in I as (? & <- & _). reflexivity.
  - rewrite map_map. apply zero_residuals.
Qed.

Lemma zero_logl : weighted o = false -> fst (logl sy o None st) = Ok 0.
Proof.
  intros W. destruct (logl_spec sy o None st st _ X _ _ HD eq_refl P) as (H & _).
  rewrite (H (psi ++ delta) (map (fun _ => 0) (psi ++ delta))); [|rewrite map_app; reflexivity|rewrite map_map; apply zero_residuals].
  f_equal. assert (E : sum (map (fun mr => term sy st o (fst mr) (snd mr)) (combine (psi ++ delta) (map (fun _ => 0) (psi ++ delta)))) = 0); [|rewrite E; ring].
  generalize (psi ++ delta). intros l. induction l as [|x l IH]; [reflexivity|]. cbn [map combine sum fst snd]. rewrite IH.
  unfold term. unfold weighted in W. rewrite W. unfold Rdiv. ring.
Qed.

Lemma defined_chisqr v st1 psi' delta' : setp sy o v st = (Ok tt, st1) -> predicts sy st1 (ob_model o) X (map Some psi') (map Some delta') ->
  exists c, fst (chisqr sy o v st) = Ok (Some c).
Proof.
  intros HS HP. destruct (predicts_length _ _ _ _ _ _ P) as [L1 L2]. rewrite map_length in L1, L2.
  destruct (sim_facts X psi delta L1 L2) as (F1 & F2 & F3 & F4).
  destruct (residuals_spec sy o v st st1 _ X _ _ HD HS HP) as (rp & rd & E & E1 & E2 & E3 & E4 & N). rewrite map_length in E3, E4.
  assert (Q : forall i, (i < List.length X)%nat -> (exists a, nth_error rp i = Some (Some a)) /\ (exists a, nth_error rd i = Some (Some a))).
  { intros i Hi. destruct (nth_error (simulated X psi delta) i) as [x|] eqn:Hx; [|apply nth_error_None in Hx; lia].
    assert (H1 : nth_error (map Some psi) i = Some (p_psi x)) by (rewrite <- F1; apply map_nth_error; exact Hx).
    assert (H2 : nth_error (map Some delta) i = Some (p_delta x)) by (rewrite <- F2; apply map_nth_error; exact Hx).
    apply nth_error_In, in_map_iff in H1 as (p & Sp & _). apply nth_error_In, in_map_iff in H2 as (d & Sd & _).
    destruct (nth_error psi' i) as [p'|] eqn:Hp; [|apply nth_error_None in Hp; lia].
    destruct (nth_error delta' i) as [d'|] eqn:Hd; [|apply nth_error_None in Hd; lia].
    destruct (N i x (Some p') (Some d') Hx (map_nth_error _ _ _ Hp) (map_nth_error _ _ _ Hd)) as (a & b & Ha & Ma & Hb & Mb).
    rewrite <- Sp in Ma. rewrite <- Sd in Mb. cbn in Ma, Mb. destruct Mb as (dd & -> & _). rewrite Ha, Hb, Ma. split; eexists; reflexivity. }
  assert (K : forall r : list num, (forall i, (i < List.length r)%nat -> exists a, nth_error r i = Some (Some a)) -> exists l, r = map Some l).
  { clear. induction r as [|a r IH]; intros H; [exists []; reflexivity|].
    destruct IH as [l ->]; [intros i Hi; exact (H (Datatypes.S i) ltac:(cbn; lia))|].
    destruct (H 0%nat ltac:(cbn; lia)) as [x Hx]. cbn in Hx. injection Hx as ->. exists (x :: l). reflexivity. }
  destruct (K rp) as [lp Kp]; [intros i Hi; apply Q; lia|]. destruct (K rd) as [ld Kd]; [intros i Hi; apply Q; lia|].
  rewrite Kp, Kd, <- map_app in E. destruct (chisqr_spec sy o v st) as (C & _). rewrite (C _ E). eexists. reflexivity.
Qed.

Lemma same_prediction v st1 psi' delta' : setp sy o v st = (Ok tt, st1) -> predicts sy st1 (ob_model o) X (map Some psi') (map Some delta') ->
  Forall2 (fun a b => Rabs (a - b) <= 360) delta' delta ->
  (fst (chisqr sy o v st) = Ok (Some 0) <-> psi' = psi /\ Forall2 (fun a b => exists k : Z, a - b = IZR k * 360) delta' delta).
Proof.
  intros HS HP HB. destruct (predicts_length _ _ _ _ _ _ P) as [L1 L2]. rewrite map_length in L1, L2.
  destruct (predicts_length _ _ _ _ _ _ HP) as [L3 L4]. rewrite map_length in L3, L4.
  destruct (sim_facts X psi delta L1 L2) as (F1 & F2 & F3 & F4).
  destruct (defined_chisqr v st1 psi' delta' HS HP) as [c HC].
  assert (AT : forall i x, nth_error (simulated X psi delta) i = Some x -> exists p d, nth_error psi i = Some p /\ p_psi x = Some p /\ nth_error delta i = Some d /\ p_delta x = Some d).
  { intros i x Hx.
    assert (H1 : nth_error (map Some psi) i = Some (p_psi x)) by (rewrite <- F1; apply map_nth_error; exact Hx).
    assert (H2 : nth_error (map Some delta) i = Some (p_delta x)) by (rewrite <- F2; apply map_nth_error; exact Hx).
    rewrite nth_error_map in H1, H2. destruct (nth_error psi i) as [p|]; [|discriminate]. destruct (nth_error delta i) as [d|]; [|discriminate].
    cbn in H1, H2. injection H1 as H1. injection H2 as H2. exists p, d. auto. }
  assert (F2n : forall (Q : R -> R -> Prop) a b, Forall2 Q a b <-> List.length a = List.length b /\ forall i x y, nth_error a i = Some x -> nth_error b i = Some y -> Q x y).
  { clear. intros Q a b. split.
    - induction 1 as [|x y a b H F IH]; [split; [reflexivity|intros [|i]; discriminate]|]. destruct IH as [IH1 IH2]. split; [cbn; congruence|].
      intros [|i] u v; cbn; [intros E1 E2; congruence|apply IH2].
    - revert b. induction a as [|x a IH]; intros [|y b] [L H]; try discriminate; constructor; [apply (H 0%nat); reflexivity|].
      apply IH. split; [cbn in L; lia|]. intros i u v. apply (H (Datatypes.S i)). }
  pose proof (chisqr_zero sy o v st st1 _ X _ _ c HD HS HP HC) as Z.
  assert (C0 : fst (chisqr sy o v st) = Ok (Some 0) <-> c = 0) by (rewrite HC; split; [intros E; injection E; auto|intros ->; reflexivity]).
  rewrite C0, Z; clear C0 Z.
  - rewrite F2n. split.
    + intros H. split.
      * apply nth_ext with (d := 0) (d' := 0); [congruence|]. intros i Hi.
        destruct (nth_error (simulated X psi delta) i) as [x|] eqn:Hx; [|apply nth_error_None in Hx; lia].
        destruct (H i x Hx) as (p & d & y & A1 & A2 & _). destruct (AT i x Hx) as (p2 & d2 & B1 & B2 & _).
        rewrite nth_error_map in A1. destruct (nth_error psi' i) as [p3|] eqn:Hp; [|discriminate]. cbn in A1. injection A1 as ->.
        rewrite (nth_error_nth _ _ _ Hp), (nth_error_nth _ _ _ B1). rewrite A2 in B2. injection B2 as ->. reflexivity.
      * split; [congruence|]. intros i a b Ha Hb.
        destruct (nth_error (simulated X psi delta) i) as [x|] eqn:Hx.
        2:{ apply nth_error_None in Hx. assert (nth_error delta i <> None) by congruence. apply nth_error_Some in H0. lia. }
        destruct (H i x Hx) as (p & d & y & _ & _ & A3 & A4 & k & A5). destruct (AT i x Hx) as (p2 & d2 & _ & _ & B3 & B4).
        rewrite nth_error_map, Ha in A3. cbn in A3. injection A3 as <-. rewrite Hb in B3. injection B3 as <-. rewrite A4 in B4. injection B4 as <-.
        exists k. exact A5.
    + intros [-> [_ H]] i x Hx. destruct (AT i x Hx) as (p2 & d2 & B1 & B2 & B3 & B4).
      destruct (nth_error delta' i) as [d'|] eqn:Hd.
      2:{ apply nth_error_None in Hd. assert (nth_error delta i <> None) by congruence. apply nth_error_Some in H0. lia. }
      exists p2, d', d2. rewrite !nth_error_map, B1, Hd. destruct (H i d' d2 Hd B3) as [k Hk].
      split; [reflexivity|]. split; [exact B2|]. split; [reflexivity|]. split; [exact B4|]. exists k. exact Hk.
  - intros i x y d Hx Hy Hd. destruct (AT i x Hx) as (p2 & d2 & _ & _ & B3 & B4). rewrite Hy in B4. injection B4 as ->.
    rewrite nth_error_map in Hd. destruct (nth_error delta' i) as [d3|] eqn:Hd3; [|discriminate]. cbn in Hd. injection Hd as ->.
    apply F2n in HB. apply (proj2 HB i); auto.
Qed.
End Fit.

Theorem round_trip pf pr sy st m X psi delta h d name refl lnsigma use_weights extra :
  predicts sy st m X (map Some psi) (map Some delta) -> (m < List.length (st_flips st))%nat -> nth m (st_flips st) false = refl ->
  (refl = true -> Forall (fun x => x <= 180) delta) ->
  holds h d (simulated X psi delta) -> (2 <= List.length X)%nat ->
  Forall (point_survives pf pr) (simulated X psi delta) -> pf "# wavelength"%string = None ->
  exists lines d' h', save pr h d = Ok lines /\ new_dataset pf (sy_heap sy) tab (FromFile name lines) refl = Ok (d', h') /\
  exists o, new_objective m d' lnsigma use_weights extra st = (o, st) /\
  let sy' := with_arrays sy h' in
  fst (residuals sy' o None st) = Ok (map (fun _ => Some 0) (psi ++ delta)) /\ fst (chisqr sy' o None st) = Ok (Some 0) /\
  fst (logl sy' o None st) = Ok 0 /\
  (forall v l, fst (logl sy' o v st) = Ok l -> l <= 0) /\
  (forall v st1 psi' delta', setp sy' o v st = (Ok tt, st1) -> predicts sy' st1 m X (map Some psi') (map Some delta') ->
     Forall2 (fun a b => Rabs (a - b) <= 360) delta' delta ->
     (fst (chisqr sy' o v st) = Ok (Some 0) <-> psi' = psi /\ Forall2 (fun a b => exists k : Z, a - b = IZR k * 360) delta' delta)).
Proof.
  intros P M FL FO H N F HH.
  destruct (predicts_length _ _ _ _ _ _ P) as [L1 L2]. rewrite map_length in L1, L2.
  destruct (sim_facts X psi delta L1 L2) as (F1 & F2 & F3 & F4).
  destruct (load_new pf pr h d _ (sy_heap sy) name refl H ltac:(rewrite F4; exact N) F HH) as (lines & S & d' & h' & E & E1 & E2 & E3 & E4).
  assert (E5 : holds h' d' (simulated X psi delta)).
  { destruct refl; [|exact E4]. rewrite (sim_fold X psi delta (FO eq_refl)) in E4. exact E4. }
  exists lines, d', h'. split; [exact S|]. split; [exact E|]. exists (Objective m d' lnsigma use_weights extra). split.
  - unfold new_objective. f_equal. destruct st as [a b c]. cbn in *. f_equal. rewrite E1. apply update_same; auto.
  - cbv zeta. set (o := Objective m d' lnsigma use_weights extra). set (sy' := with_arrays sy h').
    assert (HD : has_data sy' o (simulated X psi delta) X).
    { exists (simulated X psi delta), (map (fun _ => true) (simulated X psi delta)). split; [exact E5|]. split; [exact E3|].
      split; [apply kept_all|exact F3]. }
    assert (P' : predicts sy' st (ob_model o) X (map Some psi) (map Some delta)) by exact P.
    assert (W : weighted o = false) by (unfold weighted, o; cbn [ob_data]; rewrite E2; reflexivity).
    split; [exact (zero_residuals sy' o st X psi delta P' HD)|]. split; [exact (zero_chisqr sy' o st X psi delta P' HD)|].
    split; [exact (zero_logl sy' o st X psi delta P' HD W)|]. split.
    + intros v l. apply logl_nonpos. exact W.
    + intros v st1 psi' delta' HS HP HB. exact (same_prediction sy' o st X psi delta P' HD v st1 psi' delta' HS HP HB).
Qed.
