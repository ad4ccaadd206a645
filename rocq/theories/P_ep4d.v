(** * Proofs about open_EP4file: maps as time series; rounding *)

Require Import Reals ZArith Lra Lia List Bool String Sorting.Sorted Permutation.
From Verif Require Import Base M_disp M_model M_data Spec_data P_data P_struct M_ep4 Spec_ep4 P_ep4 P_ep4b P_ep4c.
Import ListNotations.
Open Scope list_scope.
Open Scope R_scope.

(** ** several areas in a time step *)
Lemma sorted_filter {A} (f : A -> bool) (g : A -> nat) l :
  StronglySorted lt (map g l) -> StronglySorted lt (map g (filter f l)).
Proof.
  induction l as [|a l IH]; cbn [map filter]; intros S; [constructor|].
  inversion S as [|? ? S' F]; subst. destruct (f a); [|auto]. cbn [map]. constructor; [auto|].
  rewrite Forall_forall in *. intros x Hx. apply F. apply in_map_iff in Hx as (y & <- & Hy).
  apply filter_In in Hy as (Hy & _). apply in_map. exact Hy.
Qed.
Lemma step_increasing cols rows t : increasing rows -> increasing (step_rows cols rows t).
Proof. unfold increasing, step_rows. apply sorted_filter. Qed.

Lemma outs_time cols n bs : Forall (fun s => sm_time s = None) (outs cols n bs).
Proof.
  induction bs as [|b bs IH]; [constructor|]. destruct bs as [|b' bs].
  - cbn [outs]. destruct (truncated n b); repeat constructor.
  - change (Forall (fun s => sm_time s = None) (area_summary cols b :: outs cols n (b' :: bs))).
    constructor; [reflexivity|exact IH].
Qed.
Lemma load_total cols rows : four_columns cols -> increasing rows ->
  exists l, load_EP4 cols rows = Ok l /\ Forall (fun s => sm_time s = None) l.
Proof.
  intros Q S. destruct (multi_location cols rows) eqn:M.
  - rewrite load_areas by assumption. eexists. split; [reflexivity|apply outs_time].
  - unfold load_EP4. rewrite M, need_four by exact Q. cbn [rbind]. eexists. split; [reflexivity|].
    repeat constructor.
Qed.

(** an unlabelled summary that is not the last one *)
Definition stuck (out : list summary) : Prop :=
  exists pre s post, out = pre ++ s :: post /\ post <> [] /\ sm_time s = None.
Lemma label_last_total t out : out <> [] -> exists pre s, out = pre ++ [s] /\ label_last t out = Ok (pre ++ [with_time (Some t) s]).
Proof.
  intros N. destruct (exists_last N) as (pre & s & ->). exists pre, s. split; [reflexivity|apply label_last_app].
Qed.
Lemma stuck_app out l : stuck out -> stuck (out ++ l).
Proof.
  intros (pre & s & post & -> & N & E). exists pre, s, (post ++ l). rewrite <- app_assoc. split; [reflexivity|].
  split; [|exact E]. intros X. apply app_eq_nil in X. tauto.
Qed.
Lemma stuck_label t out out' : stuck out -> label_last t out = Ok out' -> stuck out'.
Proof.
  intros (pre & s & post & -> & N & E). destruct (exists_last N) as (p & z & ->).
  assert (pre ++ s :: p ++ [z] = (pre ++ s :: p) ++ [z]) as -> by (rewrite <- app_assoc; reflexivity).
  rewrite label_last_app. intros [= <-]. exists pre, s, (p ++ [with_time (Some t) z]).
  rewrite <- app_assoc. split; [reflexivity|]. split; [destruct p; discriminate|exact E].
Qed.
Lemma loop_stuck cols rows : four_columns cols -> increasing rows -> forall ts out, out <> [] ->
  exists out', time_loop cols rows ts out = Ok out' /\
    (stuck out \/ (exists t a b l, In t ts /\ load_EP4 cols (step_rows cols rows t) = Ok (a :: b :: l)) -> stuck out').
Proof.
  intros Q S. induction ts as [|t ts IH]; intros out N; cbn [time_loop].
  - exists out. split; [reflexivity|]. intros [H|(? & ? & ? & ? & [] & _)]. exact H.
  - fold (step_rows cols rows t).
    destruct (load_total cols (step_rows cols rows t) Q (step_increasing _ _ _ S)) as (l & EL & FT).
    rewrite EL. cbn [rbind].
    assert (out ++ l <> []) as NO by (intros X; apply app_eq_nil in X; tauto).
    destruct (label_last_total t (out ++ l) NO) as (pre & s & EO & ELL). rewrite ELL. cbn [rbind].
    destruct (IH (pre ++ [with_time (Some t) s])) as (out' & -> & H).
    { destruct pre; discriminate. }
    exists out'. split; [reflexivity|]. intros [ST|(t' & a & b & l' & [<-|Ht] & E)].
    + apply H. left. apply (stuck_label t (out ++ l)); [apply stuck_app; exact ST|exact ELL].
    + apply H. left. apply (stuck_label t (out ++ l)); [|exact ELL]. rewrite E in EL. injection EL as <-.
      exists out, a, (b :: l'). split; [reflexivity|]. split; [discriminate|]. inversion FT; assumption.
    + apply H. right. exists t', a, b, l'. split; assumption.
Qed.

Lemma outs_cons2 cols n b b' bs : exists l, outs cols n (b :: b' :: bs) = area_summary cols b :: l.
Proof. eexists. reflexivity. Qed.

(** the first time step yields something *)
Lemma first_step cols r rows : four_columns cols -> increasing (r :: rows) -> fst r = 0%nat ->
  exists s l, load_EP4 cols (step_rows cols (r :: rows) (cell cols "Time" r)) = Ok (s :: l).
Proof.
  intros Q S Z.
  assert (exists rs, step_rows cols (r :: rows) (cell cols "Time" r) = r :: rs) as (rs & E).
  { unfold step_rows. cbn [filter]. rewrite (proj2 (req_b_true _ _) eq_refl). eauto. }
  pose proof (step_increasing cols _ (cell cols "Time" r) S) as S'. rewrite E in *.
  destruct (multi_location cols (r :: rs)) eqn:M.
  - rewrite load_areas by assumption. pose proof (cut_concat cols (r :: rs) None None) as EC.
    rewrite cut_first_none in EC. cbn [app] in EC.
    pose proof (cut_nonempty cols (r :: rs) None None) as NE.
    destruct (snd (cut cols None None (r :: rs))) as [|b [|b' bs]]; [discriminate| |].
    + cbn [List.concat] in EC. rewrite app_nil_r in EC. subst b. cbn [outs truncated filter List.length].
      rewrite Z. cbn [Nat.ltb Nat.leb]. eauto.
    + destruct (outs_cons2 cols (List.length (r :: rs)) b b' bs) as (l & ->). eauto.
  - unfold load_EP4. rewrite M, need_four by exact Q. cbn [rbind]. eauto.
Qed.

Lemma multi_scattered cols rows ms : NoDup cols -> Forall2 (at_pos cols) rows ms ->
  In "X_pos"%string cols -> In "Y_pos"%string cols -> scattered ms -> multi_location cols rows = true.
Proof.
  intros ND G HX HY (m & m' & Hm & Hm' & D). apply not_false_is_true. intros E.
  apply multi_false in E as [E|[E|(EX & EY)]]; [tauto|tauto|].
  assert (forall m, In m ms -> exists r, In r rows /\ at_pos cols r m) as X.
  { clear - G. induction G; intros z []; [subst; exists x; split; [left; reflexivity|assumption]|].
    destruct (IHG z H0) as (r & Hr & P). exists r. split; [right|]; assumption. }
  destruct (X m Hm) as (r & Hr & PX & PY), (X m' Hm') as (r' & Hr' & PX' & PY').
  destruct D as [D|D]; apply D.
  - rewrite <- PX, <- PX'. apply EX; apply in_map; assumption.
  - rewrite <- PY, <- PY'. apply EY; apply in_map; assumption.
Qed.
Lemma blocks_scattered bs : blocks bs -> (2 <= List.length bs)%nat -> scattered (List.concat bs).
Proof.
  intros H L. destruct H as [|m b m' b' bs F N H]; [cbn in L; lia|].
  exists m, m'. split; [left; reflexivity|]. split.
  { cbn [List.concat]. right. apply in_or_app. right. left. reflexivity. }
  destruct (Req_EM_T (me_x m) (me_x m')) as [EX|]; [|tauto].
  destruct (Req_EM_T (me_y m) (me_y m')) as [EY|]; [|tauto].
  exfalso. apply N. unfold near, close. rewrite EX, EY.
  replace (me_x m' - me_x m') with 0 by ring. replace (me_y m' - me_y m') with 0 by ring. rewrite Rabs_R0.
  pose proof (Rabs_pos (me_x m')). pose proof (Rabs_pos (me_y m')). lra.
Qed.

Lemma open_map_series_fails pr fname t refl rows ms t0 bs :
  rectangular t -> complete (tb_rows t) rows ->
  Forall2 (optics (tb_cols t)) rows ms -> Forall2 (place (tb_cols t)) rows ms ->
  Forall2 (moment (tb_cols t)) rows ms -> ~ no_change (tb_cols t) rows "Time" ->
  at_time t0 ms = List.concat bs -> blocks bs -> (3 <= List.length bs)%nat ->
  open_EP4file pr fname t refl = Raise KeyError.
Proof.
  intros (ND & L) CO F P G T E BL LB. rewrite (open_rows _ _ _ _ _ CO).
  pose proof (complete_lengths _ _ _ CO L) as L'.
  rewrite time_series by assumption.
  assert (four_columns (tb_cols t) /\ In "X_pos"%string (tb_cols t) /\ In "Y_pos"%string (tb_cols t)) as (Q & HX & HY).
  { destruct F as [|r m rows ms (A & B & C & D) _].
    - exfalso. apply T. right. intros ? ? ? ? [].
    - inversion P as [|? ? ? ? (PX & PY) _]; subst. split; [|split; eapply field_in; eassumption].
      repeat split; eapply field_in; eassumption. }
  set (cols := tb_cols t) in *. set (lr := reset_index rows) in *.
  assert (Forall2 (fun r m => cell cols "Time" r = me_t m) lr ms) as G'.
  { eapply F2_reset; [|exact G]. intros. apply cell_field; assumption. }
  assert (Forall2 (at_pos cols) lr ms) as P'.
  { eapply F2_reset; [|exact P]. intros. apply place_pos; assumption. }
  assert (increasing lr) as S by apply reset_increasing.
  assert (exists a b l, load_EP4 cols (step_rows cols lr t0) = Ok (a :: b :: l)) as (a & b & l & EL).
  { assert (Forall2 (at_pos cols) (step_rows cols lr t0) (at_time t0 ms)) as PT by (apply step_meas; assumption).
    rewrite load_areas; [|exact Q| |apply step_increasing; exact S].
    2:{ eapply multi_scattered; [exact ND|exact PT|exact HX|exact HY|]. rewrite E. apply blocks_scattered; [exact BL|lia]. }
    destruct (cut_blocks0 cols _ _ PT) as (cs & F2 & EC & BC).
    { intros X. rewrite X in PT. apply F2_length in PT as X2. rewrite E in X2.
      destruct BL; discriminate X2. }
    assert (cs = bs) as -> by (apply blocks_unique; [exact BC|exact BL|congruence]).
    pose proof (F2_length _ _ _ F2) as LL.
    destruct (snd (cut cols None None (step_rows cols lr t0))) as [|b1 [|b2 [|b3 bb]]]; cbn [List.length] in LL; try lia.
    destruct (outs_cons2 cols (List.length (step_rows cols lr t0)) b2 b3 bb) as (l & EQ).
    exists (area_summary cols b1), (area_summary cols b2), l. f_equal.
    change (area_summary cols b1 :: outs cols (List.length (step_rows cols lr t0)) (b2 :: b3 :: bb)
            = area_summary cols b1 :: area_summary cols b2 :: l).
    rewrite EQ. reflexivity. }
  assert (In t0 (drop_duplicates (map (cell cols "Time") lr))) as HT0.
  { apply drop_dup_in. assert (map (cell cols "Time") lr = map me_t ms) as -> by (eapply F2_map; [|exact G']; auto).
    destruct (at_time t0 ms) as [|m r] eqn:EM.
    - destruct BL; discriminate.
    - assert (In m (at_time t0 ms)) as HM by (rewrite EM; left; reflexivity).
      unfold at_time in HM. apply filter_In in HM as (HM & HE). destruct (Req_EM_T (me_t m) t0) as [<-|]; [|discriminate].
      apply in_map. exact HM. }
  destruct rows as [|r0 rest]; [exfalso; apply T; right; intros ? ? ? ? []|].
  assert (lr = (0%nat, r0) :: combine (seq 1 (List.length rest)) rest) as EQ by reflexivity.
  destruct (first_step cols (0%nat, r0) (combine (seq 1 (List.length rest)) rest) Q) as (s & l1 & E1).
  { exact S. }
  { reflexivity. }
  assert (load_EP4 cols (step_rows cols lr (cell cols "Time" (0%nat, r0))) = Ok (s :: l1)) as E1' by exact E1.
  clear E1. rename E1' into E1.
  assert (drop_duplicates (map (cell cols "Time") lr) = cell cols "Time" (0%nat, r0) ::
    filter (fun y => negb (req_b (cell cols "Time" (0%nat, r0)) y))
           (drop_duplicates (map (cell cols "Time") (combine (seq 1 (List.length rest)) rest)))) as ED.
  { reflexivity. }
  rewrite ED in HT0 |- *. cbn [time_loop]. fold (step_rows cols lr (cell cols "Time" (0%nat, r0))).
  rewrite E1. cbn [rbind app].
  destruct (label_last_total (cell cols "Time" (0%nat, r0)) (s :: l1)) as (pre & z & EZ & EZL); [discriminate|].
  rewrite EZL. cbn [rbind].
  match goal with |- rbind (time_loop _ _ ?ts ?o) _ = _ =>
    destruct (loop_stuck cols lr Q S ts o) as (out' & -> & H) end.
  { destruct pre; discriminate. }
  cbn [rbind]. apply finish_bad.
  assert (stuck out') as (p & u & q & -> & _ & EU).
  { apply H. destruct HT0 as [<-|HT0].
    - left. rewrite EL in E1. injection E1 as <- <-.
      apply (stuck_label (cell cols "Time" (0%nat, r0)) (a :: b :: l)); [|exact EZL].
      exists [], a, (b :: l). split; [reflexivity|]. split; [discriminate|].
      destruct (load_total cols (step_rows cols lr (cell cols "Time" (0%nat, r0))) Q (step_increasing _ _ _ S)) as (l2 & E2 & F2).
      rewrite EL in E2. injection E2 as <-. inversion F2; assumption.
    - right. exists t0, a, b, l. split; assumption. }
  apply Exists_exists. exists u. split; [apply in_or_app; right; left; reflexivity|exact EU].
Qed.

(** ** scans with scattered positions *)
Lemma drop_dup_step t st l : st <> [] -> Forall (fun m => me_t m = t) st -> ~ In t l ->
  drop_duplicates (map me_t st ++ l) = t :: drop_duplicates l.
Proof.
  intros N F NI.
  assert (filter (fun y => negb (req_b t y)) (drop_duplicates l) = drop_duplicates l) as FE.
  { apply filter_all. intros x Hx. apply (proj1 (drop_dup_in _ _)) in Hx. destruct (req_b t x) eqn:B; [|reflexivity].
    apply req_b_true in B. rewrite B in NI. contradiction. }
  induction F as [|m st E F IH]; [tauto|]. cbn [map app drop_duplicates]. rewrite E. f_equal.
  destruct st as [|m' st]; [exact FE|]. rewrite IH by discriminate. cbn [filter].
  rewrite (proj2 (req_b_true t t) eq_refl). exact FE.
Qed.
Lemma scan_times ts steps : NoDup ts ->
  Forall2 (fun t st => Forall (fun m => me_t m = t) st) ts steps -> (forall t m, ~ In t ts -> In m (List.concat steps) -> me_t m <> t).
Proof.
  intros ND F t m N Hm E. apply N. clear N ND. induction F as [|t0 st ts steps F0 F IH]; [destruct Hm|].
  cbn [List.concat] in Hm. apply in_app_or in Hm as [Hm|Hm]; [|right; auto].
  left. rewrite Forall_forall in F0. rewrite <- (F0 m Hm). exact E.
Qed.
Lemma scan_dedup ts steps : NoDup ts -> Forall (fun st => st <> []) steps ->
  Forall2 (fun t st => Forall (fun m => me_t m = t) st) ts steps ->
  drop_duplicates (map me_t (List.concat steps)) = ts.
Proof.
  intros ND NE F. induction F as [|t st ts steps F0 F IH]; [reflexivity|].
  inversion ND as [|? ? N ND']; subst. inversion NE; subst.
  cbn [List.concat]. rewrite map_app, (drop_dup_step t); [rewrite IH by assumption; reflexivity|assumption|assumption|].
  intros H. apply in_map_iff in H as (m & E & Hm). exact (scan_times ts steps ND' F t m N Hm E).
Qed.
Lemma at_time_app t l l' : at_time t (l ++ l') = at_time t l ++ at_time t l'.
Proof. apply filter_app. Qed.
Lemma at_time_all t l : Forall (fun m => me_t m = t) l -> at_time t l = l.
Proof.
  intros F. apply filter_all. rewrite Forall_forall in F. intros m Hm. rewrite (F m Hm).
  destruct (Req_EM_T t t); congruence.
Qed.
Lemma at_time_none t l : (forall m, In m l -> me_t m <> t) -> at_time t l = [].
Proof. intros H. apply filter_none. intros m Hm. destruct (Req_EM_T (me_t m) t); [|reflexivity]. exfalso. eapply H; eassumption. Qed.
Lemma scan_at ts steps t st : NoDup ts ->
  Forall2 (fun t st => Forall (fun m => me_t m = t) st) ts steps -> In (t, st) (combine ts steps) ->
  at_time t (List.concat steps) = st.
Proof.
  intros ND F. induction F as [|t0 st0 ts steps F0 F IH]; [intros []|]. inversion ND as [|? ? N ND']; subst.
  cbn [combine In List.concat]. rewrite at_time_app. intros [[= <- <-]|H].
  - rewrite at_time_all by exact F0. rewrite at_time_none; [apply app_nil_r|]. intros m Hm. exact (scan_times ts steps ND' F _ m N Hm).
  - rewrite IH by assumption. rewrite at_time_none; [reflexivity|].
    intros m Hm E. rewrite Forall_forall in F0. apply F0 in Hm. apply N. rewrite <- Hm, E.
    eapply in_combine_l. exact H.
Qed.

Lemma last_default {A} (x : A) l d d' : last (x :: l) d = last (x :: l) d'.
Proof. revert x. induction l as [|y l IH]; intros x; [reflexivity|]. exact (IH y). Qed.

(** label and measurement *)
Lemma F2_labels {A} (P : list R -> A -> Prop) rows ms : Forall2 P rows ms -> forall n,
  Forall2 (fun (r : lrow) (km : nat * A) => fst r = fst km) (combine (seq n (List.length rows)) rows) (combine (seq n (List.length ms)) ms).
Proof.
  induction 1; intros n; cbn [List.length seq combine]; constructor; auto.
Qed.
Lemma nth_reset cols rows ms k r : Forall2 (moment cols) rows ms -> NoDup cols -> In (k, r) (reset_index rows) ->
  exists m, nth_error ms k = Some m /\ cell cols "Time" (k, r) = me_t m.
Proof.
  intros F ND. unfold reset_index.
  assert (forall n, In (k, r) (combine (seq n (List.length rows)) rows) ->
    exists m, (n <= k)%nat /\ nth_error ms (k - n) = Some m /\ cell cols "Time" (k, r) = me_t m) as X.
  { induction F as [|row m rows ms F0 F IH]; intros n; cbn [List.length seq combine In]; [tauto|].
    intros [[= <- <-]|H].
    - exists m. rewrite Nat.sub_diag. split; [lia|]. split; [reflexivity|]. apply cell_field; assumption.
    - destruct (IH (Datatypes.S n) H) as (m' & L & E & EC). exists m'. split; [lia|].
      replace (k - n)%nat with (Datatypes.S (k - Datatypes.S n)) by lia. split; assumption. }
  intros H. destruct (X 0%nat H) as (m & _ & E & EC). rewrite Nat.sub_0_r in E. eauto.
Qed.

Lemma open_scans pr fname t refl rows n t0 ts st0 steps :
  rectangular t -> complete (tb_rows t) rows ->
  Forall2 (optics (tb_cols t)) rows (List.concat (st0 :: steps)) ->
  Forall2 (place (tb_cols t)) rows (List.concat (st0 :: steps)) ->
  Forall2 (moment (tb_cols t)) rows (List.concat (st0 :: steps)) ->
  scans n (t0 :: ts) (st0 :: steps) -> ts <> [] ->
  exists r s, open_EP4file pr fname t refl = Ok r /\ delivered r refl [s] /\
    averaged st0 s /\ area_position st0 s /\ sm_time s = Some (Some (last ts t0)).
Proof.
  intros (ND & L) CO F P G (NT & SC) NTS. rewrite (open_rows _ _ _ _ _ CO).
  set (ms := List.concat (st0 :: steps)) in *.
  set (cols := tb_cols t) in *. set (lr := reset_index rows).
  assert (Forall2 (fun t st => Forall (fun m => me_t m = t) st) (t0 :: ts) (st0 :: steps)) as ST.
  { eapply F2_impl; [|exact SC]. intros ? ? H. apply H. }
  assert (Forall (fun st => st <> []) (st0 :: steps)) as NE.
  { clear - SC. induction SC as [|? ? ? ? (_ & _ & B & _)]; constructor; [|assumption]. inversion B; discriminate. }
  assert (st0 <> []) as NE0 by (inversion NE; assumption).
  assert (Forall2 (fun r m => cell cols "Time" r = me_t m) lr ms) as G'.
  { eapply F2_reset; [|exact G]. intros. apply cell_field; assumption. }
  assert (Forall2 (at_pos cols) lr ms) as P'.
  { eapply F2_reset; [|exact P]. intros. apply place_pos; assumption. }
  assert (Forall2 (obs cols) lr ms) as F'.
  { eapply F2_reset; [|exact F]. intros. apply optics_obs; assumption. }
  assert (increasing lr) as S by apply reset_increasing.
  assert (map (cell cols "Time") lr = map me_t ms) as EM by (eapply F2_map; [|exact G']; auto).
  assert (drop_duplicates (map (cell cols "Time") lr) = t0 :: ts) as ED.
  { rewrite EM. apply scan_dedup; assumption. }
  assert (exists r0 m0, In r0 rows /\ optics cols r0 m0 /\ place cols r0 m0 /\ moment cols r0 m0) as (r0 & m0 & _ & O0 & P0 & M0).
  { assert (ms <> []) as NM by (unfold ms; destruct st0; [tauto|discriminate]).
    clear - F P G NM. destruct F; [tauto|]. inversion P; inversion G; subst. exists x, y. split; [left; reflexivity|auto]. }
  assert (four_columns cols) as Q by (destruct O0 as (? & ? & ? & ?); repeat split; eapply field_in; eassumption).
  assert (In "X_pos"%string cols /\ In "Y_pos"%string cols) as (HX & HY)
    by (destruct P0; split; eapply field_in; eassumption).
  assert (has_col cols "Time" = true) as -> by (apply has_col_true; eapply field_in; exact M0).
  rewrite ED. assert (Nat.ltb 1 (List.length (t0 :: ts)) = true) as ->
    by (apply Nat.ltb_lt; destruct ts; [tauto|cbn; lia]).
  cbn [andb].
  (* one step *)
  assert (forall t st, In (t, st) (combine (t0 :: ts) (st0 :: steps)) ->
    load_EP4 cols (step_rows cols lr t) =
      Ok (match truncated n (step_rows cols lr t) with [] => [] | c => [area_summary cols c] end) /\
    Forall2 (at_pos cols) (step_rows cols lr t) st /\ Forall2 (obs cols) (step_rows cols lr t) st) as ONE.
  { intros t' st Hin.
    assert (at_time t' ms = st) as EA by (apply (scan_at (t0 :: ts)); assumption).
    assert (Forall2 (at_pos cols) (step_rows cols lr t') st) as PT by (rewrite <- EA; apply step_meas; assumption).
    assert (Forall2 (obs cols) (step_rows cols lr t') st) as OT by (rewrite <- EA; apply step_meas; assumption).
    split; [|split; assumption].
    assert (List.length st = n /\ blocks [st] /\ scattered st) as (LN & BL & SCT).
    { clear - SC Hin. revert Hin. induction SC as [|? ? ? ? (A & _ & B & C) ? IH]; cbn [combine In]; [tauto|].
      intros [[= <- <-]|H]; auto. }
    rewrite load_areas; [|exact Q|eapply multi_scattered; eassumption|apply step_increasing; exact S].
    destruct (cut_blocks0 cols _ _ PT) as (cs & F2 & EC & BC).
    { intros X. rewrite X in PT. apply F2_length in PT. destruct SCT as (z & _ & Hz & _). destruct st; [destruct Hz|discriminate]. }
    assert (cs = [st]) as -> by (apply blocks_unique; [exact BC|exact BL|cbn; rewrite app_nil_r; exact EC]).
    pose proof (cut_concat cols (step_rows cols lr t') None None) as ECC. rewrite cut_first_none in ECC. cbn [app] in ECC.
    destruct (snd (cut cols None None (step_rows cols lr t'))) as [|b [|b2 bb]].
    - inversion F2.
    - cbn [List.concat] in ECC. rewrite app_nil_r in ECC. subst b. cbn [outs].
      rewrite (F2_length _ _ _ PT), LN. reflexivity.
    - exfalso. apply F2_length in F2. discriminate F2. }
  assert (List.length st0 = n) as LN0 by (inversion SC as [|? ? ? ? (A & _) _]; exact A).
  (* first step *)
  assert (truncated n (step_rows cols lr t0) = step_rows cols lr t0) as E0.
  { apply filter_all. intros [k r] Hr. apply filter_In in Hr as (Hr & ET). apply req_b_true in ET.
    apply Nat.ltb_lt. cbn [fst]. destruct (nth_reset cols rows ms k r G ND Hr) as (m & Em & ETm).
    destruct (Nat.lt_ge_cases k n) as [|LE]; [assumption|]. exfalso.
    unfold ms in Em. cbn [List.concat] in Em. rewrite nth_error_app2 in Em by (rewrite LN0; exact LE).
    apply nth_error_In in Em. inversion NT as [|? ? N0 NT']. inversion ST as [|? ? ? ? _ ST'].
    apply (scan_times ts steps NT' ST' t0 m N0 Em). congruence. }
  destruct (ONE t0 st0) as (E1 & PT0 & OT0); [left; reflexivity|]. rewrite E0 in E1.
  assert (step_rows cols lr t0 <> []) as NS.
  { intros X. rewrite X in PT0. apply F2_length in PT0. destruct st0; [tauto|discriminate]. }
  cbn [time_loop]. fold (step_rows cols lr t0). rewrite E1.
  assert (match step_rows cols lr t0 with [] => [] | c => [area_summary cols c] end
          = [area_summary cols (step_rows cols lr t0)]) as -> by (destruct (step_rows cols lr t0); [tauto|reflexivity]).
  cbn [rbind app label_last].
  (* later steps *)
  assert (forall ts2 t1 s, (forall x, In x ts2 -> In x ts) -> exists s',
     time_loop cols lr ts2 [with_time (Some t1) s] = Ok [with_time (Some (last ts2 t1)) s']  /\ s' = s) as LOOP.
  { induction ts2 as [|t2 ts2 IH]; intros t1 s HI; cbn [time_loop last]; [exists s; split; reflexivity|].
    fold (step_rows cols lr t2).
    assert (In t2 ts) as H2 by (apply HI; left; reflexivity).
    assert (exists st2, In (t2, st2) (combine ts steps)) as (st2 & Hst2).
    { inversion ST as [|? ? ? ? _ ST']; subst. clear - H2 ST'. induction ST'; [destruct H2|].
      destruct H2 as [<-|H2]; [eexists; left; reflexivity|]. destruct (IHST' H2) as (z & Hz). exists z. right. exact Hz. }
    destruct (ONE t2 st2) as (E2 & _); [right; exact Hst2|]. rewrite E2.
    assert (truncated n (step_rows cols lr t2) = []) as ->.
    { apply filter_none. intros [k r] Hr. apply filter_In in Hr as (Hr & ET). apply req_b_true in ET.
      apply Nat.ltb_ge. cbn [fst]. destruct (nth_reset cols rows ms k r G ND Hr) as (m & Em & ETm).
      destruct (Nat.le_gt_cases n k) as [|LT]; [assumption|]. exfalso.
      unfold ms in Em. cbn [List.concat] in Em. rewrite nth_error_app1 in Em by (rewrite LN0; exact LT).
      apply nth_error_In in Em. inversion ST as [|? ? ? ? F0 _]. rewrite Forall_forall in F0. apply F0 in Em.
      inversion NT as [|? ? N0 _]. apply N0. rewrite <- Em, <- ETm, ET. exact H2. }
    cbn [rbind app label_last].
    destruct (IH t2 s) as (s' & E' & ->); [intros x Hx; apply HI; right; exact Hx|].
    change (with_time (Some t2) (with_time (Some t1) s)) with (with_time (Some t2) s). rewrite E'.
    exists s. split; [|reflexivity]. destruct ts2 as [|t3 ts2]; [reflexivity|]. rewrite (last_default t3 ts2 t2 t1). reflexivity. }
  destruct (LOOP ts t0 (area_summary cols (step_rows cols lr t0))) as (s' & -> & ->); [tauto|].
  cbn [rbind].
  destruct (finish_ok pr fname refl [with_time (Some (last ts t0)) (area_summary cols (step_rows cols lr t0))]) as (r & -> & D).
  { repeat constructor. discriminate. }
  destruct (area_summary_spec cols (step_rows cols lr t0) st0 OT0 PT0 NS) as (A & B).
  eexists r, _. split; [reflexivity|]. split; [exact D|]. split; [exact A|]. split; [exact B|reflexivity].
Qed.
