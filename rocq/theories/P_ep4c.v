(** * Proofs about open_EP4file *)

Require Import Reals Lra Lia List Bool String Sorting.Sorted Permutation.
From Verif Require Import Base M_disp M_model M_data Spec_data P_data P_struct M_ep4 Spec_ep4 P_ep4 P_ep4b.
Import ListNotations.
Open Scope list_scope.
Open Scope R_scope.

(** ** the final loop *)
Definition finish pr fname refl (output : list summary) : result (one_or_many (string * summary * loaded)) :=
  rbind (mapR (EP4_dataset pr fname refl) output) (fun datasets =>
  match datasets with [d] => Ok (One d) | _ => Ok (Many datasets) end).

Lemma finish_ok pr fname refl ss : Forall (fun s => sm_time s <> None) ss ->
  exists r, finish pr fname refl ss = Ok r /\ delivered r refl ss.
Proof.
  intros F. unfold finish.
  assert (exists ds, mapR (EP4_dataset pr fname refl) ss = Ok ds /\
    Forall2 (fun s d => snd (fst d) = s /\ stored s refl (snd d)) ss ds) as (ds & E & G).
  { induction F as [|s ss N F IH]; cbn [mapR]; [exists []; split; [reflexivity|constructor]|].
    destruct IH as (ds & -> & G). unfold EP4_dataset at 1, EP4_name.
    destruct (sm_time s) as [t|]; [|congruence]. cbn [rmap rbind].
    eexists. split; [reflexivity|]. constructor; [|exact G]. cbn [fst snd]. split; [reflexivity|].
    repeat split. }
  rewrite E. cbn [rbind]. eexists. split; [|exists ds; split; [exact G|reflexivity]].
  destruct ds as [|d [|d' ds]]; reflexivity.
Qed.
Lemma finish_bad pr fname refl ss : Exists (fun s => sm_time s = None) ss -> finish pr fname refl ss = Raise KeyError.
Proof.
  intros F. unfold finish. assert (mapR (EP4_dataset pr fname refl) ss = Raise KeyError) as ->; [|reflexivity].
  induction ss as [|s ss IH]; [inversion F|]. cbn [mapR]. unfold EP4_dataset at 1, EP4_name.
  destruct (sm_time s) as [t|] eqn:E; [|reflexivity]. cbn [rmap rbind].
  rewrite IH; [reflexivity|]. inversion F; subst; [congruence|assumption].
Qed.

(** ** columns that do not change *)
Lemma reset_in rows r : In r (reset_index rows) -> In (snd r) rows.
Proof. unfold reset_index. destruct r. intros H. apply in_combine_r in H. exact H. Qed.

Lemma no_change_const cols rows name : Forall (fun r => List.length r = List.length cols) rows ->
  In name cols -> no_change cols rows name -> const_col cols (reset_index rows) name.
Proof.
  intros L HI [N|H]; [tauto|]. intros x y Hx Hy.
  apply in_map_iff in Hx as ([k r] & <- & Hr). apply in_map_iff in Hy as ([k' r'] & <- & Hr').
  apply reset_in in Hr, Hr'. cbn [snd] in *. rewrite Forall_forall in L.
  apply (H r r'); auto; apply field_cell; auto.
Qed.
Lemma const_no_change cols rows name : NoDup cols -> const_col cols (reset_index rows) name -> no_change cols rows name.
Proof.
  intros ND H. right. intros r r' v v' Hr Hr' Fv Fv'.
  assert (forall r, In r rows -> exists k, In (k, r) (reset_index rows)) as X.
  { clear. unfold reset_index. generalize 0%nat. induction rows as [|a rows IH]; intros n r []; cbn.
    - subst. exists n. tauto.
    - destruct (IH (S n) r H) as (k & Hk). exists k. tauto. }
  destruct (X r Hr) as (k & Hk). destruct (X r' Hr') as (k' & Hk').
  rewrite <- (cell_field cols name k r v ND Fv), <- (cell_field cols name k' r' v' ND Fv').
  apply H; apply in_map; assumption.
Qed.

Lemma no_time_series cols rows : Forall (fun r => List.length r = List.length cols) rows ->
  no_change cols rows "Time" ->
  (has_col cols "Time" && Nat.ltb 1 (List.length (drop_duplicates (map (cell cols "Time") (reset_index rows)))))%bool = false.
Proof.
  intros L H. destruct (has_col cols "Time") eqn:E; [|reflexivity]. apply has_col_true in E. cbn [andb].
  apply Nat.ltb_ge. apply drop_dup_single. apply no_change_const; assumption.
Qed.
Lemma time_series cols rows : NoDup cols -> ~ no_change cols rows "Time" ->
  (has_col cols "Time" && Nat.ltb 1 (List.length (drop_duplicates (map (cell cols "Time") (reset_index rows)))))%bool = true.
Proof.
  intros ND H. destruct (has_col cols "Time") eqn:E.
  - cbn [andb]. apply Nat.ltb_lt. apply Nat.nle_gt. intros L. apply H. apply const_no_change; [exact ND|].
    unfold const_col. apply drop_dup_single. exact L.
  - exfalso. apply H. left. intros X. apply has_col_true in X. congruence.
Qed.
Lemma one_place_multi cols rows : Forall (fun r => List.length r = List.length cols) rows ->
  one_place cols rows -> multi_location cols (reset_index rows) = false.
Proof.
  intros L H. apply multi_false. destruct H as [H|[H|(HX & HY)]]; [tauto|tauto|].
  destruct (in_dec string_dec "X_pos"%string cols); [|tauto].
  destruct (in_dec string_dec "Y_pos"%string cols); [|tauto].
  right; right. split; apply no_change_const; assumption.
Qed.
Lemma not_one_place_multi cols rows : NoDup cols -> ~ one_place cols rows -> multi_location cols (reset_index rows) = true.
Proof.
  intros ND H. apply not_false_is_true. intros E. apply H. apply multi_false in E.
  destruct E as [E|[E|(EX & EY)]]; [left; tauto|right; left; tauto|].
  right; right. split; apply const_no_change; assumption.
Qed.

Lemma open_rows pr fname t refl rows : complete (tb_rows t) rows ->
  open_EP4file pr fname t refl =
  rbind (if (has_col (tb_cols t) "Time" &&
             Nat.ltb 1 (List.length (drop_duplicates (map (cell (tb_cols t) "Time") (reset_index rows)))))%bool
         then time_loop (tb_cols t) (reset_index rows) (drop_duplicates (map (cell (tb_cols t) "Time") (reset_index rows))) []
         else rmap (map (with_time None)) (load_EP4 (tb_cols t) (reset_index rows))) (finish pr fname refl).
Proof. intros C. unfold open_EP4file. rewrite (dropna_complete _ _ C). reflexivity. Qed.

Lemma with_time_averaged t ms s : averaged ms s -> averaged ms (with_time t s).
Proof. intros H. exact H. Qed.
Lemma with_time_position t ms s : area_position ms s -> area_position ms (with_time t s).
Proof. intros H. exact H. Qed.

(** ** C71 *)
Lemma open_single pr fname t refl rows ms :
  rectangular t -> complete (tb_rows t) rows -> four_columns (tb_cols t) ->
  Forall2 (optics (tb_cols t)) rows ms -> no_change (tb_cols t) rows "Time" -> one_place (tb_cols t) rows ->
  exists r s, open_EP4file pr fname t refl = Ok r /\ delivered r refl [s] /\
    averaged ms s /\ sm_pos s = None /\ sm_time s = Some None.
Proof.
  intros (ND & L) CO Q F T P. rewrite (open_rows _ _ _ _ _ CO).
  pose proof (complete_lengths _ _ _ CO L) as L'.
  rewrite no_time_series by assumption.
  destruct (load_single (tb_cols t) (reset_index rows) ms Q) as (s & -> & A & EP & ET).
  - apply one_place_multi; assumption.
  - eapply F2_reset; [|exact F]. intros. apply optics_obs; assumption.
  - cbn [rmap rbind map]. destruct (finish_ok pr fname refl [with_time None s]) as (r & -> & D).
    { repeat constructor. discriminate. }
    exists r, (with_time None s). split; [reflexivity|]. split; [exact D|]. split; [exact A|]. split; [exact EP|reflexivity].
Qed.

(** ** C73 *)
Lemma open_map pr fname t refl rows ms :
  rectangular t -> complete (tb_rows t) rows ->
  Forall2 (optics (tb_cols t)) rows ms -> Forall2 (place (tb_cols t)) rows ms ->
  no_change (tb_cols t) rows "Time" -> ~ one_place (tb_cols t) rows ->
  exists r bs ss, open_EP4file pr fname t refl = Ok r /\ delivered r refl ss /\
    List.concat bs = ms /\ blocks bs /\
    Forall2 (fun b s => averaged b s /\ area_position b s /\ sm_time s = Some None) bs ss.
Proof.
  intros (ND & L) CO F G T P. rewrite (open_rows _ _ _ _ _ CO).
  pose proof (complete_lengths _ _ _ CO L) as L'.
  rewrite no_time_series by assumption.
  assert (four_columns (tb_cols t)) as Q.
  { destruct F as [|r m rows ms (A & B & C & D) _].
    - exfalso. apply P. right; right. split; right; intros ? ? ? ? [].
    - repeat split; eapply field_in; eassumption. }
  destruct (load_map (tb_cols t) rows ms Q) as (bs & ss & E & BL & -> & H).
  - apply not_one_place_multi; assumption.
  - eapply F2_reset; [|exact F]. intros. apply optics_obs; assumption.
  - eapply F2_reset; [|exact G]. intros. apply place_pos; assumption.
  - cbn [rmap rbind]. destruct (finish_ok pr fname refl (map (with_time None) ss)) as (r & -> & D).
    { apply Forall_forall. intros s Hs. apply in_map_iff in Hs as (s' & <- & _). discriminate. }
    exists r, bs, (map (with_time None) ss). split; [reflexivity|]. split; [exact D|]. split; [exact E|]. split; [exact BL|].
    clear - H. induction H as [|b s bs ss (A & B & _) H IH]; cbn [map]; constructor; [|exact IH].
    split; [exact A|]. split; [exact B|reflexivity].
Qed.

(** the decomposition is unique *)
Definition headed (m : meas) (bs : list (list meas)) : Prop :=
  match bs with [] => True | (m' :: _) :: _ => ~ near m m' | [] :: _ => False end.
Lemma blocks_split m : forall b b' bs bs', Forall (near m) b -> Forall (near m) b' -> headed m bs -> headed m bs' ->
  b ++ List.concat bs = b' ++ List.concat bs' -> b = b' /\ List.concat bs = List.concat bs'.
Proof.
  induction b as [|x b IH]; intros [|x' b'] bs bs' F F' H H' E; cbn [app] in E.
  - auto.
  - exfalso. destruct bs as [|[|y c] bs]; [discriminate|destruct H|]. cbn in E. injection E as -> _.
    inversion F'; subst. apply H. assumption.
  - exfalso. destruct bs' as [|[|y c] bs']; [discriminate|destruct H'|]. cbn in E. injection E as <- _.
    inversion F; subst. apply H'. assumption.
  - injection E as <- E. inversion F; inversion F'; subst.
    destruct (IH b' bs bs') as (-> & ->); auto.
Qed.
Lemma blocks_inv m b bs : blocks ((m :: b) :: bs) -> Forall (near m) b /\ headed m bs /\ (bs = [] \/ blocks bs).
Proof. intros H. inversion H; subst; cbn; auto. Qed.
Lemma blocks_unique bs : forall bs', blocks bs -> blocks bs' -> List.concat bs = List.concat bs' -> bs = bs'.
Proof.
  induction bs as [|b bs IH]; intros [|b' bs'] H H' E; [reflexivity|inversion H|inversion H'|].
  assert (exists m c, b = m :: c) as (m & c & ->) by (inversion H; subst; eauto).
  assert (exists m c, b' = m :: c) as (m' & c' & ->) by (inversion H'; subst; eauto).
  cbn [List.concat app] in E. injection E as <- E.
  apply blocks_inv in H as (F & HD & HB). apply blocks_inv in H' as (F' & HD' & HB').
  destruct (blocks_split m c c' bs bs' F F' HD HD' E) as (-> & E').
  f_equal. destruct HB as [->|HB], HB' as [->|HB']; [reflexivity| | |auto].
  - exfalso. destruct bs' as [|[|? ?] ?]; inversion HB'; subst; discriminate.
  - exfalso. destruct bs as [|[|? ?] ?]; inversion HB; subst; discriminate.
Qed.

(** ** time series *)
Lemma label_last_app t out s : label_last t (out ++ [s]) = Ok (out ++ [with_time (Some t) s]).
Proof.
  induction out as [|a out IH]; [reflexivity|]. cbn [app label_last].
  destruct (out ++ [s]) eqn:E; [destruct out; discriminate|]. rewrite IH. reflexivity.
Qed.
Definition step_rows (cols : list string) (rows : list lrow) (t : R) : list lrow :=
  filter (fun r => req_b (cell cols "Time" r) t) rows.
Lemma step_meas {P : lrow -> meas -> Prop} cols rows ms t : Forall2 P rows ms ->
  Forall2 (fun r m => cell cols "Time" r = me_t m) rows ms ->
  Forall2 P (step_rows cols rows t) (at_time t ms).
Proof.
  intros F G. eapply F2_impl; [|apply F2_filter with (P := fun r m => P r m /\ cell cols "Time" r = me_t m);
    [|apply F2_both; eassumption]].
  - intros ? ? (H & _). exact H.
  - intros r m (_ & E). unfold req_b. rewrite E. reflexivity.
Qed.
Lemma loop_steady cols rows ms : four_columns cols -> Forall2 (obs cols) rows ms ->
  Forall2 (fun r m => cell cols "Time" r = me_t m) rows ms ->
  (forall t, multi_location cols (step_rows cols rows t) = false) ->
  forall ts out, exists ss, time_loop cols rows ts out = Ok (out ++ ss) /\
    Forall2 (fun t s => averaged (at_time t ms) s /\ sm_pos s = None /\ sm_time s = Some (Some t)) ts ss.
Proof.
  intros Q F G M. induction ts as [|t ts IH]; intros out; cbn [time_loop].
  - exists []. rewrite app_nil_r. split; [reflexivity|constructor].
  - fold (step_rows cols rows t).
    destruct (load_single cols (step_rows cols rows t) (at_time t ms) Q (M t)) as (s & -> & A & EP & ET).
    { apply step_meas; assumption. }
    cbn [rbind]. rewrite label_last_app. cbn [rbind].
    destruct (IH (out ++ [with_time (Some t) s])) as (ss & -> & H).
    exists (with_time (Some t) s :: ss). rewrite <- app_assoc. split; [reflexivity|].
    constructor; [|exact H]. split; [exact A|]. split; [exact EP|reflexivity].
Qed.

Lemma steady_const cols rows name t : Forall (fun r => List.length r = List.length cols) rows ->
  In "Time"%string cols -> In name cols -> steady cols rows name ->
  const_col cols (step_rows cols (reset_index rows) t) name.
Proof.
  intros L HT HI H x y Hx Hy.
  apply in_map_iff in Hx as ([k r] & <- & Hr). apply in_map_iff in Hy as ([k' r'] & <- & Hr').
  apply filter_In in Hr as (Hr & Et), Hr' as (Hr' & Et').
  apply req_b_true in Et, Et'.
  apply reset_in in Hr, Hr'. cbn [snd] in *. rewrite Forall_forall in L.
  apply (H r r' t); auto; try (apply field_cell; auto).
  - rewrite <- Et. apply field_cell; auto.
  - rewrite <- Et'. apply field_cell; auto.
Qed.

Lemma open_time_series pr fname t refl rows ms :
  rectangular t -> complete (tb_rows t) rows ->
  Forall2 (optics (tb_cols t)) rows ms -> Forall2 (moment (tb_cols t)) rows ms ->
  ~ no_change (tb_cols t) rows "Time" ->
  (~ In "X_pos"%string (tb_cols t) \/ ~ In "Y_pos"%string (tb_cols t) \/
   (steady (tb_cols t) rows "X_pos" /\ steady (tb_cols t) rows "Y_pos")) ->
  exists r ts ss, open_EP4file pr fname t refl = Ok r /\ delivered r refl ss /\ in_order (map me_t ms) ts /\
    Forall2 (fun t s => averaged (at_time t ms) s /\ sm_pos s = None /\ sm_time s = Some (Some t)) ts ss.
Proof.
  intros (ND & L) CO F G T P. rewrite (open_rows _ _ _ _ _ CO).
  pose proof (complete_lengths _ _ _ CO L) as L'.
  rewrite time_series by assumption.
  assert (four_columns (tb_cols t) /\ In "Time"%string (tb_cols t)) as (Q & HT).
  { destruct F as [|r m rows ms (A & B & C & D) _].
    - exfalso. apply T. right. intros ? ? ? ? [].
    - inversion G as [|? ? ? ? GT _]; subst. split; [|eapply field_in; exact GT].
      repeat split; eapply field_in; eassumption. }
  assert (Forall2 (fun r m => cell (tb_cols t) "Time" r = me_t m) (reset_index rows) ms) as G'.
  { eapply F2_reset; [|exact G]. intros. apply cell_field; assumption. }
  assert (map (cell (tb_cols t) "Time") (reset_index rows) = map me_t ms) as ->.
  { eapply F2_map; [|exact G']. auto. }
  destruct (loop_steady (tb_cols t) (reset_index rows) ms Q) with (ts := drop_duplicates (map me_t ms)) (out := @nil summary)
    as (ss & -> & H).
  - eapply F2_reset; [|exact F]. intros. apply optics_obs; assumption.
  - exact G'.
  - intros tt. apply multi_false. destruct P as [P|[P|(PX & PY)]]; [tauto|tauto|].
    destruct (in_dec string_dec "X_pos"%string (tb_cols t)); [|tauto].
    destruct (in_dec string_dec "Y_pos"%string (tb_cols t)); [|tauto].
    right; right. split; apply steady_const; assumption.
  - cbn [rbind app]. destruct (finish_ok pr fname refl ss) as (r & -> & D).
    { clear - H. induction H as [|? ? ? ? (_ & _ & E)]; constructor; [congruence|assumption]. }
    exists r, (drop_duplicates (map me_t ms)), ss. split; [reflexivity|]. split; [exact D|].
    split; [apply drop_dup_order|exact H].
Qed.
