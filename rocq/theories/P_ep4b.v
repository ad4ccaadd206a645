(** * Proofs about the EP4 loader: areas and time series *)

Require Import Reals Lra Lia List Bool String Sorting.Sorted Permutation.
From Verif Require Import Base M_disp M_model M_data Spec_data P_data P_struct M_ep4 Spec_ep4 P_ep4.
Import ListNotations.
Open Scope list_scope.
Open Scope R_scope.

(** ** single place *)
Definition const_col (cols : list string) (rows : list lrow) (name : string) : Prop :=
  forall x y, In x (map (cell cols name) rows) -> In y (map (cell cols name) rows) -> x = y.

Lemma multi_false cols rows : multi_location cols rows = false <->
  ~ In "X_pos"%string cols \/ ~ In "Y_pos"%string cols \/ (const_col cols rows "X_pos" /\ const_col cols rows "Y_pos").
Proof.
  unfold multi_location, const_col. rewrite <- !drop_dup_single.
  destruct (has_col cols "X_pos") eqn:HX; [apply has_col_true in HX|].
  2:{ cbn [andb]. split; [|reflexivity]. intros _. left. intros H. apply has_col_true in H. congruence. }
  destruct (has_col cols "Y_pos") eqn:HY; [apply has_col_true in HY|].
  2:{ cbn [andb]. split; [|reflexivity]. intros _. right; left. intros H. apply has_col_true in H. congruence. }
  cbn [andb]. rewrite orb_false_iff, !Nat.ltb_ge. tauto.
Qed.

Lemma need_ok cols rows ms : rows <> [] -> Forall2 (optics cols) rows ms ->
  need_cols cols (["#Lambda"; "AOI"; "Psi"; "Delta"])%string = Ok tt.
Proof.
  intros N F. destruct F as [|r m rows ms (A & B & C & D) _]; [tauto|].
  apply field_in in A, B, C, D. apply has_col_true in A, B, C, D.
  unfold need_cols. cbn [forallb]. rewrite A, B, C, D. reflexivity.
Qed.
Lemma need_four cols : four_columns cols -> need_cols cols (["#Lambda"; "AOI"; "Psi"; "Delta"])%string = Ok tt.
Proof.
  intros (A & B & C & D). apply has_col_true in A, B, C, D.
  unfold need_cols. cbn [forallb]. rewrite A, B, C, D. reflexivity.
Qed.

Lemma load_single cols rows ms : four_columns cols -> multi_location cols rows = false ->
  Forall2 (obs cols) rows ms ->
  exists s, load_EP4 cols rows = Ok [s] /\ averaged ms s /\ sm_pos s = None /\ sm_time s = None.
Proof.
  intros Q M F. unfold load_EP4. rewrite M, need_four by exact Q. cbn [rbind].
  eexists. split; [reflexivity|]. split; [apply averages_spec; exact F|]. split; reflexivity.
Qed.

(** ** blocks of rows *)
Definition lab (b : list lrow) : nat := match b with r :: _ => fst r | [] => O end.

Fixpoint cut (cols : list string) (xpos ypos : num) (rows : list lrow) : list lrow * list (list lrow) :=
  match rows with
  | [] => ([], [])
  | r :: rs =>
      if (negb (allclose xpos (cell cols "X_pos" r)) || negb (allclose ypos (cell cols "Y_pos" r)))%bool
      then let '(b, bs) := cut cols (Some (cell cols "X_pos" r)) (Some (cell cols "Y_pos" r)) rs in
           ([], (r :: b) :: bs)
      else let '(b, bs) := cut cols xpos ypos rs in (r :: b, bs)
  end.

Lemma cut_starts cols rows : forall x y, area_starts cols x y rows = map lab (snd (cut cols x y rows)).
Proof.
  induction rows as [|r rs IH]; intros x y; cbn [area_starts cut]; [reflexivity|].
  destruct (_ || _)%bool.
  - rewrite IH. destruct (cut cols (Some _) _ rs) as [b bs]. reflexivity.
  - rewrite IH. destruct (cut cols x y rs) as [b bs]. reflexivity.
Qed.
Lemma cut_concat cols rows : forall x y, fst (cut cols x y rows) ++ List.concat (snd (cut cols x y rows)) = rows.
Proof.
  induction rows as [|r rs IH]; intros x y; cbn [cut]; [reflexivity|].
  destruct (_ || _)%bool.
  - specialize (IH (Some (cell cols "X_pos" r)) (Some (cell cols "Y_pos" r))).
    destruct (cut cols (Some _) _ rs) as [b bs]. cbn [fst snd List.concat app] in *. rewrite IH. reflexivity.
  - specialize (IH x y). destruct (cut cols x y rs) as [b bs]. cbn [fst snd app] in *. rewrite IH. reflexivity.
Qed.
Lemma cut_nonempty cols rows : forall x y, Forall (fun b => b <> []) (snd (cut cols x y rows)).
Proof.
  induction rows as [|r rs IH]; intros x y; cbn [cut]; [constructor|].
  destruct (_ || _)%bool.
  - specialize (IH (Some (cell cols "X_pos" r)) (Some (cell cols "Y_pos" r))).
    destruct (cut cols (Some _) _ rs) as [b bs]. cbn [snd] in *. constructor; [discriminate|exact IH].
  - specialize (IH x y). destruct (cut cols x y rs) as [b bs]. exact IH.
Qed.
Lemma cut_first_none cols rows : fst (cut cols None None rows) = [].
Proof.
  destruct rows as [|r rs]; cbn [cut]; [reflexivity|]. cbn [allclose negb orb].
  destruct (cut cols (Some _) _ rs). reflexivity.
Qed.

Lemma allclose_true a b : allclose (Some a) b = true <-> close a b.
Proof. unfold allclose, close. destruct (Rle_dec _ _); split; intros; try congruence; tauto. Qed.

(** the blocks as measurements *)
Lemma cut_blocks cols rows ms : Forall2 (at_pos cols) rows ms -> forall m0,
  exists c cs, Forall2 (at_pos cols) (fst (cut cols (Some (me_x m0)) (Some (me_y m0)) rows)) c /\
    Forall2 (Forall2 (at_pos cols)) (snd (cut cols (Some (me_x m0)) (Some (me_y m0)) rows)) cs /\
    c ++ List.concat cs = ms /\ blocks ((m0 :: c) :: cs).
Proof.
  induction 1 as [|r m rs ms (EX & EY) F IH]; intros m0; cbn [cut].
  - exists [], []. cbn. repeat split; constructor. constructor.
  - rewrite EX, EY.
    destruct (negb (allclose (Some (me_x m0)) (me_x m)) || negb (allclose (Some (me_y m0)) (me_y m)))%bool eqn:B.
    + destruct (IH m) as (c & cs & F1 & F2 & E & BL).
      destruct (cut cols (Some (me_x m)) (Some (me_y m)) rs) as [b bs]. cbn [fst snd] in *.
      exists [], ((m :: c) :: cs). split; [constructor|]. split; [constructor; [constructor; [split; assumption|exact F1]|exact F2]|].
      split; [cbn; rewrite E; reflexivity|]. constructor; [constructor| |exact BL].
      intros (N1 & N2). apply allclose_true in N1, N2. rewrite N1, N2 in B. discriminate.
    + destruct (IH m0) as (c & cs & F1 & F2 & E & BL).
      destruct (cut cols (Some (me_x m0)) (Some (me_y m0)) rs) as [b bs]. cbn [fst snd] in *.
      exists (m :: c), cs. split; [constructor; [split; assumption|exact F1]|]. split; [exact F2|].
      split; [cbn; rewrite E; reflexivity|].
      assert (near m0 m) as N.
      { apply orb_false_iff in B as (B1 & B2). apply negb_false_iff in B1, B2. apply allclose_true in B1, B2.
        split; assumption. }
      inversion BL; subst; constructor; auto.
Qed.
Lemma cut_blocks0 cols rows ms : Forall2 (at_pos cols) rows ms -> rows <> [] ->
  exists cs, Forall2 (Forall2 (at_pos cols)) (snd (cut cols None None rows)) cs /\
    List.concat cs = ms /\ blocks cs.
Proof.
  intros [|r m rs ms' (EX & EY) F] N; [tauto|]. cbn [cut allclose negb orb]. rewrite EX, EY.
  destruct (cut_blocks cols rs ms' F m) as (c & cs & F1 & F2 & E & BL).
  destruct (cut cols (Some (me_x m)) (Some (me_y m)) rs) as [b bs]. cbn [fst snd] in *.
  exists ((m :: c) :: cs). split; [constructor; [constructor; [split; assumption|exact F1]|exact F2]|].
  split; [cbn; rewrite E; reflexivity|exact BL].
Qed.

(** ** what the label slices select *)
Definition increasing (rows : list lrow) : Prop := StronglySorted lt (map fst rows).

Definition truncated (n : nat) (b : list lrow) : list lrow := filter (fun r => Nat.ltb (fst r) n) b.
(** summaries produced for the blocks [bs] of a table with [n] rows *)
Fixpoint outs (cols : list string) (n : nat) (bs : list (list lrow)) : list summary :=
  match bs with
  | [] => []
  | [b] => match truncated n b with [] => [] | c => [area_summary cols c] end
  | b :: bs' => area_summary cols b :: outs cols n bs'
  end.

Lemma sorted_app_lt (l1 l2 : list nat) : StronglySorted lt (l1 ++ l2) ->
  StronglySorted lt l2 /\ (forall x y, In x l1 -> In y l2 -> (x < y)%nat).
Proof.
  induction l1 as [|a l1 IH]; cbn [app]; intros S; [split; [exact S|intros ? ? []]|].
  inversion S as [|? ? S' F]; subst. destruct (IH S') as (S2 & H). split; [exact S2|].
  intros x y [<-|Hx] Hy; [|auto]. rewrite Forall_forall in F. apply F, in_or_app. tauto.
Qed.
Lemma sorted_head a (l : list nat) : StronglySorted lt (a :: l) -> forall y, In y (a :: l) -> (a <= y)%nat.
Proof. intros S y [<-|H]; [lia|]. inversion S as [|? ? _ F]; subst. rewrite Forall_forall in F. apply F in H. lia. Qed.

Lemma filter_none {A} (f : A -> bool) l : (forall x, In x l -> f x = false) -> filter f l = [].
Proof. induction l; cbn; intros H; [reflexivity|]. rewrite H by tauto. apply IHl. intros; apply H; tauto. Qed.
Lemma filter_all {A} (f : A -> bool) l : (forall x, In x l -> f x = true) -> filter f l = l.
Proof. induction l; cbn; intros H; [reflexivity|]. rewrite H by tauto. f_equal. apply IHl. intros; apply H; tauto. Qed.

Lemma loc_block pre b b' post : b <> [] -> b' <> [] -> increasing (pre ++ b ++ b' ++ post) ->
  loc (pre ++ b ++ b' ++ post) (lab b) (lab b') = b.
Proof.
  intros N N' S. destruct b as [|r b]; [tauto|]. destruct b' as [|r' b']; [tauto|]. cbn [lab].
  unfold increasing in S. rewrite !map_app in S. apply sorted_app_lt in S as (S1 & H1).
  pose proof S1 as S1'. apply sorted_app_lt in S1' as (S2 & H2).
  unfold loc. rewrite !filter_app.
  rewrite (filter_none _ pre), (filter_all _ (r :: b)), (filter_none _ (r' :: b')), (filter_none _ post).
  - cbn [app]. rewrite !app_nil_r. reflexivity.
  - intros x Hx. apply andb_false_iff. right. apply Nat.ltb_ge.
    apply (sorted_head _ _ S2). right. apply in_or_app. right. apply in_map. exact Hx.
  - intros x Hx. apply andb_false_iff. right. apply Nat.ltb_ge.
    apply (sorted_head _ _ S2). change (In (fst x) (map fst (r' :: b') ++ map fst post)).
    apply in_or_app. left. apply in_map. exact Hx.
  - intros x Hx. apply andb_true_iff. split.
    + apply Nat.leb_le. apply (sorted_head _ _ S1). cbn [map app]. change (In (fst x) (map fst (r :: b) ++ map fst (r' :: b') ++ map fst post)).
      apply in_or_app. left. apply in_map. exact Hx.
    + apply Nat.ltb_lt. apply H2; [apply in_map; exact Hx|]. left. reflexivity.
  - intros x Hx. apply andb_false_iff. left. apply Nat.leb_gt. apply H1; [apply in_map; exact Hx|]. left. reflexivity.
Qed.
Lemma loc_last pre b n : b <> [] -> increasing (pre ++ b) -> loc (pre ++ b) (lab b) n = truncated n b.
Proof.
  intros N S. destruct b as [|r b]; [tauto|]. cbn [lab].
  unfold increasing in S. rewrite map_app in S. apply sorted_app_lt in S as (S1 & H1).
  unfold loc. rewrite filter_app, (filter_none _ pre).
  - cbn [app]. apply filter_ext_in. intros x Hx.
    assert ((fst r <=? fst x)%nat = true) as ->; [|reflexivity].
    apply Nat.leb_le. apply (sorted_head _ _ S1). apply (in_map fst) in Hx. exact Hx.
  - intros x Hx. apply andb_false_iff. left. apply Nat.leb_gt. apply H1; [apply in_map; exact Hx|]. left. reflexivity.
Qed.

Lemma areas_outs cols n bs : forall pre, Forall (fun b => b <> []) bs -> increasing (pre ++ List.concat bs) ->
  areas cols (pre ++ List.concat bs) (map lab bs ++ [n]) = outs cols n bs.
Proof.
  induction bs as [|b bs IH]; intros pre F S; [reflexivity|].
  inversion F as [|? ? N F']; subst. destruct bs as [|b' bs].
  - cbn [map app areas outs List.concat] in *. rewrite app_nil_r in *. rewrite loc_last by assumption.
    destruct (truncated n b); reflexivity.
  - assert (areas cols (pre ++ List.concat (b :: b' :: bs)) (map lab (b :: b' :: bs) ++ [n])
      = match loc (pre ++ List.concat (b :: b' :: bs)) (lab b) (lab b') with
        | [] => areas cols (pre ++ List.concat (b :: b' :: bs)) (map lab (b' :: bs) ++ [n])
        | _ => area_summary cols (loc (pre ++ List.concat (b :: b' :: bs)) (lab b) (lab b')) :: areas cols (pre ++ List.concat (b :: b' :: bs)) (map lab (b' :: bs) ++ [n])
        end) as -> by reflexivity.
    inversion F'; subst.
    assert (pre ++ List.concat (b :: b' :: bs) = pre ++ b ++ b' ++ List.concat bs) as EE by reflexivity.
    rewrite EE in S. rewrite EE, loc_block by assumption.
    assert (areas cols (pre ++ b ++ b' ++ List.concat bs) (map lab (b' :: bs) ++ [n]) = outs cols n (b' :: bs)) as EI.
    { assert (pre ++ b ++ b' ++ List.concat bs = (pre ++ b) ++ List.concat (b' :: bs)) as E2
        by (cbn [List.concat]; rewrite <- !app_assoc; reflexivity).
      rewrite E2 in *. apply IH; assumption. }
    rewrite EI. destruct b; [tauto|]. reflexivity.
Qed.

(** ** area summaries *)
Lemma area_summary_spec cols rows ms : Forall2 (obs cols) rows ms -> Forall2 (at_pos cols) rows ms -> rows <> [] ->
  averaged ms (area_summary cols rows) /\ area_position ms (area_summary cols rows).
Proof.
  intros F G N. split; [apply averages_spec; exact F|].
  pose proof (group_mean_spec cols "X_pos" me_x rows ms F ltac:(eapply F2_impl; [|exact G]; intros ? ? (?&?); assumption)) as GX.
  pose proof (group_mean_spec cols "Y_pos" me_y rows ms F ltac:(eapply F2_impl; [|exact G]; intros ? ? (?&?); assumption)) as GY.
  assert (group_keys (map (key_of cols) rows) <> []) as K.
  { intros E. destruct rows as [|r rows]; [tauto|].
    assert (In (key_of cols r) (group_keys (map (key_of cols) (r :: rows)))) as X by (apply keys_in; left; reflexivity).
    rewrite E in X. destruct X. }
  exists (group_mean cols "X_pos" rows), (group_mean cols "Y_pos" rows).
  exists (np_mean (group_mean cols "X_pos" rows)), (np_mean (group_mean cols "Y_pos" rows)).
  unfold area_summary, averages. cbn [sm_pos sm_aoi sm_lambda]. rewrite combine_fst_snd.
  split; [reflexivity|]. split; [|split; [|split; assumption]]; apply np_mean_of; intros E.
  - rewrite E in GX. inversion GX. congruence.
  - rewrite E in GY. inversion GY. congruence.
Qed.

Lemma F2_both {A B} (P Q : A -> B -> Prop) l l' : Forall2 P l l' -> Forall2 Q l l' -> Forall2 (fun a b => P a b /\ Q a b) l l'.
Proof. induction 1; intros G; inversion G; subst; constructor; auto. Qed.
Lemma F2_concat_split {A B} (P Q : A -> B -> Prop) bs cs : Forall2 (Forall2 P) bs cs ->
  Forall2 Q (List.concat bs) (List.concat cs) -> Forall2 (Forall2 Q) bs cs.
Proof.
  induction 1 as [|b c bs cs F FF IH]; cbn [List.concat]; intros H; [constructor|].
  pose proof (F2_length _ _ _ F) as L. clear F FF.
  apply Forall2_app_inv_l in H as (c1 & c2 & H1 & H2 & E).
  assert (c1 = c /\ c2 = List.concat cs) as (-> & ->).
  { pose proof (F2_length _ _ _ H1) as L'. assert (List.length c1 = List.length c) as LL by congruence.
    clear - E LL. revert c1 E LL. induction c as [|x c IH]; intros [|x1 c1]; cbn; try discriminate; [auto|].
    intros [= <- E] [= LL]. destruct (IH _ E LL) as (-> & ->). auto. }
  constructor; auto.
Qed.

Lemma load_areas cols rows : four_columns cols -> multi_location cols rows = true -> increasing rows ->
  load_EP4 cols rows = Ok (outs cols (List.length rows) (snd (cut cols None None rows))).
Proof.
  intros Q M S. unfold load_EP4. rewrite M, need_four by exact Q. cbn [rbind]. f_equal.
  rewrite cut_starts. pose proof (cut_concat cols rows None None) as E. rewrite cut_first_none in E. cbn [app] in E.
  rewrite <- E at 1. apply (areas_outs cols _ _ []); [apply cut_nonempty|]. cbn [app]. rewrite E. exact S.
Qed.

Lemma outs_full cols n bs : (forall r, In r (List.concat bs) -> (fst r < n)%nat) -> Forall (fun b => b <> []) bs ->
  outs cols n bs = map (area_summary cols) bs.
Proof.
  induction bs as [|b bs IH]; intros H F; [reflexivity|]. inversion F; subst.
  destruct bs as [|b' bs].
  - cbn [outs map]. unfold truncated. rewrite filter_all.
    + destruct b; [tauto|reflexivity].
    + intros x Hx. apply Nat.ltb_lt. apply H. cbn. rewrite app_nil_r. exact Hx.
  - assert (outs cols n (b :: b' :: bs) = area_summary cols b :: outs cols n (b' :: bs)) as -> by reflexivity.
    rewrite IH; [reflexivity| |assumption]. intros r Hr. apply H. cbn [List.concat]. apply in_or_app. right. exact Hr.
Qed.

Lemma reset_labels rows : map fst (reset_index rows) = seq 0 (List.length rows).
Proof.
  unfold reset_index. generalize 0%nat. induction rows; intros n; cbn; [reflexivity|]. rewrite IHrows. reflexivity.
Qed.
Lemma seq_increasing n k : StronglySorted lt (seq k n).
Proof.
  revert k. induction n; intros k; cbn; constructor; [apply IHn|]. apply Forall_forall. intros x Hx.
  apply in_seq in Hx. lia.
Qed.
Lemma reset_increasing rows : increasing (reset_index rows).
Proof. unfold increasing. rewrite reset_labels. apply seq_increasing. Qed.
Lemma reset_length rows : List.length (reset_index rows) = List.length rows.
Proof. transitivity (List.length (map fst (reset_index rows))); [symmetry; apply map_length|]. rewrite reset_labels. apply seq_length. Qed.

(** a whole map *)
Lemma load_map cols rows ms : four_columns cols -> multi_location cols (reset_index rows) = true ->
  Forall2 (obs cols) (reset_index rows) ms -> Forall2 (at_pos cols) (reset_index rows) ms ->
  exists bs ss, List.concat bs = ms /\ blocks bs /\ load_EP4 cols (reset_index rows) = Ok ss /\
    Forall2 (fun b s => averaged b s /\ area_position b s /\ sm_time s = None) bs ss.
Proof.
  intros Q M F G.
  assert (reset_index rows <> []) as N.
  { intros E. rewrite E in M. unfold multi_location in M. cbn in M. rewrite andb_false_r in M. discriminate. }
  destruct (cut_blocks0 cols _ ms G N) as (cs & F2 & E & BL).
  exists cs, (map (area_summary cols) (snd (cut cols None None (reset_index rows)))).
  split; [exact E|]. split; [exact BL|].
  pose proof (cut_concat cols (reset_index rows) None None) as EC. rewrite cut_first_none in EC. cbn [app] in EC.
  split.
  - rewrite load_areas by (try assumption; apply reset_increasing). f_equal.
    apply outs_full; [|apply cut_nonempty]. intros r Hr.
    assert (In r (reset_index rows)) as Hr2 by (rewrite <- EC; exact Hr). clear Hr. rename Hr2 into Hr. apply (in_map fst) in Hr.
    rewrite reset_labels in Hr. apply in_seq in Hr. rewrite reset_length. lia.
  - assert (Forall2 (Forall2 (obs cols)) (snd (cut cols None None (reset_index rows))) cs) as F3.
    { eapply F2_concat_split; [exact F2|]. rewrite EC, E. exact F. }
    pose proof (cut_nonempty cols (reset_index rows) None None) as NE.
    revert F2 F3 NE. generalize (snd (cut cols None None (reset_index rows))). clear. intros bs.
    intros F2. induction F2; intros F3 NE; cbn [map]; constructor; inversion F3; inversion NE; subst.
    + destruct (area_summary_spec cols x y); [assumption..|]. split; [assumption|]. split; [assumption|reflexivity].
    + apply IHF2; assumption.
Qed.
