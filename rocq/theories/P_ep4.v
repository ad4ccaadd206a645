(** * Proofs about the EP4 loader: averages *)

Require Import Reals Lra Lia List Bool String Sorting.Sorted Permutation.
From Verif Require Import Base M_disp M_model M_data Spec_data P_data P_struct M_ep4 Spec_ep4.
Import ListNotations.
Open Scope list_scope.
Open Scope R_scope.

Lemma req_b_true (x y : R) : req_b x y = true <-> x = y.
Proof. unfold req_b. destruct (Req_EM_T x y); split; intros; congruence. Qed.

(** ** columns *)
Lemma index_of_none name cols : index_of name cols = None <-> ~ In name cols.
Proof.
  induction cols as [|c cs IH]; cbn [index_of In]; [tauto|].
  destruct (String.eqb_spec c name) as [->|N]; [split; [discriminate|tauto]|].
  destruct (index_of name cs); cbn [omap].
  - split; [discriminate|]. intros H. exfalso. assert (Some n = None) by (apply IH; tauto). discriminate.
  - split; [|reflexivity]. intros _ [E|E]; [tauto|]. apply IH in E; [tauto|reflexivity].
Qed.
Lemma index_of_some name cols i : index_of name cols = Some i -> nth_error cols i = Some name.
Proof.
  revert i. induction cols as [|c cs IH]; intros i; cbn [index_of]; [discriminate|].
  destruct (String.eqb_spec c name) as [->|N]; [intros [= <-]; reflexivity|].
  destruct (index_of name cs); cbn [omap]; [|discriminate]. intros [= <-]. cbn. apply IH. reflexivity.
Qed.
Lemma has_col_true cols name : has_col cols name = true <-> In name cols.
Proof.
  unfold has_col. destruct (index_of name cols) eqn:E.
  - apply index_of_some, nth_error_In in E. tauto.
  - apply index_of_none in E. split; [discriminate|tauto].
Qed.

Lemma cell_field cols name k row v : NoDup cols -> field cols row name v -> cell cols name (k, row) = v.
Proof.
  intros ND (i & Ec & Er). unfold cell. destruct (index_of name cols) as [j|] eqn:E.
  - assert (j = i) as ->.
    { apply index_of_some in E. apply (proj1 (NoDup_nth_error cols) ND); [|congruence].
      apply nth_error_Some. congruence. }
    cbn [snd]. apply nth_error_nth. exact Er.
  - apply index_of_none in E. apply nth_error_In in Ec. tauto.
Qed.
Lemma field_cell cols name k row : List.length row = List.length cols -> In name cols ->
  field cols row name (cell cols name (k, row)).
Proof.
  intros L HI. unfold cell. destruct (index_of name cols) as [j|] eqn:E.
  - pose proof (index_of_some _ _ _ E) as E'. exists j. split; [exact E'|].
    cbn [snd]. apply nth_error_nth'. rewrite L. apply nth_error_Some. congruence.
  - apply index_of_none in E. tauto.
Qed.
Lemma field_in cols row name v : field cols row name v -> In name cols.
Proof. intros (i & E & _). apply nth_error_In in E. exact E. Qed.

(** ** dropna *)
Lemma mapM_id_some (r : list num) v : mapM (fun x => x) r = Some v <-> r = map Some v.
Proof.
  revert v. induction r as [|x r IH]; intros v; cbn [mapM].
  - split; [intros [= <-]; reflexivity|]. destruct v; [reflexivity|discriminate].
  - destruct x as [x|]; cbn [obind omap]; [|split; [discriminate|destruct v; discriminate]].
    destruct (mapM (fun x : option R => x) r) as [w|]; cbn [obind omap].
    + destruct (IH w) as [IH1 _]. rewrite (IH1 eq_refl). split; [intros [= <-]; reflexivity|].
      destruct v as [|y v]; [discriminate|]. cbn [map]. intros [= -> E]. f_equal.
      f_equal. clear - E. revert v E; induction w; intros [|? ?]; cbn; try discriminate; [reflexivity|].
      intros [= -> E]. f_equal. auto.
    + split; [discriminate|]. destruct v as [|y v]; [discriminate|]. cbn [map]. intros [= -> E].
      destruct (IH v) as [_ IH2]. discriminate (IH2 E).
Qed.
Lemma mapM_id_none (r : list num) : In None r -> mapM (fun x => x) r = None.
Proof.
  intros H. destruct (mapM (fun x : option R => x) r) eqn:E; [|reflexivity]. apply mapM_id_some in E. subst.
  apply in_map_iff in H as (? & [=] & _).
Qed.
Lemma dropna_complete raw rows : complete raw rows -> dropna raw = rows.
Proof.
  induction 1; unfold dropna in *; cbn [flat_map]; [reflexivity| |].
  - rewrite (proj2 (mapM_id_some _ r) eq_refl), IHcomplete. reflexivity.
  - rewrite mapM_id_none by assumption. exact IHcomplete.
Qed.
Lemma complete_exists raw : exists rows, complete raw rows.
Proof.
  induction raw as [|r raw (rows & IH)]; [exists []; constructor|].
  destruct (mapM (fun x => x) r) as [v|] eqn:E.
  - apply mapM_id_some in E. subst. exists (v :: rows). constructor. exact IH.
  - exists rows. constructor; [|exact IH]. clear - E. induction r as [|[x|] r IH]; cbn [mapM] in E.
    + discriminate.
    + right. apply IH. cbn [obind omap] in E. destruct (mapM (fun x : option R => x) r); [discriminate|reflexivity].
    + left. reflexivity.
Qed.
Lemma complete_lengths raw rows n : complete raw rows -> Forall (fun r => List.length r = n) raw ->
  Forall (fun r : list R => List.length r = n) rows.
Proof.
  induction 1; intros F; [constructor| |]; inversion F; subst; auto.
  constructor; [|auto]. rewrite map_length. reflexivity.
Qed.

(** ** rows as measurements *)
Definition obs (cols : list string) (r : lrow) (m : meas) : Prop :=
  cell cols "#Lambda" r = me_lam m /\ cell cols "AOI" r = me_aoi m /\
  cell cols "Psi" r = me_psi m /\ cell cols "Delta" r = me_delta m.
Definition at_pos (cols : list string) (r : lrow) (m : meas) : Prop :=
  cell cols "X_pos" r = me_x m /\ cell cols "Y_pos" r = me_y m.

Lemma F2_reset {A} (P : list R -> A -> Prop) (Q : lrow -> A -> Prop) rows ms :
  (forall k r m, P r m -> Q (k, r) m) -> Forall2 P rows ms -> Forall2 Q (reset_index rows) ms.
Proof.
  intros H F. unfold reset_index. generalize 0%nat.
  induction F; intros n; cbn [List.length seq combine]; constructor; auto.
Qed.
Lemma optics_obs cols k r m : NoDup cols -> optics cols r m -> obs cols (k, r) m.
Proof. intros ND (A & B & Cc & D). repeat split; apply cell_field; assumption. Qed.
Lemma place_pos cols k r m : NoDup cols -> place cols r m -> at_pos cols (k, r) m.
Proof. intros ND (A & B). repeat split; apply cell_field; assumption. Qed.

(** ** groups *)
Lemma lex_eq a b : lex_cmp a b = Eq <-> a = b.
Proof.
  unfold lex_cmp. destruct a as [a1 a2], b as [b1 b2]. cbn [fst snd].
  destruct (Rlt_dec a1 b1); [split; [discriminate|intros [= -> ->]; lra]|].
  destruct (Rlt_dec b1 a1); [split; [discriminate|intros [= -> ->]; lra]|].
  destruct (Rlt_dec a2 b2); [split; [discriminate|intros [= -> ->]; lra]|].
  destruct (Rlt_dec b2 a2); [split; [discriminate|intros [= -> ->]; lra]|].
  split; [|reflexivity]. intros _. f_equal; lra.
Qed.
Lemma lex_lt a b : lex_cmp a b = Lt <-> before a b.
Proof.
  unfold lex_cmp, before. destruct a as [a1 a2], b as [b1 b2]. cbn [fst snd].
  destruct (Rlt_dec a1 b1); [tauto|].
  destruct (Rlt_dec b1 a1); [split; [discriminate|lra]|].
  destruct (Rlt_dec a2 b2); [split; [|reflexivity]; intros _; right; lra|].
  destruct (Rlt_dec b2 a2); split; try discriminate; lra.
Qed.
Lemma lex_gt a b : lex_cmp a b = Gt <-> before b a.
Proof.
  unfold lex_cmp, before. destruct a as [a1 a2], b as [b1 b2]. cbn [fst snd].
  destruct (Rlt_dec a1 b1); [split; [discriminate|lra]|].
  destruct (Rlt_dec b1 a1); [tauto|].
  destruct (Rlt_dec a2 b2); [split; [discriminate|lra]|].
  destruct (Rlt_dec b2 a2); [split; [|reflexivity]; intros _; right; lra|].
  split; [discriminate|lra].
Qed.
Lemma before_trans a b c : before a b -> before b c -> before a c.
Proof. unfold before. lra. Qed.
Lemma before_irrefl a : ~ before a a.
Proof. unfold before. lra. Qed.

Lemma insert_in k l x : In x (insert_key k l) <-> x = k \/ In x l.
Proof.
  induction l as [|h t IH]; cbn [insert_key In]; [intuition|].
  destruct (lex_cmp k h) eqn:E; cbn [In].
  - apply lex_eq in E. subst. intuition.
  - intuition.
  - rewrite IH. intuition.
Qed.
Lemma insert_sorted k l : StronglySorted before l -> StronglySorted before (insert_key k l).
Proof.
  induction 1 as [|h t S IH F]; cbn [insert_key]; [repeat constructor|].
  destruct (lex_cmp k h) eqn:E.
  - constructor; assumption.
  - apply lex_lt in E. constructor; [constructor; assumption|]. constructor; [exact E|].
    eapply Forall_impl; [|exact F]. intros. eapply before_trans; eassumption.
  - apply lex_gt in E. constructor; [exact IH|]. apply Forall_forall. intros x Hx.
    apply insert_in in Hx as [->|Hx]; [exact E|]. rewrite Forall_forall in F. auto.
Qed.
Lemma keys_sorted ks : StronglySorted before (group_keys ks).
Proof. induction ks; cbn [group_keys fold_right]; [constructor|]. apply insert_sorted. exact IHks. Qed.
Lemma keys_in ks x : In x (group_keys ks) <-> In x ks.
Proof.
  induction ks as [|k ks IH]; cbn [group_keys fold_right In]; [tauto|].
  rewrite insert_in. unfold group_keys in IH. rewrite IH. intuition.
Qed.

Lemma F2_filter {A B} (P : A -> B -> Prop) f g (l : list A) (l' : list B) :
  (forall a b, P a b -> f a = g b) -> Forall2 P l l' -> Forall2 P (filter f l) (filter g l').
Proof.
  intros H. induction 1 as [|a b l l' p F IH]; cbn [filter]; [constructor|].
  rewrite <- (H _ _ p). destruct (f a); [constructor; assumption|assumption].
Qed.
Lemma F2_map {A B C} (P : A -> B -> Prop) (f : A -> C) (g : B -> C) l l' :
  (forall a b, P a b -> f a = g b) -> Forall2 P l l' -> map f l = map g l'.
Proof. intros H. induction 1; cbn [map]; [reflexivity|]. f_equal; auto. Qed.

Lemma at_key_filter cols rows ms k : Forall2 (obs cols) rows ms ->
  Forall2 (obs cols) (filter (fun r => key_eqb (key_of cols r) k) rows) (at_key (fst k) (snd k) ms).
Proof.
  apply F2_filter. intros r m (E1 & E2 & _). unfold key_eqb, key_of, req_b. cbn [fst snd].
  rewrite E1, E2. destruct (Req_EM_T (me_aoi m) (fst k)); reflexivity.
Qed.
Lemma keys_meas cols rows ms : Forall2 (obs cols) rows ms ->
  map (key_of cols) rows = map (fun m => (me_aoi m, me_lam m)) ms.
Proof. apply F2_map. intros r m (E1 & E2 & _). unfold key_of. rewrite E1, E2. reflexivity. Qed.

Lemma np_mean_of l : l <> [] -> mean_of l (np_mean l).
Proof.
  intros N. split; [exact N|]. unfold np_mean, sumR.
  assert (INR (List.length l) <> 0) by (apply not_0_INR; destruct l; [tauto|discriminate]).
  field. assumption.
Qed.
Lemma mean_unique l x y : mean_of l x -> mean_of l y -> x = y.
Proof.
  intros (N & E) (_ & E').
  assert (INR (List.length l) <> 0) by (apply not_0_INR; destruct l; [tauto|discriminate]).
  apply Rmult_eq_reg_r with (INR (List.length l)); [|assumption]. congruence.
Qed.

Lemma at_key_in a l ms m : In m (at_key a l ms) <-> In m ms /\ me_aoi m = a /\ me_lam m = l.
Proof.
  unfold at_key. rewrite filter_In. destruct (Req_EM_T (me_aoi m) a), (Req_EM_T (me_lam m) l); intuition congruence.
Qed.
Lemma at_key_nonempty ms a l : In (a, l) (map (fun m => (me_aoi m, me_lam m)) ms) -> at_key a l ms <> [].
Proof.
  intros H. apply in_map_iff in H as (m & [= <- <-] & Hm). intros E.
  assert (In m (at_key (me_aoi m) (me_lam m) ms)) as X by (apply at_key_in; tauto).
  rewrite E in X. destruct X.
Qed.

(** means of a column *)
Lemma group_mean_spec cols name (f : meas -> R) rows ms :
  Forall2 (obs cols) rows ms -> Forall2 (fun r m => cell cols name r = f m) rows ms ->
  Forall2 (fun k v => mean_of (map f (at_key (fst k) (snd k) ms)) v)
          (group_keys (map (key_of cols) rows)) (group_mean cols name rows).
Proof.
  intros F G. unfold group_mean. rewrite (keys_meas _ _ _ F).
  assert (forall ks, (forall k, In k ks -> In k (map (fun m => (me_aoi m, me_lam m)) ms)) ->
    Forall2 (fun k v => mean_of (map f (at_key (fst k) (snd k) ms)) v) ks
     (map (fun k => np_mean (map (cell cols name) (filter (fun r => key_eqb (key_of cols r) k) rows))) ks)) as X.
  { induction ks as [|k ks IH]; intros H; cbn [map]; constructor.
    - assert (map (cell cols name) (filter (fun r => key_eqb (key_of cols r) k) rows)
              = map f (at_key (fst k) (snd k) ms)) as ->.
      { apply F2_map with (P := fun r m => cell cols name r = f m); [tauto|].
        assert (Forall2 (fun r m => obs cols r m /\ cell cols name r = f m) rows ms) as FG.
        { clear - F G. induction F; inversion G; subst; constructor; auto. }
        eapply F2_impl; [|eapply F2_filter; [|exact FG]]; [cbn; tauto|].
        intros r m ((E1 & E2 & _) & _). unfold key_eqb, key_of, req_b. cbn [fst snd].
        rewrite E1, E2. destruct (Req_EM_T (me_aoi m) (fst k)); reflexivity. }
      apply np_mean_of. intros E. apply map_eq_nil in E. revert E. apply at_key_nonempty.
      rewrite <- surjective_pairing. apply H. left. reflexivity.
    - apply IH. intros k' Hk. apply H. right. exact Hk. }
  apply X. intros k. rewrite keys_in. tauto.
Qed.

Lemma combine_fst_snd {A B} (l : list (A * B)) : combine (map fst l) (map snd l) = l.
Proof. induction l as [|[a b] l IH]; cbn; [reflexivity|]. rewrite IH. reflexivity. Qed.
Lemma F2_nth {A B} (P : A -> B -> Prop) l l' i a b :
  Forall2 P l l' -> nth_error l i = Some a -> nth_error l' i = Some b -> P a b.
Proof.
  intros F. revert i. induction F; intros [|i]; cbn; try discriminate; [congruence|]. apply IHF.
Qed.

Lemma averages_spec cols rows ms pos : Forall2 (obs cols) rows ms -> averaged ms (averages cols rows pos).
Proof.
  intros F. unfold averaged, averages. cbn [sm_aoi sm_lambda sm_psi sm_delta].
  rewrite combine_fst_snd.
  pose proof (group_mean_spec cols "Psi" me_psi rows ms F ltac:(eapply F2_impl; [|exact F]; intros ? ? (?&?&?&?); assumption)) as GP.
  pose proof (group_mean_spec cols "Delta" me_delta rows ms F ltac:(eapply F2_impl; [|exact F]; intros ? ? (?&?&?&?); assumption)) as GD.
  repeat split.
  - rewrite !map_length. reflexivity.
  - rewrite !map_length. rewrite (F2_length _ _ _ GP). reflexivity.
  - rewrite !map_length. rewrite (F2_length _ _ _ GD). reflexivity.
  - apply keys_sorted.
  - rewrite keys_in, (keys_meas _ _ _ F), in_map_iff. intros (m & [= <- <-] & Hm). exists m. tauto.
  - rewrite keys_in, (keys_meas _ _ _ F), in_map_iff. intros (m & Hm & <- & <-). exists m. tauto.
  - exact (proj1 (F2_nth _ _ _ _ _ _ GP H H0)).
  - exact (proj2 (F2_nth _ _ _ _ _ _ GP H H0)).
  - exact (proj1 (F2_nth _ _ _ _ _ _ GD H H1)).
  - exact (proj2 (F2_nth _ _ _ _ _ _ GD H H1)).
Qed.

(** every measurement contributes to exactly one point *)
Lemma at_key_remove ms (ks : list (R * R)) : NoDup ks ->
  (forall m, In m ms -> In (me_aoi m, me_lam m) ks) ->
  Permutation (List.concat (map (fun k => at_key (fst k) (snd k) ms) ks)) ms.
Proof.
  intros ND. induction ms as [|m ms IH]; intros H.
  - assert (List.concat (map (fun k => at_key (fst k) (snd k) []) ks) = []) as ->; [|constructor].
    clear. induction ks; cbn; auto.
  - assert (In (me_aoi m, me_lam m) ks) as K by (apply H; left; reflexivity).
    apply in_split in K as (k1 & k2 & ->).
    rewrite map_app, concat_app. cbn [map List.concat].
    assert (forall k, In k (k1 ++ k2) -> at_key (fst k) (snd k) (m :: ms) = at_key (fst k) (snd k) ms) as X.
    { intros k Hk. unfold at_key. cbn [filter].
      destruct (Req_EM_T (me_aoi m) (fst k)) as [E1|], (Req_EM_T (me_lam m) (snd k)) as [E2|]; try reflexivity.
      exfalso. apply NoDup_remove_2 in ND. apply ND. rewrite E1, E2, <- surjective_pairing. exact Hk. }
    rewrite (map_ext_in _ (fun k => at_key (fst k) (snd k) ms) k1) by (intros; apply X, in_or_app; tauto).
    rewrite (map_ext_in _ (fun k => at_key (fst k) (snd k) ms) k2) by (intros; apply X, in_or_app; tauto).
    assert (at_key (fst (me_aoi m, me_lam m)) (snd (me_aoi m, me_lam m)) (m :: ms)
            = m :: at_key (me_aoi m) (me_lam m) ms) as ->.
    { unfold at_key. cbn [filter fst snd]. destruct (Req_EM_T (me_aoi m) (me_aoi m)); [|congruence].
      destruct (Req_EM_T (me_lam m) (me_lam m)); [|congruence]. reflexivity. }
    cbn [app]. symmetry. apply Permutation_cons_app. symmetry.
    assert (Permutation (List.concat (map (fun k => at_key (fst k) (snd k) ms) (k1 ++ (me_aoi m, me_lam m) :: k2))) ms) as P.
    { apply IH. intros m' Hm'. apply H. right. exact Hm'. }
    rewrite map_app, concat_app in P. cbn [map List.concat fst snd] in P. exact P.
Qed.
Lemma sorted_nodup l : StronglySorted before l -> NoDup l.
Proof.
  induction 1 as [|h t S IH F]; constructor; [|exact IH]. intros Hh. rewrite Forall_forall in F.
  apply F in Hh. revert Hh. apply before_irrefl.
Qed.
Lemma averaged_once ms s : averaged ms s ->
  Permutation (List.concat (map (fun k => at_key (fst k) (snd k) ms) (combine (sm_aoi s) (sm_lambda s)))) ms.
Proof.
  intros (_ & _ & _ & S & K & _). apply at_key_remove; [apply sorted_nodup; exact S|].
  intros m Hm. apply K. exists m. tauto.
Qed.

(** ** drop_duplicates *)
Lemma drop_dup_in l x : In x (drop_duplicates l) <-> In x l.
Proof.
  induction l as [|y l IH]; cbn [drop_duplicates In]; [tauto|].
  rewrite filter_In, IH. destruct (req_b y x) eqn:E; cbn [negb].
  - apply req_b_true in E. intuition.
  - intuition.
Qed.
Lemma drop_dup_nodup l : NoDup (drop_duplicates l).
Proof.
  induction l as [|y l IH]; cbn [drop_duplicates]; constructor.
  - rewrite filter_In. intros (_ & E). assert (req_b y y = true) as X by (apply req_b_true; reflexivity).
    rewrite X in E. discriminate.
  - apply NoDup_filter. exact IH.
Qed.
Lemma drop_dup_single l : (List.length (drop_duplicates l) <= 1)%nat <-> forall x y, In x l -> In y l -> x = y.
Proof.
  split.
  - intros L x y Hx Hy. apply drop_dup_in in Hx, Hy.
    destruct (drop_duplicates l) as [|a [|b r]]; [destruct Hx| |cbn in L; lia].
    destruct Hx as [<-|[]], Hy as [<-|[]]. reflexivity.
  - intros H. pose proof (drop_dup_nodup l) as ND. pose proof (drop_dup_in l) as I.
    destruct (drop_duplicates l) as [|a [|b r]]; cbn; try lia.
    exfalso. inversion ND as [|? ? N _]; subst. apply N. left. apply H; apply I; cbn; tauto.
Qed.
Lemma drop_dup_order l : in_order l (drop_duplicates l).
Proof.
  split; [apply drop_dup_nodup|]. split; [intros; apply drop_dup_in|].
  induction l as [|y l IH]; cbn [drop_duplicates]; intros ts1 t ts2 E; [destruct ts1; discriminate|].
  destruct ts1 as [|u ts1]; cbn [app] in E.
  - injection E as <- _. exists [], l. split; [reflexivity|]. cbn. tauto.
  - injection E as <- E.
    assert (exists d1 d2, drop_duplicates l = d1 ++ t :: d2 /\ filter (fun z => negb (req_b y z)) d1 = ts1 /\ y <> t) as (d1 & d2 & E1 & E2 & N).
    { revert E. generalize (drop_duplicates l). clear. intros d. revert ts1. induction d as [|z d IH]; intros ts1 E; cbn [filter] in E.
      - destruct ts1; discriminate.
      - destruct (negb (req_b y z)) eqn:B.
        + destruct ts1 as [|w ts1]; cbn [app] in E.
          * injection E as -> E. exists [], d. repeat split. intros ->.
            rewrite (proj2 (req_b_true t t) eq_refl) in B. discriminate.
          * injection E as <- E. destruct (IH _ E) as (d1 & d2 & -> & <- & N).
            exists (z :: d1), d2. cbn [filter]. rewrite B. repeat split; auto.
        + destruct (IH _ E) as (d1 & d2 & -> & <- & N). exists (z :: d1), d2. cbn [filter]. rewrite B. repeat split; auto. }
    destruct (IH _ _ _ E1) as (l1 & l2 & El & Hl). exists (y :: l1), l2. split; [rewrite El; reflexivity|].
    intros u. cbn [In]. subst ts1. rewrite filter_In, Hl. split.
    + intros [->|H]; [tauto|]. destruct (req_b y u) eqn:B; [apply req_b_true in B; tauto|]. right. split; [exact H|]. reflexivity.
    + tauto.
Qed.
