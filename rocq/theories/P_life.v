(** * Proofs about the lifetime of datasets *)

Require Import Reals List Bool String Ascii Lia Arith Lra.
From Verif Require Import Base M_disp M_data Spec_data P_data M_life Spec_life.
Import ListNotations.
Open Scope list_scope.
Open Scope R_scope.

Definition valid (h : heap) (a : nat) : Prop := (a < List.length h)%nat.
Definition table (h : heap) (d : dataset) : Prop :=
  valid h (ds_wav d) /\ valid h (ds_aoi d) /\ valid h (ds_psi d) /\ valid h (ds_delta d) /\
  List.length (arr h (ds_wav d)) = List.length (arr h (ds_aoi d)) /\
  List.length (arr h (ds_aoi d)) = List.length (arr h (ds_psi d)) /\
  List.length (arr h (ds_psi d)) = List.length (arr h (ds_delta d)).

Lemma nth_error_arr h a : valid h a -> nth_error h a = Some (arr h a).
Proof. intros H. unfold arr. apply nth_error_nth'. exact H. Qed.

Lemma zip_points w : forall a p x : list num,
  List.length w = List.length a -> List.length a = List.length p -> List.length p = List.length x ->
  exists pts : list point, map p_wav pts = w /\ map p_aoi pts = a /\ map p_psi pts = p /\ map p_delta pts = x.
Proof.
  induction w as [|w0 w IH]; intros [|a0 a] [|p0 p] [|x0 x] H1 H2 H3; try discriminate.
  - exists []. auto.
  - cbn in *. destruct (IH a p x) as (pts & E1 & E2 & E3 & E4); try lia.
    exists ((w0, a0, p0, x0) :: pts). cbn. rewrite E1, E2, E3, E4. auto.
Qed.
Lemma table_holds h d : table h d -> exists pts, holds h d pts.
Proof.
  intros (V1 & V2 & V3 & V4 & L1 & L2 & L3). destruct (zip_points _ _ _ _ L1 L2 L3) as (pts & E1 & E2 & E3 & E4).
  exists pts. unfold holds. rewrite !nth_error_arr, E1, E2, E3, E4 by assumption. auto.
Qed.

(** heaps only grow; arrays keep their length *)
Definition grows (h h' : heap) : Prop :=
  (List.length h <= List.length h')%nat /\ forall a, valid h a -> List.length (arr h' a) = List.length (arr h a).
Lemma grows_refl h : grows h h.
Proof. split; auto. Qed.
Lemma grows_trans h1 h2 h3 : grows h1 h2 -> grows h2 h3 -> grows h1 h3.
Proof.
  intros [A1 A2] [B1 B2]. split; [lia|]. intros a V. rewrite B2 by (unfold valid in *; lia). auto.
Qed.
Lemma arr_app h l a : valid h a -> arr (h ++ l) a = arr h a.
Proof. intros V. unfold arr. apply app_nth1. exact V. Qed.
Lemma arr_last h l : arr (h ++ [l]) (List.length h) = l.
Proof. unfold arr. rewrite app_nth2, Nat.sub_diag by lia. reflexivity. Qed.
Lemma grows_alloc h l : grows h (snd (alloc h l)).
Proof.
  unfold alloc. cbn [snd]. split; [rewrite app_length; lia|]. intros a V. rewrite arr_app by exact V. reflexivity.
Qed.
Lemma update_length {A} (l : list A) i f : List.length (update l i f) = List.length l.
Proof. revert i. induction l; intros [|i]; cbn; auto. Qed.
Lemma arr_update h b f a : arr (update h b f) a = if Nat.eqb a b then (if Nat.ltb a (List.length h) then f (arr h a) else []) else arr h a.
Proof.
  unfold arr. revert a b. induction h as [|l h IH]; intros a b.
  - destruct a, b; cbn; try reflexivity. destruct Nat.eqb; reflexivity.
  - destruct a, b; cbn [update nth Nat.eqb]; try reflexivity. rewrite IH. destruct (Nat.eqb a b) eqn:E; [|reflexivity]. reflexivity.
Qed.
Lemma grows_update h b f : (forall l, List.length (f l) = List.length l) -> grows h (update h b f).
Proof.
  intros F. split; [rewrite update_length; lia|]. intros a V. rewrite arr_update.
  destruct (Nat.eqb a b); auto. unfold valid in V. apply Nat.ltb_lt in V. rewrite V. apply F.
Qed.
Lemma table_grows h h' d : grows h h' -> table h d -> table h' d.
Proof.
  intros [G1 G2] (V1 & V2 & V3 & V4 & L1 & L2 & L3). unfold table, valid in *. rewrite !G2 by assumption.
  repeat split; auto; lia.
Qed.

Lemma set_columns_grows h d w a p x m : grows h (snd (set_columns h d w a p x m)).
Proof.
  unfold set_columns, alloc. cbn [snd].
  eapply grows_trans; [apply (grows_alloc h w)|]. eapply grows_trans; [apply (grows_alloc (h ++ [w]) a)|].
  eapply grows_trans; [apply (grows_alloc ((h ++ [w]) ++ [a]) p)|]. apply (grows_alloc (((h ++ [w]) ++ [a]) ++ [p]) x).
Qed.
Lemma set_columns_table h d w a p x m : List.length w = List.length a -> List.length a = List.length p ->
  List.length p = List.length x -> table (snd (set_columns h d w a p x m)) (fst (set_columns h d w a p x m)).
Proof.
  intros L1 L2 L3. destruct (zip_points _ _ _ _ L1 L2 L3) as (pts & <- & <- & <- & <-).
  unfold set_columns, alloc. cbn [fst snd]. unfold table, valid. cbn [ds_wav ds_aoi ds_psi ds_delta].
  rewrite !app_length. cbn [List.length].
  set (n := List.length h).
  assert (A0 : arr ((((h ++ [map p_wav pts]) ++ [map p_aoi pts]) ++ [map p_psi pts]) ++ [map p_delta pts]) n = map p_wav pts).
  { rewrite !arr_app by (unfold valid, n; rewrite ?app_length; cbn; lia). apply arr_last. }
  assert (E1 : (n + 1)%nat = List.length (h ++ [map p_wav pts])) by (rewrite app_length; reflexivity).
  assert (E2 : (n + 1 + 1)%nat = List.length ((h ++ [map p_wav pts]) ++ [map p_aoi pts])) by (rewrite !app_length; reflexivity).
  assert (E3 : (n + 1 + 1 + 1)%nat = List.length (((h ++ [map p_wav pts]) ++ [map p_aoi pts]) ++ [map p_psi pts])) by (rewrite !app_length; reflexivity).
  assert (A1 : arr ((((h ++ [map p_wav pts]) ++ [map p_aoi pts]) ++ [map p_psi pts]) ++ [map p_delta pts]) (n + 1) = map p_aoi pts).
  { rewrite !arr_app by (unfold valid, n; rewrite ?app_length; cbn; lia). rewrite E1. apply arr_last. }
  assert (A2 : arr ((((h ++ [map p_wav pts]) ++ [map p_aoi pts]) ++ [map p_psi pts]) ++ [map p_delta pts]) (n + 1 + 1) = map p_psi pts).
  { rewrite !arr_app by (unfold valid, n; rewrite ?app_length; cbn; lia). rewrite E2. apply arr_last. }
  assert (A3 : arr ((((h ++ [map p_wav pts]) ++ [map p_aoi pts]) ++ [map p_psi pts]) ++ [map p_delta pts]) (n + 1 + 1 + 1) = map p_delta pts).
  { rewrite E3. apply arr_last. }
  rewrite A0, A1, A2, A3, !map_length. repeat split; try lia.
Qed.

(** ** load *)
Lemma unpack4_lengths rows w a p x : unpack4 rows = Ok (w, a, p, x) ->
  List.length w = List.length a /\ List.length a = List.length p /\ List.length p = List.length x.
Proof.
  unfold unpack4. destruct (as_vector rows); [discriminate|]. destruct rows as [|r rs]; [discriminate|]. destruct (Nat.eqb (List.length r) 4); [|discriminate].
  intros E. injection E as <- <- <- <-. cbn. rewrite !map_length. auto.
Qed.
Lemma load_shape pf h d f d' h' : load pf h d f = Ok (d', h') -> exists w a p x,
  (d', h') = set_columns h d w a p x (ds_mask d) /\
  List.length w = List.length a /\ List.length a = List.length p /\ List.length p = List.length x.
Proof.
  unfold load. destruct detect_header as [k r]. destruct loadtxt as [rows|e]; [|discriminate]. cbn [rbind].
  destruct (unpack4 rows) as [[[[w a] p] x]|e] eqn:U; [|discriminate]. cbn [rbind]. intros E. injection E as E1 E2.
  exists w, a, p, x. split; [|exact (unpack4_lengths _ _ _ _ _ U)].
  rewrite <- E1, <- E2. reflexivity.
Qed.

(** a step of one dataset: the heap grows, old arrays keep their content, the rest of the object stays *)
Definition keeps (h h' : heap) : Prop := forall a, valid h a -> arr h' a = arr h a.
Definition fresh_or_same (h : heap) (d d' : dataset) : Prop :=
  (ds_wav d' = ds_wav d \/ (List.length h <= ds_wav d')%nat) /\ (ds_aoi d' = ds_aoi d \/ (List.length h <= ds_aoi d')%nat) /\
  (ds_psi d' = ds_psi d \/ (List.length h <= ds_psi d')%nat) /\ (ds_delta d' = ds_delta d \/ (List.length h <= ds_delta d')%nat).
Definition all_fresh (h : heap) (d' : dataset) : Prop :=
  (List.length h <= ds_wav d')%nat /\ (List.length h <= ds_aoi d')%nat /\
  (List.length h <= ds_psi d')%nat /\ (List.length h <= ds_delta d')%nat.
Definition same_rest (d d' : dataset) : Prop :=
  ds_flipped d' = ds_flipped d /\ ds_weighted d' = ds_weighted d /\ ds_file d' = ds_file d /\ ds_delim d' = ds_delim d.

Lemma set_columns_facts h d w a p x m :
  keeps h (snd (set_columns h d w a p x m)) /\ all_fresh h (fst (set_columns h d w a p x m)) /\
  same_rest d (fst (set_columns h d w a p x m)) /\ grows h (snd (set_columns h d w a p x m)).
Proof.
  split; [|split; [|split; [|apply set_columns_grows]]].
  - intros b V. unfold set_columns, alloc. cbn [snd]. rewrite !arr_app; auto; unfold valid in *; rewrite ?app_length; lia.
  - unfold set_columns, alloc, all_fresh. cbn. rewrite !app_length. cbn. lia.
  - repeat split.
Qed.

Lemma load_facts pf h d f d' h' : load pf h d f = Ok (d', h') ->
  keeps h h' /\ all_fresh h d' /\ same_rest d d' /\ grows h h' /\ table h' d'.
Proof.
  intros E. destruct (load_shape _ _ _ _ _ _ E) as (w & a & p & x & E' & L1 & L2 & L3).
  pose proof (set_columns_facts h d w a p x (ds_mask d)) as (F1 & F2 & F3 & F4).
  pose proof (set_columns_table h d w a p x (ds_mask d) L1 L2 L3) as T.
  rewrite <- E' in *. cbn [fst snd] in *. auto.
Qed.

(** ** methods of one dataset *)
Definition method (pf : string -> option num) (h : heap) (y : dataset) (o : op) : result unit * (dataset * heap) :=
  match o with
  | L_mask _ m => (Ok tt, (remask y m, h))
  | L_columns _ cols => set_data_tuple h y cols
  | L_load _ f => or_keep y h (load pf h y f)
  | L_refresh _ mode content => or_keep y h (fst (refresh pf mode h y content))
  | _ => (Ok tt, (y, h))
  end.
Lemma fs_refl h d : fresh_or_same h d d.
Proof. repeat split; auto. Qed.
Lemma sr_refl d : same_rest d d.
Proof. repeat split; auto. Qed.
Lemma all_fresh_fs h d d' : all_fresh h d' -> fresh_or_same h d d'.
Proof. intros (A & B & C & D). repeat split; auto. Qed.
Lemma method_facts pf h y o :
  let d' := fst (snd (method pf h y o)) in let h' := snd (snd (method pf h y o)) in
  keeps h h' /\ fresh_or_same h y d' /\ same_rest y d' /\ grows h h'.
Proof.
  assert (K : forall h, keeps h h) by (intros ? ? ?; reflexivity).
  pose proof (fs_refl h y). pose proof (sr_refl y). pose proof (grows_refl h).
  destruct o; cbn [method fst snd]; auto.
  - unfold set_data_tuple, alloc. destruct (column cols 0) as [w|e]; cbn [fst snd]; auto.
    assert (K1 : forall l, keeps h (h ++ l)) by (intros l b V; apply arr_app; exact V).
    assert (G1 : forall h l, grows h (h ++ [l])) by (intros h0 l; apply (grows_alloc h0 l)).
    assert (G2 : forall a b, grows h ((h ++ [a]) ++ [b])) by (intros; eapply grows_trans; apply G1).
    assert (G3 : forall a b c, grows h (((h ++ [a]) ++ [b]) ++ [c])) by (intros; eapply grows_trans; [apply G2|apply G1]).
    assert (G4 : forall a b c d, grows h ((((h ++ [a]) ++ [b]) ++ [c]) ++ [d])) by (intros; eapply grows_trans; [apply G3|apply G1]).
    assert (K2 : forall a b, keeps h ((h ++ [a]) ++ [b])) by (intros; rewrite <- app_assoc; apply K1).
    assert (K3 : forall a b c, keeps h (((h ++ [a]) ++ [b]) ++ [c])) by (intros; rewrite <- !app_assoc; apply K1).
    assert (K4 : forall a b c d, keeps h ((((h ++ [a]) ++ [b]) ++ [c]) ++ [d])) by (intros; rewrite <- !app_assoc; apply K1).
    destruct (column cols 1) as [a|e]; cbn [fst snd].
    2:{ split; [auto|]. split; [|split; auto]. unfold fresh_or_same; cbn; lia. }
    destruct (column cols 2) as [p|e]; cbn [fst snd].
    2:{ split; [auto|]. split; [|split; auto]. unfold fresh_or_same; cbn. rewrite ?app_length; cbn; lia. }
    destruct (column cols 3) as [x|e]; cbn [fst snd].
    2:{ split; [auto|]. split; [|split; auto]. unfold fresh_or_same; cbn. rewrite ?app_length; cbn; lia. }
    split; [auto|]. split; [|split; [repeat split|auto]]. unfold fresh_or_same; cbn. rewrite ?app_length; cbn; lia.
  - destruct (load pf h y f) as [[d' h']|e] eqn:E; cbn [or_keep fst snd]; auto.
    destruct (load_facts _ _ _ _ _ _ E) as (F1 & F2 & F3 & F4 & _). auto using all_fresh_fs.
  - unfold refresh. destruct (ds_file y); cbn [fst]; [|cbn [or_keep fst snd]; auto].
    destruct mode; cbn [fst or_keep snd]; auto.
    destruct (load pf h y (ByHandle content)) as [[d' h']|e] eqn:E; cbn [or_keep fst snd]; auto.
    destruct (load_facts _ _ _ _ _ _ E) as (F1 & F2 & F3 & F4 & _). auto using all_fresh_fs.
Qed.
Lemma method_table pf s h y o : equal_columns s o -> table h y -> table (snd (snd (method pf h y o))) (fst (snd (method pf h y o))).
Proof.
  intros Q T. destruct o; cbn [method fst snd]; auto.
  - destruct Q as (w & a & p & x & rest & -> & L1 & L2 & L3).
    exact (set_columns_table h y w a p x (all_true w) L1 L2 L3).
  - destruct (load pf h y f) as [[d' h']|e] eqn:E; cbn [or_keep fst snd]; auto. apply (load_facts _ _ _ _ _ _ E).
  - unfold refresh. destruct (ds_file y); cbn [fst]; [|exact T]. destruct mode; cbn [fst or_keep snd]; auto.
    destruct (load pf h y (ByHandle content)) as [[d' h']|e] eqn:E; cbn [or_keep fst snd]; auto. apply (load_facts _ _ _ _ _ _ E).
Qed.

(** ** the constructor *)
Lemma map_fold_length l : List.length (map fold_delta l) = List.length l.
Proof. apply map_length. Qed.
Lemma new_facts pf h delim src r d' h' : new_dataset pf h delim src r = Ok (d', h') ->
  grows h h' /\ ds_flipped d' = r /\ ds_mask d' = all_true (arr h' (ds_wav d')) /\
  match src with
  | FromArrays w a p x => ds_wav d' = w /\ ds_aoi d' = a /\ ds_psi d' = p /\ ds_delta d' = x /\
      (forall b, b <> x -> arr h' b = arr h b) /\ (r = false -> h' = h)
  | FromDataSE d => ds_wav d' = ds_wav d /\ ds_aoi d' = ds_aoi d /\ ds_psi d' = ds_psi d /\ ds_delta d' = ds_delta d /\
      (forall b, b <> ds_delta d -> arr h' b = arr h b) /\ (r = false -> h' = h)
  | _ => keeps h h' /\ all_fresh h d' /\ table h' d'
  end.
Proof.
  intros N. unfold new_dataset in N.
  destruct (take_source pf h delim src) as [[d1 h1]|e] eqn:S; [|discriminate]. cbn [rbind] in N.
  set (h2 := if r then update h1 (ds_delta d1) (map fold_delta) else h1) in *.
  injection N as <- <-. cbn [ds_wav ds_aoi ds_psi ds_delta ds_flipped ds_mask].
  assert (G2 : grows h1 h2) by (unfold h2; destruct r; [apply grows_update, map_fold_length|apply grows_refl]).
  assert (U : forall b, b <> ds_delta d1 -> arr h2 b = arr h1 b).
  { intros b N. unfold h2. destruct r; [|reflexivity]. rewrite arr_update. apply Nat.eqb_neq in N. rewrite N. reflexivity. }
  assert (Fr : keeps h h1 /\ all_fresh h d1 /\ table h1 d1 /\ grows h h1 ->
    grows h h2 /\ r = r /\ all_true (arr h2 (ds_wav d1)) = all_true (arr h2 (ds_wav d1)) /\ keeps h h2 /\ all_fresh h d1 /\
    table h2 (DataSE (ds_wav d1) (ds_aoi d1) (ds_psi d1) (ds_delta d1) (all_true (arr h2 (ds_wav d1))) r (ds_weighted d1) (ds_file d1) (ds_delim d1))).
  { intros (A & B & C & D). split; [eapply grows_trans; eauto|]. split; auto. split; auto. split; [|split; auto].
    - intros b V. rewrite U; [apply A; exact V|]. destruct B as (_ & _ & _ & B). unfold valid in V. lia.
    - apply (table_grows h1 h2 d1 G2 C). }
  destruct src; cbn [take_source] in S.
  - injection S as S1 S2. subst d1 h1. apply Fr.
    match goal with |- keeps _ (snd (set_columns ?h ?d ?w ?a ?p ?x ?m)) /\ _ => idtac | _ => idtac end.
    pose proof (set_columns_facts h (DataSE 0 0 0 0 (MBool []) false false None delim) [] [] [] [] (MBool [])) as (F1 & F2 & F3 & F4).
    pose proof (set_columns_table h (DataSE 0 0 0 0 (MBool []) false false None delim) [] [] [] [] (MBool []) eq_refl eq_refl eq_refl) as T.
    auto.
  - injection S as <- <-. cbn [ds_wav ds_aoi ds_psi ds_delta] in *. split; [exact G2|].
    split; [reflexivity|]. split; [reflexivity|]. do 4 (split; [reflexivity|]). split; [exact U|]. intros ->. reflexivity.
  - injection S as <- <-. cbn [ds_wav ds_aoi ds_psi ds_delta] in *. split; [exact G2|].
    split; [reflexivity|]. split; [reflexivity|]. do 4 (split; [reflexivity|]). split; [exact U|]. intros ->. reflexivity.
  - destruct (load_facts _ _ _ _ _ _ S) as (F1 & F2 & F3 & F4 & F5). apply Fr; auto.
  - destruct (load_facts _ _ _ _ _ _ S) as (F1 & F2 & F3 & F4 & F5). apply Fr; auto.
Qed.

(** ** C103: every dataset is a table at all times *)
Definition sound (s : life) : Prop :=
  Forall (valid (lf_heap s)) (lf_user s) /\ Forall (fun e => table (lf_heap s) (en_data e)) (lf_sets s).
Lemma on_set_method pf s d o : (match o with L_mask d' _ | L_columns d' _ | L_load d' _ | L_refresh d' _ _ | L_save d' => d' = d | _ => False end) ->
  act pf s o = on_set s d (fun y => method pf (lf_heap s) y o).
Proof. destruct o; intros H; try contradiction; subst; reflexivity. Qed.
Lemma valid_grows h h' a : grows h h' -> valid h a -> valid h' a.
Proof. intros [G _] V. unfold valid in *. lia. Qed.
Lemma Forall_update {A} (P : A -> Prop) (l : list A) i f : Forall P l -> (forall x, nth_error l i = Some x -> P (f x)) -> Forall P (update l i f).
Proof.
  intros H. revert i. induction H as [|x l Hx Hl IH]; intros [|i] F; cbn; constructor; auto.
Qed.
Lemma sound_act pf s o : equal_columns s o -> sound s -> sound (snd (act pf s o)).
Proof.
  intros Q [A B].
  assert (M : forall d, act pf s o = on_set s d (fun y => method pf (lf_heap s) y o) -> sound (snd (act pf s o))).
  { intros d ->. unfold on_set. destruct (nth_error (lf_sets s) d) as [e|] eqn:E; [|split; assumption].
    destruct (method_facts pf (lf_heap s) (en_data e) o) as (_ & _ & _ & G).
    pose proof (method_table pf s (lf_heap s) (en_data e) o Q) as T.
    destruct (method pf (lf_heap s) (en_data e) o) as [r [d' h']]. cbn [fst snd] in *. split; cbn [lf_heap lf_user lf_sets].
    - eapply Forall_impl; [|exact A]. intros a V. eapply valid_grows; eauto.
    - apply Forall_update.
      + eapply Forall_impl; [|exact B]. intros x. apply table_grows. exact G.
      + intros x Ex. cbn [put_data en_data]. apply T. rewrite Forall_forall in B. apply (B e). eapply nth_error_In; eauto. }
  destruct o; try (eapply M; apply on_set_method; reflexivity).
  - cbn [act alloc snd]. split; cbn [lf_heap lf_user lf_sets].
    + apply Forall_app. split; [eapply Forall_impl; [|exact A]; intros a V; eapply valid_grows; [apply (grows_alloc _ l)|exact V]|].
      constructor; [|constructor]. unfold valid. rewrite app_length. cbn. lia.
    + eapply Forall_impl; [|exact B]. intros x. apply table_grows, (grows_alloc _ l).
  - cbn [act]. destruct (nth_error (lf_user s) a) as [adr|]; [|split; assumption].
    destruct Nat.ltb; cbn [snd]; [|split; assumption].
    assert (G : grows (lf_heap s) (update (lf_heap s) adr (fun l => update l i (fun _ => v)))) by (apply grows_update; intros; apply update_length).
    split; cbn [lf_heap lf_user lf_sets].
    + eapply Forall_impl; [|exact A]. intros x V. eapply valid_grows; eauto.
    + eapply Forall_impl; [|exact B]. intros x. apply table_grows, G.
  - cbn [act]. destruct (source_of s s0) as [src|] eqn:Es; [|split; assumption].
    destruct (new_dataset pf (lf_heap s) delim src reflect_delta) as [[d' h']|e] eqn:N; [|split; assumption].
    destruct (new_facts _ _ _ _ _ _ _ N) as (G & _ & _ & F). cbn [snd]. split; cbn [lf_heap lf_user lf_sets].
    + eapply Forall_impl; [|exact A]. intros x V. eapply valid_grows; eauto.
    + apply Forall_app. split; [eapply Forall_impl; [|exact B]; intros x; apply table_grows, G|].
      constructor; [|constructor]. cbn [en_data].
      destruct s0 as [|w a p x|k|name lines|lines]; cbn [source_of] in Es.
      * injection Es as <-. apply F.
      * destruct (nth_error (lf_user s) w) as [w'|] eqn:E1; [|discriminate]. destruct (nth_error (lf_user s) a) as [a'|] eqn:E2; [|discriminate].
        destruct (nth_error (lf_user s) p) as [p'|] eqn:E3; [|discriminate]. destruct (nth_error (lf_user s) x) as [x'|] eqn:E4; [|discriminate].
        injection Es as <-. destruct F as (F1 & F2 & F3 & F4 & _). cbn [equal_columns] in Q. destruct (Q _ _ _ _ E1 E2 E3 E4) as (L1 & L2 & L3).
        rewrite Forall_forall in A.
        apply (table_grows (lf_heap s)); [exact G|]. unfold table. rewrite F1, F2, F3, F4.
        repeat split; auto; apply A; eapply nth_error_In; eauto.
      * destruct (nth_error (lf_sets s) k) as [e|] eqn:E1; [|discriminate]. injection Es as <-.
        destruct F as (F1 & F2 & F3 & F4 & _). rewrite Forall_forall in B. pose proof (B e (nth_error_In _ _ E1)) as T.
        apply (table_grows (lf_heap s)); [exact G|]. unfold table. rewrite F1, F2, F3, F4. exact T.
      * injection Es as <-. apply F.
      * injection Es as <-. apply F.
Qed.
Lemma sound_acts pf l : forall s, equal_throughout pf s l -> sound s -> sound (acts pf s l).
Proof.
  induction l as [|o l IH]; intros s Q H; [exact H|]. destruct Q as [Q1 Q2]. apply IH; [exact Q2|]. apply sound_act; assumption.
Qed.
Theorem always_tables pf l : equal_throughout pf empty_life l ->
  Forall (fun e => exists pts, holds (lf_heap (acts pf empty_life l)) (en_data e) pts) (lf_sets (acts pf empty_life l)).
Proof.
  intros Q. assert (S : sound (acts pf empty_life l)) by (apply sound_acts; [exact Q|]; split; constructor).
  eapply Forall_impl; [|apply S]. intros e. apply table_holds.
Qed.
