(** * Lines, strides, dicts; the M2000 loader *)

Require Import Reals ZArith Lra Lia List Bool String Ascii Sorting.Sorted.
From Verif Require Import Base M_disp M_model P_model M_data Spec_data P_data P_struct M_ep4 Spec_ep4 P_ep4 P_ep4b P_ep4e M_instr Spec_instr.
Import ListNotations.
Open Scope list_scope.
Open Scope R_scope.

(** ** strings *)
Lemma split_free c s : free c s -> split c s = [s].
Proof.
  induction s as [|x s IH]; simpl; auto. intros (N & F).
  destruct (Ascii.eqb_spec x c); [contradiction|]. rewrite IH; auto.
Qed.
Lemma split_free_cons c s t : free c s -> split c (s ++ String c t) = s :: split c t.
Proof.
  induction s as [|x s IH]; simpl.
  - rewrite Ascii.eqb_refl. auto.
  - intros (N & F). destruct (Ascii.eqb_spec x c); [contradiction|]. rewrite IH; auto.
Qed.
Lemma split_join c fs : fs <> [] -> Forall (free c) fs -> split c (join c fs) = fs.
Proof.
  intros N F. induction F as [|s l H F IH]; [congruence|].
  destruct l as [|t l]; [apply split_free; auto|].
  change (join c (s :: t :: l)) with (s ++ String c (join c (t :: l)))%string.
  rewrite split_free_cons by auto. rewrite IH by discriminate. reflexivity.
Qed.
Lemma split_fields c line fs : fields c line fs -> split c line = fs.
Proof. intros (N & F & ->). apply split_join; auto. Qed.

Lemma app_len s t : String.length (s ++ t) = (String.length s + String.length t)%nat.
Proof. induction s; simpl; auto. Qed.
Lemma substring_app s t : substring 0 (String.length s) (s ++ t) = s.
Proof. induction s; simpl; [destruct t; auto|congruence]. Qed.
Lemma chop_app s t : chop (String.length t) (s ++ t) = s.
Proof.
  unfold chop. rewrite app_len. replace (_ + _ - _)%nat with (String.length s) by lia. apply substring_app.
Qed.
Lemma chop1 s c : chop 1 (s ++ String c EmptyString) = s.
Proof. exact (chop_app s (String c EmptyString)). Qed.
Lemma chop2 s c d : chop 2 (s ++ String c (String d EmptyString)) = s.
Proof. exact (chop_app s (String c (String d EmptyString))). Qed.
Lemma substring_all t : substring 0 (String.length t) t = t.
Proof. induction t; simpl; congruence. Qed.
Lemma drop_app s t : drop_chars (String.length s) (s ++ t) = t.
Proof.
  unfold drop_chars. rewrite app_len. replace (_ + _ - _)%nat with (String.length t) by lia.
  induction s; simpl; [apply substring_all|auto].
Qed.
Lemma app_assoc_s a b c : ((a ++ b) ++ c = a ++ (b ++ c))%string.
Proof. induction a; simpl; congruence. Qed.
Lemma app_nil_s a : (a ++ "" = a)%string.
Proof. induction a; simpl; congruence. Qed.

(** ** numbers in fields *)
Lemma floats_numbers pf fs is vs : numbers pf fs is vs -> floats_at pf fs is = Ok vs.
Proof.
  intros H. apply (proj2 (mapR_Forall2 _ _ _)). eapply F2_impl; [|exact H].
  intros i v (t & E & P). unfold float_at. rewrite E, P. reflexivity.
Qed.
Lemma float_number pf fs i v : numbers pf fs [i] [v] -> float_at pf fs i = Ok v.
Proof. intros H. inversion H as [|? ? ? ? (t & E & P)]. unfold float_at. rewrite E, P. reflexivity. Qed.

(** ** strides *)
Lemma stride_from_nth {A} n (l : list A) : (0 < n)%nat -> forall k i,
  nth_error (stride_from n k l) i = nth_error l (k + i * n).
Proof.
  intros Hn. induction l as [|x l IH]; intros k i; cbn [stride_from].
  - destruct i, (k + _)%nat; auto.
  - destruct k as [|k].
    + destruct i as [|i]; [reflexivity|]. cbn [nth_error]. rewrite IH.
      replace (0 + S i * n)%nat with (S (pred n + i * n))%nat by nia. reflexivity.
    + rewrite IH. reflexivity.
Qed.
Lemma stride_every {A} n (l : list A) : (0 < n)%nat -> exists r, stride n l = Ok r /\ every n l r.
Proof.
  intros Hn. unfold stride. destruct n as [|n]; [lia|].
  eexists. split; [reflexivity|]. intros i. rewrite stride_from_nth by lia. reflexivity.
Qed.
Lemma nth_error_ext {A} (l m : list A) : (forall i, nth_error l i = nth_error m i) -> l = m.
Proof.
  revert m. induction l as [|x l IH]; intros [|y m] H; auto.
  - discriminate (H 0%nat).
  - discriminate (H 0%nat).
  - pose proof (H 0%nat) as H0. injection H0 as ->. f_equal. apply IH. intros i. exact (H (S i)).
Qed.
Lemma every_unique {A} n (l r r' : list A) : every n l r -> every n l r' -> r = r'.
Proof. intros H H'. apply nth_error_ext. intros i. rewrite H, H'. reflexivity. Qed.
Lemma every_map {A B} (f : A -> B) n l r : every n l r -> every n (map f l) (map f r).
Proof. intros H i. rewrite !nth_error_map, H. reflexivity. Qed.
Lemma stride_map {A B} (f : A -> B) n l : forall k, stride_from n k (map f l) = map f (stride_from n k l).
Proof. induction l as [|x l IH]; intros k; auto. destruct k; simpl; rewrite IH; auto. Qed.
Lemma every_stride {A} n (l r : list A) : (0 < n)%nat -> every n l r -> r = stride_from n 0 l.
Proof.
  intros Hn H. apply nth_error_ext. intros i. rewrite stride_from_nth by auto. apply H.
Qed.
Lemma every_in {A} n (l r : list A) x : every n l r -> In x r -> In x l.
Proof. intros H Hx. apply In_nth_error in Hx. destruct Hx as (i & E). rewrite H in E. eapply nth_error_In; eauto. Qed.
Lemma every_nonempty {A} n (l r : list A) : every n l r -> l <> [] -> r <> [].
Proof. intros H N ->. specialize (H 0%nat). destruct l; [auto|discriminate]. Qed.

(** ** dicts *)
Lemma dict_set_other {K A} (eqb : K -> K -> bool) (k : K) (v : A) d :
  (forall k', In k' (map fst d) -> eqb k k' = false) -> dict_set eqb k v d = d ++ [(k, v)].
Proof.
  induction d as [|(k', v') d IH]; intros H; cbn [dict_set app]; auto.
  rewrite (H k') by (left; auto). rewrite IH; auto. intros j Hj. apply H. right. auto.
Qed.
Lemma dict_get_set {K A} (eqb : K -> K -> bool) (E : forall a b, eqb a b = true <-> a = b) (k j : K) (v : A) d :
  dict_get eqb j (dict_set eqb k v d) = if eqb j k then Some v else dict_get eqb j d.
Proof.
  induction d as [|(k', v') d IH]; cbn [dict_set dict_get]; auto.
  destruct (eqb k k') eqn:Ek; cbn [dict_get].
  - apply E in Ek. subst k'. destruct (eqb j k); auto.
  - destruct (eqb j k') eqn:Ej.
    + apply E in Ej. subst k'. destruct (eqb j k) eqn:Ejk; auto.
      apply E in Ejk. subst. rewrite (proj2 (E k k) eq_refl) in Ek. discriminate.
    + exact IH.
Qed.
Lemma dict_set_keys {K A} (eqb : K -> K -> bool) (E : forall a b, eqb a b = true <-> a = b) (k : K) (v : A) d :
  NoDup (map fst d) -> NoDup (map fst (dict_set eqb k v d)) /\
  forall j, In j (map fst (dict_set eqb k v d)) <-> j = k \/ In j (map fst d).
Proof.
  induction d as [|(k', v') d IH]; intros N.
  { simpl. split; [repeat constructor; auto|]. intuition. }
  cbn [dict_set map fst] in *. inversion N as [|? ? N1 N2]; subst.
  destruct (eqb k k') eqn:Ek; cbn [map fst].
  - apply E in Ek. subst k'. split; [constructor; auto|]. intros j. simpl. intuition.
  - destruct (IH N2) as (I1 & I2). split.
    + constructor; auto. intros H. apply I2 in H. destruct H as [->|H]; auto.
      rewrite (proj2 (E k k) eq_refl) in Ek. discriminate.
    + intros j. simpl. rewrite I2. intuition.
Qed.
Lemma dict_get_in {K A} (eqb : K -> K -> bool) (E : forall a b, eqb a b = true <-> a = b) (k : K) (x : A) d :
  dict_get eqb k d = Some x -> In (k, x) d.
Proof.
  induction d as [|(k', v') d IH]; cbn [dict_get]; [discriminate|].
  destruct (eqb k k') eqn:Ek.
  - intros H. injection H as <-. apply E in Ek. subst. left. auto.
  - intros H. right. auto.
Qed.

(** ** M2000, static *)
Definition row_of (x : point) (r : list num) : Prop :=
  nth 0 r None = p_wav x /\ nth 1 r None = p_aoi x /\ nth 2 r None = p_psi x /\ nth 3 r None = p_delta x.

Lemma numbers_len pf fs is vs i : numbers pf fs is vs -> In i is -> (i < List.length fs)%nat.
Proof.
  intros H. induction H as [|j v is vs (t & E & _) H IH]; intros Hi; [contradiction|].
  destruct Hi as [->|Hi]; auto. apply nth_error_Some. congruence.
Qed.

Lemma loop_ends pf fuel rest : ends rest -> m2000_loop pf fuel rest = Ok [].
Proof.
  intros H. destruct rest as [|l rest].
  - destruct fuel; reflexivity.
  - cbn [ends] in H. destruct fuel; cbn [m2000_loop readline]; rewrite split_free by auto; reflexivity.
Qed.
Lemma loop_records pf recs pts rest : Forall2 (record pf) recs pts -> ends rest -> forall fuel,
  (List.length recs <= fuel)%nat ->
  exists rows, m2000_loop pf fuel (List.concat recs ++ rest) = Ok rows /\ Forall2 row_of pts rows.
Proof.
  intros H He. induction H as [|r x recs pts Hr H IH]; intros fuel Hf.
  { exists []. split; [apply loop_ends; auto|constructor]. }
  destruct Hr as (l1 & l2 & l3 & f1 & f2 & f3 & e1 & e2 & v2 & v3 & -> & F1 & F2 & F3 & N1 & N2 & N3).
  destruct fuel as [|fuel]; [simpl in Hf; lia|].
  destruct (IH fuel) as (rows & E & R); [simpl in Hf; lia|].
  exists ([p_wav x; p_aoi x; p_psi x; p_delta x; e1; e2] :: rows). split.
  - cbn [List.concat app m2000_loop readline]. rewrite (split_fields _ _ _ F1).
    pose proof (numbers_len _ _ _ _ 5%nat N1) as L.
    assert (List.length f1 <> 1)%nat as L1 by (specialize (L ltac:(simpl; auto 7)); lia).
    destruct (Nat.eqb_spec (List.length f1) 1); [contradiction|].
    rewrite (floats_numbers _ _ _ _ N1). cbn [rbind].
    rewrite (split_fields _ _ _ F2), (floats_numbers _ _ _ _ N2). cbn [rbind].
    rewrite (split_fields _ _ _ F3), (floats_numbers _ _ _ _ N3). cbn [rbind].
    rewrite E. reflexivity.
  - constructor; auto. repeat split.
Qed.

Lemma F2_every {A B} (P : A -> B -> Prop) n l l' r r' : Forall2 P l l' -> every n l r -> every n l' r' -> Forall2 P r r'.
Proof.
  intros H. revert r'. 
  assert (forall i, match nth_error l i, nth_error l' i with Some a, Some b => P a b | None, None => True | _, _ => False end) as G.
  { induction H as [|a b l l' Hab H IH]; intros [|i]; simpl; auto. apply IH. }
  intros r' E E'.
  assert (forall i, match nth_error r i, nth_error r' i with Some a, Some b => P a b | None, None => True | _, _ => False end) as G'.
  { intros i. rewrite E, E'. apply G. }
  clear - G'. revert r' G'. induction r as [|a r IH]; intros [|b r'] G; auto.
  - specialize (G 0%nat). simpl in G. contradiction.
  - specialize (G 0%nat). simpl in G. contradiction.
  - constructor; [exact (G 0%nat)|]. apply IH. intros i. exact (G (S i)).
Qed.

Lemma concat_records_len pf recs pts : Forall2 (record pf) recs pts -> List.length (List.concat recs) = (3 * List.length recs)%nat.
Proof.
  induction 1 as [|r x recs pts Hr H IH]; auto.
  destruct Hr as (l1 & l2 & l3 & _ & _ & _ & _ & _ & _ & _ & -> & _).
  cbn [List.concat List.length app]. rewrite IH. cbn [List.length]. lia.
Qed.

Lemma standard_records pf d skip pre recs pts rest : Forall2 (record pf) recs pts -> ends rest -> (0 < d)%nat -> recs <> [] ->
  List.length pre = skip ->
  exists x sel, M2000_standard pf d skip (pre ++ List.concat recs ++ rest) = Ok x /\ every d pts sel /\ stores x false sel.
Proof.
  intros H He Hd Hn Hs. unfold M2000_standard. rewrite <- Hs, skipn_app, skipn_all, Nat.sub_diag. cbn [skipn app].
  destruct (loop_records pf recs pts rest H He (List.length (pre ++ List.concat recs ++ rest))) as (rows & E & R).
  { rewrite !app_length, (concat_records_len _ _ _ H). lia. }
  rewrite E. cbn [rbind].
  destruct (stride_every d rows Hd) as (r & E' & V). rewrite E'. cbn [rbind].
  assert (rows <> []) as Nr.
  { inversion H; subst; [congruence|]. inversion R. discriminate. }
  pose proof (every_nonempty _ _ _ V Nr) as Nr'.
  assert (exists sel, every d pts sel) as (sel & Vs).
  { destruct (stride_every d pts Hd) as (sel & _ & Vs). eauto. }
  pose proof (F2_every _ _ _ _ _ _ R Vs V) as Q.
  destruct r as [|r0 r]; [congruence|].
  eexists. exists sel. split; [reflexivity|]. split; [exact Vs|].
  unfold stores. cbn [ld_wav ld_aoi ld_psi ld_delta ld_reflect].
  assert (forall (f : list num -> num) (g : point -> num), (forall x r, row_of x r -> f r = g x) -> forall l l',
    Forall2 row_of l l' -> map f l' = map g l) as M.
  { intros f g Hfg l l' HF. induction HF; simpl; [reflexivity|]. f_equal; auto. }
  repeat split; apply M; auto; intros ? ? (A1 & A2 & A3 & A4); auto.
Qed.
Lemma standard_none pf d skip pre rest : ends rest -> (0 < d)%nat -> List.length pre = skip ->
  M2000_standard pf d skip (pre ++ rest) = Raise IndexError.
Proof.
  intros He Hd Hs. unfold M2000_standard. rewrite <- Hs, skipn_app, skipn_all, Nat.sub_diag. cbn [skipn app].
  rewrite loop_ends by auto. cbn [rbind]. destruct d as [|d]; [lia|]. reflexivity.
Qed.
Lemma standard_zero pf skip pre recs pts rest : Forall2 (record pf) recs pts -> ends rest -> List.length pre = skip ->
  M2000_standard pf 0 skip (pre ++ List.concat recs ++ rest) = Raise ValueError.
Proof.
  intros H He Hs. unfold M2000_standard. rewrite <- Hs, skipn_app, skipn_all, Nat.sub_diag. cbn [skipn app].
  destruct (loop_records pf recs pts rest H He (List.length (pre ++ List.concat recs ++ rest))) as (rows & E & R).
  { rewrite !app_length, (concat_records_len _ _ _ H). lia. }
  rewrite E. reflexivity.
Qed.

(** header *)
Lemma split_comma_cons c d s : split_comma (String c (String d s)) =
  if (Ascii.eqb c "," && Ascii.eqb d " ")%bool then EmptyString :: split_comma s
  else match split_comma (String d s) with t :: ts => String c t :: ts | [] => [String c EmptyString] end.
Proof. reflexivity. Qed.
Lemma split_comma_one s : no_comma_space s -> split_comma s = [s].
Proof.
  induction s as [|c s IH]; [reflexivity|]. intros (H1 & H2).
  destruct s as [|d s]; [reflexivity|]. rewrite split_comma_cons, IH by exact H2.
  destruct (Ascii.eqb_spec c ","), (Ascii.eqb_spec d " "); cbn [andb]; auto. exfalso. auto.
Qed.
Lemma split_comma_sep s t : no_comma_space s -> split_comma (s ++ String "," (String " " t)) = s :: split_comma t.
Proof.
  induction s as [|c s IH]; [reflexivity|]. intros (H1 & H2).
  destruct s as [|d s].
  - change ((String c "" ++ String "," (String " " t))%string) with (String c (String "," (String " " t))).
    rewrite split_comma_cons.
    destruct (Ascii.eqb_spec c ","); [contradiction|]. cbn [andb]. reflexivity.
  - change ((String c (String d s) ++ String "," (String " " t))%string) with (String c (String d (s ++ String "," (String " " t)))).
    rewrite split_comma_cons.
    change (String d (s ++ String "," (String " " t))) with ((String d s ++ String "," (String " " t))%string).
    rewrite IH by exact H2.
    destruct (Ascii.eqb_spec c ","), (Ascii.eqb_spec d " "); cbn [andb]; auto. exfalso. auto.
Qed.
Lemma split_items kvs : kvs <> [] -> Forall (fun kv => free "=" (fst kv) /\ free "=" (snd kv) /\ no_comma_space (item kv)) kvs ->
  split_comma (items kvs) = map item kvs.
Proof.
  intros N F. induction F as [|kv l (_ & _ & H) F IH]; [congruence|].
  destruct l as [|kv' l]; [apply split_comma_one; auto|].
  change (items (kv :: kv' :: l)) with (item kv ++ String "," (String " " (items (kv' :: l))))%string.
  rewrite split_comma_sep by auto. rewrite IH by discriminate. reflexivity.
Qed.
Lemma header_ok kvs l : vase_line kvs l -> m2000_header (chop 1 l) = Ok kvs.
Proof.
  intros (N & -> & F). unfold m2000_header.
  replace ("VASEmethod[" ++ items kvs ++ "]" ++ newline)%string with
    (("VASEmethod[" ++ items kvs ++ "]") ++ newline)%string by (rewrite !app_assoc_s; reflexivity).
  unfold newline at 1. rewrite chop1.
  rewrite (drop_app "VASEmethod["). rewrite (chop1 (items kvs) "]").
  rewrite split_items by auto. apply (proj2 (mapR_Forall2 _ _ _)).
  clear N. induction F as [|(k, v) l (F1 & F2 & _) F IH]; constructor; auto.
  unfold item. cbn [fst snd] in *. rewrite split_free_cons, split_free by auto. reflexivity.
Qed.

Lemma nm_line : chop 1 ("nm" ++ newline) = "nm"%string. Proof. reflexivity. Qed.

Lemma open_static pf te d l0 l1 kvs recs pts rest table :
  vase_line kvs l1 -> Forall2 (record pf) recs pts -> recs <> [] -> ends rest -> (0 < d)%nat ->
  exists x sel, open_M2000file pf (ByName (l0 :: l1 :: ("nm" ++ newline)%string :: List.concat recs ++ rest)) table te d
                = Ok (kvs, OneSet x) /\ every d pts sel /\ stores x false sel.
Proof.
  intros Hh H N He Hd. unfold open_M2000file. cbn [readline]. rewrite nm_line.
  change (String.eqb "nm" "nm") with true. cbv iota.
  rewrite (header_ok _ _ Hh). cbn [rbind].
  destruct (standard_records pf d 3 [l0; l1; ("nm" ++ newline)%string] recs pts rest H He Hd N eq_refl) as (x & sel & E & V & S).
  exists x, sel. cbn [app] in E. rewrite E. cbn [rmap]. auto.
Qed.
Lemma open_handle pf te d l0 l1 kvs r1 recs pts rest table :
  vase_line kvs l1 -> List.length r1 = 3%nat -> Forall2 (record pf) recs pts -> recs <> [] -> ends rest -> (0 < d)%nat ->
  exists x sel, open_M2000file pf (ByHandle (l0 :: l1 :: ("nm" ++ newline)%string :: List.concat (r1 :: recs) ++ rest)) table te d
                = Ok (kvs, OneSet x) /\ every d pts sel /\ stores x false sel.
Proof.
  intros Hh L H N He Hd. unfold open_M2000file. cbn [readline]. rewrite nm_line.
  change (String.eqb "nm" "nm") with true. cbv iota.
  rewrite (header_ok _ _ Hh). cbn [rbind List.concat]. rewrite <- app_assoc.
  destruct (standard_records pf d 3 r1 recs pts rest H He Hd N L) as (x & sel & E & V & S).
  exists x, sel. rewrite E. cbn [rmap]. auto.
Qed.
Lemma open_static_none pf te d l0 l1 kvs rest table : vase_line kvs l1 -> ends rest -> (0 < d)%nat ->
  open_M2000file pf (ByName (l0 :: l1 :: ("nm" ++ newline)%string :: rest)) table te d = Raise IndexError.
Proof.
  intros Hh He Hd. unfold open_M2000file. cbn [readline]. rewrite nm_line.
  change (String.eqb "nm" "nm") with true. cbv iota.
  rewrite (header_ok _ _ Hh). cbn [rbind].
  pose proof (standard_none pf d 3 [l0; l1; ("nm" ++ newline)%string] rest He Hd eq_refl) as E.
  cbn [app] in E. rewrite E. reflexivity.
Qed.
Lemma open_static_zero pf te l0 l1 kvs recs pts rest table : vase_line kvs l1 -> Forall2 (record pf) recs pts -> ends rest ->
  open_M2000file pf (ByName (l0 :: l1 :: ("nm" ++ newline)%string :: List.concat recs ++ rest)) table te 0 = Raise ValueError.
Proof.
  intros Hh H He. unfold open_M2000file. cbn [readline]. rewrite nm_line.
  change (String.eqb "nm" "nm") with true. cbv iota.
  rewrite (header_ok _ _ Hh). cbn [rbind].
  pose proof (standard_zero pf 3 [l0; l1; ("nm" ++ newline)%string] recs pts rest H He eq_refl) as E.
  cbn [app] in E. rewrite E. reflexivity.
Qed.
Lemma open_other pf f l0 l1 l2 rest table te d : f = ByName (l0 :: l1 :: l2 :: rest) \/ f = ByHandle (l0 :: l1 :: l2 :: rest) ->
  (forall c, l2 <> ("nm" ++ String c EmptyString)%string) -> (forall c, l2 <> ("Dynamic" ++ String c EmptyString)%string) ->
  open_M2000file pf f table te d = Raise ValueError.
Proof.
  intros Hf H1 H2.
  assert (forall s w, chop 1 s = w -> w <> EmptyString -> exists c, s = (w ++ String c EmptyString)%string) as Q.
  { intros s w. destruct (String.length s) as [|n] eqn:L.
    - destruct s; [|discriminate]. intros <- N. exfalso. apply N. reflexivity.
    - intros <- _. unfold chop. rewrite L. replace (S n - 1)%nat with n by lia.
      revert n L. induction s as [|a s IH]; [discriminate|]. intros n L. injection L as L.
      destruct n as [|n].
      + destruct s; [|discriminate]. exists a. reflexivity.
      + destruct (IH n L) as (c & E). exists c. cbn [substring append]. f_equal. exact E. }
  assert ((chop 1 l2 =? "nm")%string = false) as E1.
  { destruct (String.eqb_spec (chop 1 l2) "nm") as [E|]; auto. exfalso.
    apply Q in E; [|discriminate]. destruct E as (c & E). exact (H1 c E). }
  assert ((chop 1 l2 =? "Dynamic")%string = false) as E2.
  { destruct (String.eqb_spec (chop 1 l2) "Dynamic") as [E|]; auto. exfalso.
    apply Q in E; [|discriminate]. destruct E as (c & E). exact (H2 c E). }
  destruct Hf as [-> | ->]; unfold open_M2000file; cbn [readline]; rewrite E1, E2; reflexivity.
Qed.

(** ** M2000, time series *)
Definition kds (rows : list krow) (drop : nat) (t : R) : loaded :=
  let rs := stride_from drop 0 (group_rows rows t) in
  Loaded (map (fun r => fst (fst (fst (fst r)))) rs) (map (fun r => snd (fst (fst (fst r)))) rs)
         (map (fun r => snd (fst (fst r))) rs) (map (fun r => snd (fst r)) rs) false.
Definition fill (rows : list krow) (drop : nat) (ts : list R) (d : list (R * loaded)) : list (R * loaded) :=
  fold_left (fun d t => dict_set req_b (round1 (t * 60)) (kds rows drop t) d) ts d.

Lemma kds_step rows drop t : (0 < drop)%nat -> step_data rows drop t (kds rows drop t).
Proof.
  intros Hd. exists (map fst (stride_from drop 0 (group_rows rows t))). split.
  - unfold rows_at. apply every_map. intros i. rewrite stride_from_nth by auto. reflexivity.
  - unfold stores, kds. cbn [ld_wav ld_aoi ld_psi ld_delta ld_reflect]. rewrite !map_map. repeat split; reflexivity.
Qed.
Lemma kinetic_fill te drop rows : (0 < te)%nat -> (0 < drop)%nat -> forall ts idx k d, ((idx + k) mod te = 0)%nat -> (k < te)%nat ->
  kinetic_loop te drop rows idx ts d = Ok (fill rows drop (stride_from te k ts) d).
Proof.
  intros Ht Hd. induction ts as [|t ts IH]; intros idx k d Hm Hk; [reflexivity|].
  cbn [kinetic_loop stride_from]. destruct te as [|te]; [lia|].
  destruct k as [|k].
  - rewrite Nat.add_0_r in Hm. rewrite Hm. cbn [Nat.eqb].
    unfold kinetic_dataset, stride. destruct drop as [|drop]; [lia|]. cbn [rmap rbind].
    rewrite (IH (S idx) te) by (try lia; replace (S idx + te)%nat with (idx + 1 * S te)%nat by lia; rewrite Nat.mod_add by lia; auto).
    reflexivity.
  - assert (idx mod S te <> 0)%nat as N.
    { intros E. rewrite <- Nat.add_mod_idemp_l, E in Hm by lia. rewrite Nat.add_0_l, Nat.mod_small in Hm by lia. lia. }
    destruct (Nat.eqb_spec (idx mod S te) 0); [contradiction|].
    apply IH; [|lia]. replace (S idx + k)%nat with (idx + S k)%nat by lia. auto.
Qed.
Lemma kinetic_eq te drop rows : (0 < te)%nat -> (0 < drop)%nat ->
  M2000_kinetic te drop rows = Ok (fill rows drop (stride_from te 0 (group_times rows)) []).
Proof. intros. unfold M2000_kinetic. apply kinetic_fill; auto. rewrite Nat.add_0_r. apply Nat.mod_0_l. lia. Qed.

Lemma finite_in l t : In t (finite l) <-> In (Some t) l.
Proof.
  unfold finite. rewrite in_flat_map. split.
  - intros ([x|] & H & I); [|contradiction]. destruct I as [<-|[]]. auto.
  - intros H. exists (Some t). split; auto. left; auto.
Qed.
Lemma group_times_spec rows : is_times rows (group_times rows).
Proof.
  split; [apply np_unique_sorted|]. intros t. unfold group_times. rewrite np_unique_In, finite_in, in_map_iff.
  split; [intros ((x, s) & E & H); cbn [snd] in E; subst; eauto|intros (x & H); exists (x, Some t); auto].
Qed.
Lemma sorted_unique (l m : list R) : StronglySorted Rlt l -> StronglySorted Rlt m -> (forall x, In x l <-> In x m) -> l = m.
Proof.
  intros Hl. revert m. induction Hl as [|a l Hl IH Fa]; intros m Hm H.
  { destruct m as [|b m]; auto. exfalso. apply (proj2 (H b)). left; auto. }
  inversion Hm as [|b m' Hm' Fb]; subst. { exfalso. apply (proj1 (H a)). left; auto. }
  rewrite Forall_forall in Fa, Fb.
  assert (a = b) as ->.
  { destruct (proj1 (H a) (or_introl eq_refl)) as [->|Ha]; auto.
    destruct (proj2 (H b) (or_introl eq_refl)) as [->|Hb]; auto.
    apply Fb in Ha. apply Fa in Hb. lra. }
  f_equal. apply IH; auto. intros x. split; intros Hx.
  - destruct (proj1 (H x) (or_intror Hx)) as [->|]; auto. apply Fa in Hx. lra.
  - destruct (proj2 (H x) (or_intror Hx)) as [->|]; auto. apply Fb in Hx. lra.
Qed.
Lemma times_unique rows ts ts' : is_times rows ts -> is_times rows ts' -> ts = ts'.
Proof. intros (A & B) (A' & B'). apply sorted_unique; auto. intros x. rewrite B, B'. tauto. Qed.

Lemma round1_seconds t k : seconds t k -> round1 (t * 60) = k.
Proof.
  intros (z & -> & H). unfold round1. replace (t * 60 * 10) with (t * 600) by ring. rewrite (rint_eq _ _ H). reflexivity.
Qed.
Lemma seconds_exists t : exists k, seconds t k.
Proof. destruct (rint_spec (t * 600)) as (z & _ & H). exists (IZR z / 10), z. auto. Qed.
Lemma seconds_unique t k k' : seconds t k -> seconds t k' -> k = k'.
Proof. intros H H'. rewrite <- (round1_seconds _ _ H). apply round1_seconds. auto. Qed.

Lemma fill_distinct rows drop ts ks : (0 < drop)%nat -> Forall2 seconds ts ks -> forall d, NoDup (map fst d ++ ks) ->
  map fst (fill rows drop ts d) = map fst d ++ ks /\ map snd (fill rows drop ts d) = map snd d ++ map (kds rows drop) ts.
Proof.
  intros Hd H. induction H as [|t k ts ks Hk H IH]; intros d N.
  { unfold fill. cbn [fold_left map]. rewrite !app_nil_r. auto. }
  change (fill rows drop (t :: ts) d) with (fill rows drop ts (dict_set req_b (round1 (t * 60)) (kds rows drop t) d)).
  rewrite (round1_seconds _ _ Hk).
  rewrite dict_set_other.
  - destruct (IH (d ++ [(k, kds rows drop t)])) as (E1 & E2).
    { rewrite map_app, <- app_assoc. exact N. }
    rewrite E1, E2, !map_app, <- !app_assoc. auto.
  - intros k' Hk'. destruct (req_b k k') eqn:E; auto. apply req_b_true in E. subst k'. exfalso.
    apply NoDup_remove_2 in N. apply N. rewrite in_app_iff. auto.
Qed.
Lemma kinetic_distinct te drop rows ts kept ks : (0 < te)%nat -> (0 < drop)%nat -> is_times rows ts -> every te ts kept ->
  Forall2 seconds kept ks -> NoDup ks ->
  exists d, M2000_kinetic te drop rows = Ok d /\ map fst d = ks /\ Forall2 (step_data rows drop) kept (map snd d).
Proof.
  intros Ht Hd HT HE HS HN. rewrite kinetic_eq by auto.
  rewrite <- (times_unique _ _ _ HT (group_times_spec rows)). rewrite <- (every_stride _ _ _ Ht HE).
  eexists. split; [reflexivity|].
  destruct (fill_distinct rows drop kept ks Hd HS []) as (E1 & E2); [exact HN|].
  rewrite E1, E2. split; [reflexivity|]. cbn [map app]. clear - Hd.
  induction kept; constructor; auto. apply kds_step; auto.
Qed.

Lemma fill_general rows drop ts : forall d, NoDup (map fst d) ->
  NoDup (map fst (fill rows drop ts d)) /\
  (forall k, In k (map fst (fill rows drop ts d)) <-> In k (map fst d) \/ exists t, In t ts /\ seconds t k) /\
  (forall before t after k, ts = before ++ t :: after -> seconds t k -> (forall t', In t' after -> ~ seconds t' k) ->
     In (k, kds rows drop t) (fill rows drop ts d)) /\
  (forall k, (forall t, In t ts -> ~ seconds t k) -> dict_get req_b k (fill rows drop ts d) = dict_get req_b k d).
Proof.
  induction ts as [|t ts IH]; intros d N.
  { cbn [fill fold_left]. split; [auto|]. split; [intros k; split; [auto|intros [H|(t & [] & _)]; auto]|].
    split; [|auto]. intros [|? ?] ? ? ? E; discriminate. }
  change (fill rows drop (t :: ts) d) with (fill rows drop ts (dict_set req_b (round1 (t * 60)) (kds rows drop t) d)).
  destruct (seconds_exists t) as (k0 & Hk0). rewrite (round1_seconds _ _ Hk0).
  destruct (dict_set_keys req_b req_b_true k0 (kds rows drop t) d N) as (N' & K).
  destruct (IH _ N') as (I1 & I2 & I3 & I4).
  split; [exact I1|]. split; [|split].
  - intros k. rewrite I2, K. split.
    + intros [[->|H]|(u & H & S)]; [right; exists t|left|right; exists u]; simpl; auto.
    + intros [H|(u & [<-|H] & S)]; [auto| |right; eauto].
      left. left. apply (seconds_unique t); auto.
  - intros [|b before] u after k E S F.
    + injection E as -> ->. cbn [app]. assert (k = k0) as -> by (eapply seconds_unique; eauto).
      apply (dict_get_in req_b req_b_true). rewrite I4 by exact F.
      rewrite (dict_get_set req_b req_b_true). rewrite (proj2 (req_b_true k0 k0) eq_refl). reflexivity.
    + injection E as -> ->. eapply I3; eauto.
  - intros k F. rewrite I4 by (intros u Hu; apply F; right; auto).
    rewrite (dict_get_set req_b req_b_true). destruct (req_b k k0) eqn:E; auto.
    apply req_b_true in E. subst. exfalso. apply (F t); [left|]; auto.
Qed.
Lemma kinetic_general te drop rows ts kept : (0 < te)%nat -> (0 < drop)%nat -> is_times rows ts -> every te ts kept ->
  exists d, M2000_kinetic te drop rows = Ok d /\ NoDup (map fst d) /\
    (forall k, In k (map fst d) <-> exists t, In t kept /\ seconds t k) /\
    (forall before t after k, kept = before ++ t :: after -> seconds t k -> (forall t', In t' after -> ~ seconds t' k) ->
       exists x, In (k, x) d /\ step_data rows drop t x).
Proof.
  intros Ht Hd HT HE. rewrite kinetic_eq by auto.
  rewrite <- (times_unique _ _ _ HT (group_times_spec rows)). rewrite <- (every_stride _ _ _ Ht HE).
  eexists. split; [reflexivity|].
  destruct (fill_general rows drop kept [] ltac:(constructor)) as (I1 & I2 & I3 & _).
  split; [exact I1|]. split.
  - intros k. rewrite I2. simpl. intuition.
  - intros before t after k E S F. exists (kds rows drop t). split; [eapply I3; eauto|apply kds_step; auto].
Qed.

Lemma seconds_apart t t' k k' : 1 / 600 < t' - t -> seconds t k -> seconds t' k' -> k < k'.
Proof.
  intros H (z & -> & H1 & _) (z' & -> & H1' & _).
  assert (IZR z < IZR z').
  { unfold Rabs in *. repeat destruct Rcase_abs; lra. }
  lra.
Qed.
Lemma kinetic_dict pf f l0 l1 kvs rest table te drop : vase_line kvs l1 ->
  f = ByName (l0 :: l1 :: ("Dynamic" ++ newline)%string :: rest) \/ f = ByHandle (l0 :: l1 :: ("Dynamic" ++ newline)%string :: rest) ->
  open_M2000file pf f table te drop = rmap (fun d => (kvs, Dict d)) (M2000_kinetic te drop table).
Proof.
  intros Hh [-> | ->]; unfold open_M2000file; cbn [readline];
    change (chop 1 ("Dynamic" ++ newline)) with "Dynamic"%string;
    change (String.eqb "Dynamic" "nm") with false; change (String.eqb "Dynamic" "Dynamic") with true; cbv iota;
    rewrite (header_ok _ _ Hh); reflexivity.
Qed.
Lemma kinetic_zero drop rows ts : is_times rows ts -> ts <> [] -> M2000_kinetic 0 drop rows = Raise OtherError.
Proof.
  intros H N. unfold M2000_kinetic. rewrite <- (times_unique _ _ _ H (group_times_spec rows)).
  destruct ts; [congruence|reflexivity].
Qed.
Lemma kinetic_zero_drop te rows ts : (0 < te)%nat -> is_times rows ts -> ts <> [] -> M2000_kinetic te 0 rows = Raise ValueError.
Proof.
  intros Ht H N. unfold M2000_kinetic. rewrite <- (times_unique _ _ _ H (group_times_spec rows)).
  destruct ts; [congruence|]. cbn [kinetic_loop]. destruct te as [|te]; [lia|].
  rewrite Nat.mod_0_l by lia. reflexivity.
Qed.
