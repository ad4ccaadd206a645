(** * The Horiba loader *)

Require Import Reals ZArith Lra Lia List Bool String Ascii Sorting.Sorted.
From Verif Require Import Base M_disp M_model P_model M_data Spec_data P_data P_struct M_ep4 Spec_ep4 P_ep4 P_ep4b P_ep4e M_instr Spec_instr P_instr.
Import ListNotations.
Open Scope list_scope.
Open Scope R_scope.

(** ** strip *)
Lemma is_space_white c : is_space c = true <-> white c.
Proof.
  unfold is_space, white. rewrite existsb_exists. split.
  - intros (x & H & E). apply Ascii.eqb_eq in E. subst. auto.
  - intros H. exists c. split; auto. apply Ascii.eqb_refl.
Qed.
Lemma not_white c : ~ white c -> is_space c = false.
Proof. intros H. destruct (is_space c) eqn:E; auto. apply is_space_white in E. contradiction. Qed.
Lemma lstrip_white a t : all_white a -> lstrip (a ++ t) = lstrip t.
Proof.
  induction a as [|c a IH]; auto. intros (H & Ha). cbn [append lstrip].
  rewrite (proj2 (is_space_white c) H). auto.
Qed.
Lemma rstrip_white b : all_white b -> rstrip b = EmptyString.
Proof.
  induction b as [|c b IH]; auto. intros (H & Hb). cbn [rstrip]. rewrite IH by auto.
  rewrite (proj2 (is_space_white c) H). reflexivity.
Qed.
Lemma rstrip_keep s : forall c b, ~ white (last_char c s) -> all_white b -> rstrip (String c (s ++ b)) = String c s.
Proof.
  induction s as [|d s IH]; intros c b H Hb.
  - cbn [append]. change (rstrip (String c b)) with (match rstrip b with
      | EmptyString => if is_space c then EmptyString else String c EmptyString | t => String c t end).
    rewrite rstrip_white by auto. cbn [last_char] in H. rewrite not_white by auto. reflexivity.
  - change (rstrip (String c (String d s ++ b))) with (match rstrip (String d (s ++ b)) with
      | EmptyString => if is_space c then EmptyString else String c EmptyString | t => String c t end).
    rewrite IH; auto.
Qed.
Lemma strip_trimmed raw s : trimmed raw s -> strip raw = s.
Proof.
  intros ((a & b & -> & Ha & Hb) & H). unfold strip. rewrite lstrip_white by auto.
  destruct s as [|c s].
  - cbn [append]. replace (lstrip b) with (lstrip (b ++ "")) by (rewrite app_nil_s; auto).
    rewrite lstrip_white by auto. reflexivity.
  - destruct H as (H1 & H2). cbn [append lstrip]. rewrite not_white by auto. apply rstrip_keep; auto.
Qed.

(** ** titles *)
Lemma join_split c s : join c (split c s) = s.
Proof.
  induction s as [|x s IH]; [reflexivity|]. cbn [split].
  assert (split c s <> []) as N.
  { destruct s; [discriminate|]. cbn [split]. destruct (Ascii.eqb a c); [discriminate|]. destruct (split c s); discriminate. }
  destruct (Ascii.eqb_spec x c) as [->|].
  - destruct (split c s) as [|t ts] eqn:E; [congruence|].
    change (join c (EmptyString :: t :: ts)) with (String c (join c (t :: ts))). rewrite IH. reflexivity.
  - destruct (split c s) as [|t ts] eqn:E; [congruence|]. rewrite <- IH. destruct ts; reflexivity.
Qed.
Lemma title_label t label : title t label -> exists r, strip t = String "#" r /\ horiba_label (strip t) = label.
Proof.
  intros (w & c & F & T). apply strip_trimmed in T. rewrite T. eexists. split; [reflexivity|].
  unfold horiba_label.
  change (String "#" (w ++ String " " (label ++ String c ""))) with ((String "#" w ++ String " " (label ++ String c ""))%string).
  rewrite split_free_cons by (cbn [free]; split; [discriminate|auto]). cbn [tl]. rewrite join_split. apply chop1.
Qed.

(** ** the loop *)
Lemma loop_body body contents : Forall2 trimmed body contents -> ~ In EmptyString contents -> forall i rest label acc md nd,
  horiba_loop i (body ++ rest) (Some (label, acc)) md nd =
  horiba_loop (i + List.length body) rest (Some (label, acc ++ contents)) md nd.
Proof.
  intros F. induction F as [|l s body contents T F IH]; intros N i rest label acc md nd.
  { cbn [app List.length]. rewrite Nat.add_0_r, app_nil_r. reflexivity. }
  cbn [app horiba_loop]. rewrite (strip_trimmed _ _ T).
  destruct s as [|c s]; [exfalso; apply N; left; reflexivity|].
  rewrite IH by (intros H; apply N; right; auto). rewrite <- app_assoc. cbn [List.length app].
  replace (S i + List.length body)%nat with (i + S (List.length body))%nat by lia. reflexivity.
Qed.
Lemma dict_set_new {A} (k : string) (v : A) d : ~ In k (map fst d) -> dict_set String.eqb k v d = d ++ [(k, v)].
Proof.
  intros H. apply dict_set_other. intros k' Hk. apply String.eqb_neq. intros ->. contradiction.
Qed.
Lemma loop_sections i raw secs ns : horiba i raw secs ns -> forall md nd,
  NoDup (map fst md ++ map sec_label secs) -> map fst nd = map fst md ->
  horiba_loop i raw None md nd =
    (md ++ map (fun s => (sec_label s, filed s)) secs, nd ++ combine (map sec_label secs) ns).
Proof.
  induction 1 as [i|i l s raw secs ns T N H IH|i t label body contents blank raw secs ns T F Ne Tb H IH|i t label body contents T F Ne];
    intros md nd D K.
  - cbn [horiba_loop map combine]. rewrite !app_nil_r. reflexivity.
  - cbn [horiba_loop]. rewrite (strip_trimmed _ _ T).
    assert (horiba_loop (S i) raw None md nd =
      (md ++ map (fun s0 => (sec_label s0, filed s0)) secs, nd ++ combine (map sec_label secs) ns)) as E by (apply IH; auto).
    destruct s as [|c s]; [exact E|]. destruct (Ascii.eqb_spec c "#") as [->|]; [exfalso; apply (N s); reflexivity|exact E].
  - cbn [map sec_label] in D.
    assert (~ In label (map fst md)) as Nl.
    { apply NoDup_remove_2 in D. intros Hl. apply D. rewrite in_app_iff. auto. }
    cbn [horiba_loop]. destruct (title_label _ _ T) as (r & E1 & E2). rewrite E2, E1.
    change (Ascii.eqb "#" "#") with true. cbv iota.
    rewrite (loop_body _ _ F Ne). cbn [horiba_loop app]. rewrite (strip_trimmed _ _ Tb).
    replace (S (S i + List.length body))%nat with (i + 2 + List.length body)%nat by lia.
    rewrite dict_set_new by auto. rewrite dict_set_new by (rewrite K; auto).
    rewrite IH.
    + rewrite <- !app_assoc. cbn [map sec_label app combine].
      destruct contents as [|u [|v contents]]; reflexivity.
    + rewrite map_app, <- app_assoc. exact D.
    + rewrite !map_app, K. reflexivity.
  - cbn [map sec_label] in D.
    assert (~ In label (map fst md)) as Nl.
    { apply NoDup_remove_2 in D. intros Hl. apply D. rewrite in_app_iff. auto. }
    cbn [horiba_loop]. destruct (title_label _ _ T) as (r & E1 & E2). rewrite E2, E1.
    change (Ascii.eqb "#" "#") with true. cbv iota.
    replace body with (body ++ []) by apply app_nil_r.
    rewrite (loop_body _ _ F Ne). cbn [horiba_loop app].
    rewrite dict_set_new by auto. rewrite dict_set_new by (rewrite K; auto). reflexivity.
Qed.

Lemma horiba_counts i raw secs ns : horiba i raw secs ns -> List.length secs = List.length ns.
Proof. induction 1; cbn [List.length]; auto. Qed.
Lemma horiba_place i raw secs ns : horiba i raw secs ns -> forall k s j, nth_error secs k = Some s -> nth_error ns k = Some j ->
  exists pre body post, raw = pre ++ body ++ post /\ j = (i + (List.length pre - 1))%nat /\ (0 < List.length pre)%nat /\
    Forall2 trimmed body (sec_lines s) /\ ~ In EmptyString (sec_lines s).
Proof.
  induction 1 as [i|i l s raw secs ns T N H IH|i t label body contents blank raw secs ns T F Ne Tb H IH|i t label body contents T F Ne];
    intros k s0 j Hk Hj.
  - destruct k; discriminate.
  - destruct (IH _ _ _ Hk Hj) as (pre & body & post & -> & -> & P & F & Ne).
    exists (l :: pre), body, post. cbn [app List.length]. repeat split; auto; lia.
  - destruct k as [|k].
    + injection Hk as <-. injection Hj as <-. exists [t], body, (blank :: raw). cbn [app List.length sec_lines]. repeat split; auto; lia.
    + destruct (IH _ _ _ Hk Hj) as (pre & body' & post & -> & -> & P & F' & Ne').
      exists (t :: body ++ blank :: pre), body', post. split; [|split; [|split; [|split]]]; auto.
      * cbn [app]. rewrite <- app_assoc. reflexivity.
      * cbn [List.length]. rewrite app_length. cbn [List.length]. lia.
      * cbn [List.length]. lia.
  - destruct k as [|[|k]]; try discriminate. injection Hk as <-. injection Hj as <-.
    exists [t], body, []. cbn [app List.length sec_lines]. rewrite app_nil_r. repeat split; auto; lia.
Qed.

(** ** the table *)
Lemma index_first name (names : list string) i : NoDup names -> nth_error names i = Some name -> index_of name names = Some i.
Proof.
  intros N E. destruct (index_of name names) as [j|] eqn:H.
  - apply index_of_some in H. f_equal. apply (proj1 (NoDup_nth_error names) N); [|congruence].
    apply nth_error_Some. congruence.
  - apply index_of_none in H. exfalso. apply H. eapply nth_error_In; eauto.
Qed.
Lemma parse_ok pf fs vs : Forall2 (fun f v => pf f = Some v) fs vs -> parse_fields pf fs = Ok vs.
Proof.
  intros F. unfold parse_fields. apply (proj2 (mapR_Forall2 _ _ _)). eapply F2_impl; [|exact F].
  intros f v E. cbn beta. rewrite E. reflexivity.
Qed.
Lemma filter_nonempty l : ~ In EmptyString l -> filter nonempty l = l.
Proof.
  induction l as [|s l IH]; auto. intros N. cbn [filter].
  destruct s as [|c s]; [exfalso; apply N; left; auto|]. cbn [nonempty].
  rewrite IH by (intros H; apply N; right; auto). reflexivity.
Qed.
Lemma strip_map body contents : Forall2 trimmed body contents -> map strip body = contents.
Proof. induction 1 as [|l s body contents T F IH]; [reflexivity|]. cbn [map]. rewrite (strip_trimmed _ _ T), IH. reflexivity. Qed.

Lemma read_ok pf j pre body post names header rows xs :
  j = (List.length pre - 1)%nat -> (0 < List.length pre)%nat -> Forall2 trimmed body (header :: rows) ->
  ~ In EmptyString (header :: rows) -> fields " " header names -> NoDup names ->
  In "nm"%string names -> In "Psi"%string names -> In "Delta"%string names -> Forall2 (data_row pf names) rows xs ->
  read_horiba pf (j + 1) (List.length (header :: rows) - 1) (pre ++ body ++ post) = Ok xs.
Proof.
  intros -> P F Ne Fh Nn I1 I2 I3 Fr. unfold read_horiba.
  replace (List.length pre - 1 + 1)%nat with (List.length pre) by lia.
  rewrite skipn_app, skipn_all, Nat.sub_diag. cbn [skipn app].
  rewrite map_app, filter_app, (strip_map _ _ F), (filter_nonempty _ Ne). cbn [app].
  rewrite (split_fields _ _ _ Fh).
  destruct (In_nth_error _ _ I1) as (a & Ea). destruct (In_nth_error _ _ I2) as (b & Eb). destruct (In_nth_error _ _ I3) as (c & Ec).
  rewrite (index_first _ _ _ Nn Ea), (index_first _ _ _ Nn Eb), (index_first _ _ _ Nn Ec).
  cbn [List.length]. replace (S (List.length rows) - 1)%nat with (List.length rows + 0)%nat by lia.
  rewrite firstn_app_2, firstn_O, app_nil_r.
  apply (proj2 (mapR_Forall2 _ _ _)). eapply F2_impl; [|exact Fr].
  intros l x (fs & vs & Fl & Ll & Fv & (a' & Ha & Va) & (b' & Hb & Vb) & (c' & Hc & Vc)). cbn beta zeta.
  assert (forall n m name, nth_error names n = Some name -> nth_error names m = Some name -> n = m) as U.
  { intros n m name Hn Hm. apply (proj1 (NoDup_nth_error names) Nn); [|congruence]. apply nth_error_Some. congruence. }
  rewrite (U _ _ _ Ha Ea) in Va. rewrite (U _ _ _ Hb Eb) in Vb. rewrite (U _ _ _ Hc Ec) in Vc.
  rewrite (split_fields _ _ _ Fl), Ll, Nat.eqb_refl, (parse_ok _ _ _ Fv).
  f_equal. destruct x as ((x1, x2), x3). cbn [fst snd] in *.
  assert (forall n v, nth_error vs n = Some v -> nth n vs None = v) as V by (intros n v Hn; apply nth_error_nth; exact Hn).
  exact (f_equal2 pair (f_equal2 pair (V _ _ Va) (V _ _ Vb)) (V _ _ Vc)).
Qed.
Lemma read_no_column pf j pre body post names header rows n :
  j = (List.length pre - 1)%nat -> (0 < List.length pre)%nat -> Forall2 trimmed body (header :: rows) ->
  ~ In EmptyString (header :: rows) -> fields " " header names ->
  ~ In "nm"%string names \/ ~ In "Psi"%string names \/ ~ In "Delta"%string names ->
  read_horiba pf (j + 1) n (pre ++ body ++ post) = Raise ValueError.
Proof.
  intros -> P F Ne Fh Nn. unfold read_horiba.
  replace (List.length pre - 1 + 1)%nat with (List.length pre) by lia.
  rewrite skipn_app, skipn_all, Nat.sub_diag. cbn [skipn app].
  rewrite map_app, filter_app, (strip_map _ _ F), (filter_nonempty _ Ne). cbn [app].
  rewrite (split_fields _ _ _ Fh).
  destruct Nn as [Nn|[Nn|Nn]]; apply index_of_none in Nn; rewrite Nn;
    destruct (index_of "nm" names); destruct (index_of "Psi" names); reflexivity.
Qed.

(** ** cut-offs *)
Lemma filter_those lo hi (l : list (num * num * num)) :
  those (fun r => between lo hi (fst (fst r))) l
    (filter (fun r => below hi (fst (fst r))) (filter (fun r => above lo (fst (fst r))) l)).
Proof.
  induction l as [|r l IH]; [constructor|]. cbn [filter].
  assert (above lo (fst (fst r)) = true /\ below hi (fst (fst r)) = true <-> between lo hi (fst (fst r))) as B.
  { unfold between, above, below. destruct (fst (fst r)) as [x|].
    - destruct lo as [lo|], hi as [hi|]; repeat destruct Rlt_dec; (split; [intros (A1 & A2); try discriminate; eauto|]);
        intros (y & E & C1 & C2); injection E as <-; try lra; auto.
    - split; [intros (A1 & _); discriminate|intros (y & E & _); discriminate]. }
  destruct (above lo (fst (fst r))) eqn:A; cbn [filter].
  - destruct (below hi (fst (fst r))) eqn:Bl.
    + apply those_yes; auto. apply B. auto.
    + apply those_no; auto. intros H. apply B in H. destruct H; discriminate.
  - apply those_no; auto. intros H. apply B in H. destruct H; discriminate.
Qed.

(** ** the loader *)
Lemma get_in {A} k (v : A) d : NoDup (map fst d) -> In (k, v) d -> get_key k d = Ok v.
Proof.
  intros N H. unfold get_key. induction d as [|(k', v') d IH]; [contradiction|].
  cbn [map fst] in N. inversion N as [|? ? N1 N2]. cbn [dict_get]. destruct H as [H|H].
  - injection H as -> ->. rewrite String.eqb_refl. reflexivity.
  - destruct (String.eqb_spec k k') as [->|]; [exfalso; apply N1; apply (in_map fst) in H; exact H|]. auto.
Qed.
Lemma get_missing {A} k (d : list (string * A)) : ~ In k (map fst d) -> get_key k d = Raise KeyError.
Proof.
  intros N. unfold get_key. induction d as [|(k', v') d IH]; [reflexivity|]. cbn [dict_get].
  destruct (String.eqb_spec k k') as [->|]; [exfalso; apply N; left; reflexivity|].
  apply IH. intros H. apply N. right. auto.
Qed.
Lemma combine_nth_in {A B} (l : list A) (m : list B) k a b : nth_error l k = Some a -> nth_error m k = Some b -> In (a, b) (combine l m).
Proof.
  revert m k. induction l as [|x l IH]; intros [|y m] [|k] Ha Hb; try discriminate.
  - injection Ha as ->. injection Hb as ->. left. reflexivity.
  - right. eapply IH; eauto.
Qed.
Definition md_of (secs : list section) : mdict := map (fun s => (sec_label s, filed s)) secs.
Lemma md_keys secs : map fst (md_of secs) = map sec_label secs.
Proof. unfold md_of. rewrite map_map. reflexivity. Qed.
Lemma combine_keys {A B} (l : list A) (m : list B) : List.length l = List.length m -> map fst (combine l m) = l.
Proof. revert m. induction l as [|x l IH]; intros [|y m] L; try discriminate; [reflexivity|]. cbn [combine map fst]. rewrite IH; auto. Qed.

(** what open_HORIBAfile reads before it uses the encoding *)
Lemma open_horiba_data pf ansi lines secs ns refl lo hi closed header rows :
  horiba 0 lines secs ns -> NoDup (map sec_label secs) -> In (Section "DATA" (header :: rows) closed) secs ->
  (closed = true -> rows <> []) ->
  exists j pre body post, lines = pre ++ body ++ post /\ j = (List.length pre - 1)%nat /\ (0 < List.length pre)%nat /\
    Forall2 trimmed body (header :: rows) /\ ~ In EmptyString (header :: rows) /\
    open_HORIBAfile pf ansi lines refl lo hi =
      (if negb ansi then Raise OtherError else
       rbind (read_horiba pf (j + 1) (List.length (header :: rows) - 1) lines) (fun rows =>
       rbind (get_key "INCIDENCE ANGLE" (md_of secs)) (fun a =>
       rbind (entry_float pf a) (fun AOI =>
       let rows := filter (fun r => below hi (fst (fst r))) (filter (fun r => above lo (fst (fst r))) rows) in
       Ok (md_of secs, Loaded (map (fun r => fst (fst r)) rows) (map (fun _ => AOI) rows)
                 (map (fun r => snd (fst r)) rows) (map snd rows) refl))))).
Proof.
  intros H N I C. destruct (In_nth_error _ _ I) as (k & Ek).
  pose proof (horiba_counts _ _ _ _ H) as L.
  destruct (nth_error ns k) as [j|] eqn:Ej.
  2: { exfalso. apply nth_error_None in Ej. assert (k < List.length secs)%nat by (apply nth_error_Some; congruence). lia. }
  destruct (horiba_place _ _ _ _ H _ _ _ Ek Ej) as (pre & body & post & El & Ejj & P & F & Ne). cbn [sec_lines] in F, Ne.
  exists j, pre, body, post. repeat (split; [assumption|]).
  unfold open_HORIBAfile. rewrite (loop_sections _ _ _ _ H [] []) by auto. cbn [app].
  rewrite (get_in "DATA" j).
  2: { rewrite combine_keys by (rewrite map_length; exact L). exact N. }
  2: { apply combine_nth_in with k; auto. rewrite nth_error_map, Ek. reflexivity. }
  cbn [rbind]. fold (md_of secs).
  rewrite (get_in "DATA" (filed (Section "DATA" (header :: rows) closed))).
  2: { rewrite md_keys. exact N. }
  2: { unfold md_of. apply in_map_iff. eexists. split; [|exact I]. reflexivity. }
  cbn [rbind].
  assert (entry_len (filed (Section "DATA" (header :: rows) closed)) = Ok (List.length (header :: rows))) as ->.
  { unfold filed. cbn [sec_closed sec_lines]. destruct closed; [|reflexivity].
    destruct rows as [|r rows]; [exfalso; apply C; reflexivity|reflexivity]. }
  cbn [rbind List.length Nat.eqb]. reflexivity.
Qed.

Lemma open_horiba pf lines secs ns refl lo hi closed header rows names xs angle a :
  horiba 0 lines secs ns -> NoDup (map sec_label secs) -> In (Section "DATA" (header :: rows) closed) secs ->
  (closed = true -> rows <> []) -> fields " " header names -> NoDup names ->
  In "nm"%string names -> In "Psi"%string names -> In "Delta"%string names -> Forall2 (data_row pf names) rows xs ->
  In (Section "INCIDENCE ANGLE" [angle] true) secs -> pf (substring 0 5 angle) = Some a ->
  exists x sel, open_HORIBAfile pf true lines refl lo hi = Ok (map (fun s => (sec_label s, filed s)) secs, x) /\
    those (fun r => between lo hi (fst (fst r))) xs sel /\
    stores x refl (map (fun r => (fst (fst r), a, snd (fst r), snd r)) sel).
Proof.
  intros H N I C Fh Nn I1 I2 I3 Fr Ia Pa.
  destruct (open_horiba_data pf true lines secs ns refl lo hi closed header rows H N I C) as
    (j & pre & body & post & El & Ej & P & F & Ne & E).
  rewrite E. cbn [negb]. rewrite El, (read_ok pf j pre body post names header rows xs) by assumption. cbn [rbind].
  rewrite (get_in "INCIDENCE ANGLE" (ELine angle)).
  2: { rewrite md_keys. exact N. }
  2: { unfold md_of. apply in_map_iff. eexists. split; [|exact Ia]. reflexivity. }
  cbn [rbind entry_float]. rewrite Pa. cbn [rbind]. cbv zeta. eexists _, _. split; [reflexivity|]. split; [apply filter_those|].
  unfold stores. cbn [ld_wav ld_aoi ld_psi ld_delta ld_reflect]. rewrite !map_map. repeat split; reflexivity.
Qed.
Lemma open_horiba_encoding pf lines secs ns refl lo hi closed header rows :
  horiba 0 lines secs ns -> NoDup (map sec_label secs) -> In (Section "DATA" (header :: rows) closed) secs ->
  (closed = true -> rows <> []) -> open_HORIBAfile pf false lines refl lo hi = Raise OtherError.
Proof.
  intros H N I C.
  destruct (open_horiba_data pf false lines secs ns refl lo hi closed header rows H N I C) as
    (j & pre & body & post & El & Ej & P & F & Ne & E).
  rewrite E. reflexivity.
Qed.
Lemma open_horiba_no_data pf ansi lines secs ns refl lo hi : horiba 0 lines secs ns -> NoDup (map sec_label secs) ->
  ~ In "DATA"%string (map sec_label secs) -> open_HORIBAfile pf ansi lines refl lo hi = Raise KeyError.
Proof.
  intros H N I. unfold open_HORIBAfile. rewrite (loop_sections _ _ _ _ H [] []) by auto. cbn [app].
  rewrite get_missing; [reflexivity|]. rewrite combine_keys by (rewrite map_length; eapply horiba_counts; eauto). exact I.
Qed.
Lemma open_horiba_no_angle pf lines secs ns refl lo hi closed header rows names xs :
  horiba 0 lines secs ns -> NoDup (map sec_label secs) -> In (Section "DATA" (header :: rows) closed) secs ->
  (closed = true -> rows <> []) -> fields " " header names -> NoDup names ->
  In "nm"%string names -> In "Psi"%string names -> In "Delta"%string names -> Forall2 (data_row pf names) rows xs ->
  ~ In "INCIDENCE ANGLE"%string (map sec_label secs) ->
  open_HORIBAfile pf true lines refl lo hi = Raise KeyError.
Proof.
  intros H N I C Fh Nn I1 I2 I3 Fr Ia.
  destruct (open_horiba_data pf true lines secs ns refl lo hi closed header rows H N I C) as
    (j & pre & body & post & El & Ej & P & F & Ne & E).
  rewrite E. cbn [negb]. rewrite El, (read_ok pf j pre body post names header rows xs) by assumption. cbn [rbind].
  rewrite get_missing; [reflexivity|]. rewrite md_keys. exact Ia.
Qed.
Lemma open_horiba_bad_angle pf lines secs ns refl lo hi closed header rows names xs s :
  horiba 0 lines secs ns -> NoDup (map sec_label secs) -> In (Section "DATA" (header :: rows) closed) secs ->
  (closed = true -> rows <> []) -> fields " " header names -> NoDup names ->
  In "nm"%string names -> In "Psi"%string names -> In "Delta"%string names -> Forall2 (data_row pf names) rows xs ->
  In s secs -> sec_label s = "INCIDENCE ANGLE"%string -> sec_closed s = false \/ List.length (sec_lines s) <> 1%nat ->
  open_HORIBAfile pf true lines refl lo hi = Raise TypeError.
Proof.
  intros H N I C Fh Nn I1 I2 I3 Fr Ia La Ca.
  destruct (open_horiba_data pf true lines secs ns refl lo hi closed header rows H N I C) as
    (j & pre & body & post & El & Ej & P & F & Ne & E).
  rewrite E. cbn [negb]. rewrite El, (read_ok pf j pre body post names header rows xs) by assumption. cbn [rbind].
  rewrite (get_in "INCIDENCE ANGLE" (filed s)).
  2: { rewrite md_keys. exact N. }
  2: { unfold md_of. apply in_map_iff. exists s. rewrite La. auto. }
  cbn [rbind]. unfold filed. destruct (sec_closed s).
  - destruct Ca as [Ca|Ca]; [discriminate|]. destruct (sec_lines s) as [|u [|v l]]; [reflexivity|exfalso; apply Ca; reflexivity|reflexivity].
  - reflexivity.
Qed.
Lemma open_horiba_no_column pf lines secs ns refl lo hi closed header rows names :
  horiba 0 lines secs ns -> NoDup (map sec_label secs) -> In (Section "DATA" (header :: rows) closed) secs ->
  (closed = true -> rows <> []) -> fields " " header names ->
  ~ In "nm"%string names \/ ~ In "Psi"%string names \/ ~ In "Delta"%string names ->
  open_HORIBAfile pf true lines refl lo hi = Raise ValueError.
Proof.
  intros H N I C Fh Nn.
  destruct (open_horiba_data pf true lines secs ns refl lo hi closed header rows H N I C) as
    (j & pre & body & post & El & Ej & P & F & Ne & E).
  rewrite E. cbn [negb]. rewrite El, (read_no_column pf j pre body post names header rows) by assumption. reflexivity.
Qed.
