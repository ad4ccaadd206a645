(** * Proofs: exactly which files DataSE.load reads *)

Require Import Reals Lia List Bool String Ascii.
From Verif Require Import Base M_disp M_model M_data Spec_data P_struct P_data M_ep4 M_instr Spec_ep4 Spec_instr P_instr P_instr3
  P_accept Spec_exact.
Import ListNotations.
Open Scope list_scope.
Open Scope R_scope.

Lemma strip_uncommented l : uncommented l (strip_comment l).
Proof.
  induction l as [|x l IH]; cbn [strip_comment].
  - split; [exact I|left; reflexivity].
  - destruct (Ascii.eqb_spec x "#") as [->|N].
    + split; [exact I|]. right. exists l. reflexivity.
    + destruct IH as (F & H). split; [split; assumption|].
      destruct H as [H|(rest & H)]; [left; rewrite <- H; reflexivity|right; exists rest; cbn; f_equal; exact H].
Qed.
Lemma uncommented_strip l : forall t, uncommented l t -> strip_comment l = t.
Proof.
  induction l as [|x l IH]; intros t (F & H).
  - destruct H as [<-|(rest & H)]; [reflexivity|]. destruct t; discriminate.
  - cbn [strip_comment]. destruct t as [|y t].
    + destruct H as [H|(rest & H)]; [discriminate|]. cbn in H. inversion H; subst. reflexivity.
    + destruct F as (N & F).
      assert (x = y /\ (l = t \/ exists rest, l = (t ++ String "#" rest)%string)) as (-> & H').
      { destruct H as [H|(rest & H)]; cbn in H; inversion H; subst; split; auto. right. exists rest. reflexivity. }
      destruct (Ascii.eqb_spec y "#"); [contradiction|]. f_equal. apply IH. split; assumption.
Qed.
Lemma filter_nonempty l : those (fun t => t <> EmptyString) l (filter nonempty l).
Proof.
  induction l as [|t l IH]; cbn [filter]; [constructor|]. destruct t as [|a t].
  - apply those_no; [tauto|exact IH].
  - apply those_yes; [discriminate|exact IH].
Qed.
Lemma those_unique {A} (P : A -> Prop) l r r' : those P l r -> those P l r' -> r = r'.
Proof.
  intros H. revert r'. induction H; intros r' H'; inversion H'; subst; try contradiction; auto. f_equal. auto.
Qed.

Definition row (x : point) : list num := [p_wav x; p_aoi x; p_psi x; p_delta x].
Lemma row_inv (vs : list num) : List.length vs = 4%nat -> exists x, vs = row x.
Proof.
  destruct vs as [|a [|b [|c [|e [|]]]]]; cbn; try discriminate. intros _. exists (a, b, c, e). reflexivity.
Qed.

Lemma map_uncommented lines texts : Forall2 uncommented lines texts -> map strip_comment lines = texts.
Proof.
  induction 1 as [|l t ls ts H F IH]; [reflexivity|]. cbn [map]. rewrite IH, (uncommented_strip _ _ H). reflexivity.
Qed.
Lemma uncommented_map lines : Forall2 uncommented lines (map strip_comment lines).
Proof. induction lines; cbn [map]; constructor; [apply strip_uncommented|assumption]. Qed.

Definition parsed pf c lines := mapR (fun l => parse_fields pf (split c l)) (filter nonempty (map strip_comment lines)).
Lemma parse_rows pf c used pts : Forall2 (four_numbers pf c) used pts ->
  mapR (fun l => parse_fields pf (split c l)) used = Ok (map row pts).
Proof.
  induction 1 as [|t x ts pts (fs & Ff & Fn) F IH]; [reflexivity|]. cbn [mapR].
  rewrite (split_fields _ _ _ Ff), (parse_ok _ _ _ Fn). rewrite IH. reflexivity.
Qed.
Lemma parse_rows_inv pf c used : forall rows, mapR (fun l => parse_fields pf (split c l)) used = Ok rows ->
  Forall2 (fun t r => exists fs, fields c t fs /\ Forall2 (fun f v => pf f = Some v) fs r) used rows.
Proof.
  induction used as [|t used IH]; intros rows; cbn [mapR]; [intros [= <-]; constructor|].
  destruct (parse_fields pf (split c t)) as [v|] eqn:E; [|discriminate]. cbn [rbind rmap].
  destruct (mapR _ used) as [vs|] eqn:E2; [|discriminate]. intros [= <-].
  constructor; [|apply IH; reflexivity]. exists (split c t). split; [apply fields_split|apply parse_inv; exact E].
Qed.
Lemma table_parsed pf c lines pts : table_of pf c lines pts -> parsed pf c lines = Ok (map row pts).
Proof.
  intros (texts & used & Fu & Th & Fn). unfold parsed. rewrite (map_uncommented _ _ Fu).
  rewrite (those_unique _ _ _ _ (filter_nonempty texts) Th). apply parse_rows. exact Fn.
Qed.
Lemma parsed_table pf c lines pts : parsed pf c lines = Ok (map row pts) -> table_of pf c lines pts.
Proof.
  intros E. apply parse_rows_inv in E. exists (map strip_comment lines), (filter nonempty (map strip_comment lines)).
  split; [apply uncommented_map|]. split; [apply filter_nonempty|].
  remember (filter nonempty (map strip_comment lines)) as used.
  revert pts E. clear. induction used as [|t used IH]; intros [|x pts] E; inversion E; subst; constructor; auto.
Qed.
Lemma cols_unique (pts pts' : list point) : map p_wav pts = map p_wav pts' -> map p_aoi pts = map p_aoi pts' ->
  map p_psi pts = map p_psi pts' -> map p_delta pts = map p_delta pts' -> pts = pts'.
Proof.
  revert pts'. induction pts as [|[[[a b] c] e] pts IH]; intros [|[[[a' b'] c'] e'] pts'] H1 H2 H3 H4; try discriminate; [reflexivity|].
  cbn [map p_wav p_aoi p_psi p_delta fst snd] in *.
  inversion H1; inversion H2; inversion H3; inversion H4. assert (pts = pts') as -> by auto. reflexivity.
Qed.

(** ** loadtxt and unpacking *)
Lemma same_rows pts : same_lengths (map row pts) = true.
Proof.
  destruct pts as [|x pts]; [reflexivity|]. cbn [map same_lengths]. apply forallb_forall. intros r Hr.
  apply in_map_iff in Hr as (y & <- & _). reflexivity.
Qed.
Definition read pf c lines := rbind (loadtxt pf c 0 lines) unpack4.
Lemma read_table pf c lines pts : table_of pf c lines pts ->
  ((2 <= List.length pts)%nat -> read pf c lines = Ok (map p_wav pts, map p_aoi pts, map p_psi pts, map p_delta pts)) /\
  (List.length pts = 0%nat -> read pf c lines = Raise ValueError) /\
  (List.length pts = 1%nat -> read pf c lines = Raise OtherError).
Proof.
  intros T. apply table_parsed in T.
  assert (loadtxt pf c 0 lines = Ok (map row pts)) as E.
  { unfold loadtxt. cbn [skipn]. unfold parsed in T. rewrite T. cbn [rbind]. rewrite same_rows. reflexivity. }
  unfold read. rewrite E. cbn [rbind]. split; [|split].
  - intros L. exact (unpack_points pts L).
  - destruct pts; [reflexivity|discriminate].
  - destruct pts as [|x [|]]; try discriminate. reflexivity.
Qed.
Lemma mapR_parse_error pf c used e : mapR (fun l => parse_fields pf (split c l)) used = Raise e -> e = ValueError.
Proof.
  assert (forall fs, parse_fields pf fs = Raise e -> e = ValueError) as X.
  { unfold parse_fields. induction fs as [|f fs IH]; cbn [mapR]; [discriminate|].
    destruct (pf f); cbn [rbind]; [|intros [= <-]; reflexivity].
    destruct (mapR _ fs) eqn:E; cbn [rbind rmap]; [discriminate|]. intros [= <-]. apply IH. reflexivity. }
  induction used as [|t used IH]; cbn [mapR]; [discriminate|].
  destruct (parse_fields pf (split c t)) eqn:E; cbn [rbind]; [|intros [= <-]; apply (X _ E)].
  destruct (mapR _ used) eqn:E2; cbn [rbind rmap]; [discriminate|]. intros [= <-]. apply IH. reflexivity.
Qed.
Lemma rows_points (rows : list (list num)) r : In r rows -> same_lengths rows = true -> List.length r = 4%nat ->
  exists pts, rows = map row pts.
Proof.
  intros Hr S L.
  assert (forall r', In r' rows -> List.length r' = 4%nat) as F.
  { destruct rows as [|r0 rs]; [destruct Hr|]. cbn [same_lengths] in S. rewrite forallb_forall in S.
    assert (forall q, In q (r0 :: rs) -> List.length q = List.length r0) as Q.
    { intros q [<-|Hq]; [reflexivity|]. apply Nat.eqb_eq. apply S. exact Hq. }
    intros r' Hr'. rewrite (Q r' Hr'), <- (Q r Hr). exact L. }
  clear Hr S. induction rows as [|q rows IH]; [exists []; reflexivity|].
  destruct (row_inv q) as (x & ->); [apply F; left; reflexivity|].
  destruct IH as (pts & ->); [intros; apply F; right; assumption|]. exists (x :: pts). reflexivity.
Qed.
(** whatever the lines are *)
Lemma column_parsed pf c lines vs : column_of pf c lines vs -> parsed pf c lines = Ok (map (fun v => [v]) vs).
Proof.
  intros (texts & used & Fu & Th & Fn). unfold parsed. rewrite (map_uncommented _ _ Fu).
  rewrite (those_unique _ _ _ _ (filter_nonempty texts) Th). clear - Fn.
  induction Fn as [|t v ts vs (F & E) Fn IH]; [reflexivity|]. cbn [mapR map].
  rewrite (split_fields c t [t]), (parse_ok pf [t] [v]), IH; [reflexivity|constructor; [exact E|constructor]|].
  split; [discriminate|]. split; [constructor; [exact F|constructor]|reflexivity].
Qed.
Lemma parsed_column pf c lines rows : parsed pf c lines = Ok rows -> Forall (fun r => List.length r = 1%nat) rows ->
  column_of pf c lines (List.concat rows).
Proof.
  intros E L. apply parse_rows_inv in E. exists (map strip_comment lines), (filter nonempty (map strip_comment lines)).
  split; [apply uncommented_map|]. split; [apply filter_nonempty|].
  generalize dependent (filter nonempty (map strip_comment lines)). intros used E. revert L. induction E as [|t r ts rs (fs & (N & F & J) & P) E IH]; intros L; cbn [List.concat]; [constructor|].
  inversion L; subst. destruct P as [|f v fs' r' Pf P]; [discriminate|]. destruct P; [|discriminate]. cbn [app]. constructor; [|apply IH; assumption].
  inversion F; subst. split; assumption.
Qed.
Lemma ones (rows : list (list num)) : forallb (fun r => Nat.eqb (List.length r) 1) rows = true ->
  Forall (fun r => List.length r = 1%nat) rows.
Proof. rewrite forallb_forall, Forall_forall. intros H r I. apply Nat.eqb_eq, H, I. Qed.
Lemma unpack_table (r : list num) rows : same_lengths (r :: rows) = true -> List.length r <> 4%nat ->
  unpack4 (r :: rows) = Raise ValueError \/ (List.length (r :: rows) = 4%nat /\ Forall (fun r => List.length r = 1%nat) (r :: rows)).
Proof.
  intros S L. apply Nat.eqb_neq in L. unfold unpack4. destruct rows as [|r' rows].
  - cbn [as_vector]. rewrite L. left. reflexivity.
  - unfold as_vector. destruct (forallb _ _) eqn:F; [|rewrite L; left; reflexivity]. apply ones in F.
    destruct (Nat.eqb (List.length (List.concat (r :: r' :: rows))) 4) eqn:Q; [|left; reflexivity]. right. split; [|exact F].
    apply Nat.eqb_eq in Q. rewrite <- Q. clear - F. set (l := r :: r' :: rows) in *. clearbody l.
    induction F as [|x l X F IH]; [reflexivity|]. cbn [List.concat List.length]. rewrite app_length, X, IH. reflexivity.
Qed.
Lemma read_cases pf c lines :
  (exists pts, table_of pf c lines pts) \/ read pf c lines = Raise ValueError \/
  (exists vs, column_of pf c lines vs /\ List.length vs = 4%nat /\ read pf c lines = Raise OtherError).
Proof.
  unfold read, loadtxt. cbn [skipn]. fold (parsed pf c lines). destruct (parsed pf c lines) as [rows|e] eqn:E; cbn [rbind].
  - destruct (same_lengths rows) eqn:S; cbn [rbind]; [|right; left; reflexivity].
    destruct rows as [|r rows]; [left; exists []; apply parsed_table; exact E|].
    destruct (Nat.eqb (List.length r) 4) eqn:L.
    + left. apply Nat.eqb_eq in L. destruct (rows_points (r :: rows) r) as (pts & EP); [left; reflexivity|exact S|exact L|].
      exists pts. apply parsed_table. rewrite E, EP. reflexivity.
    + right. apply Nat.eqb_neq in L. destruct (unpack_table r rows S L) as [U|(Q & F)]; [left; exact U|right].
      exists (List.concat (r :: rows)). split; [apply parsed_column; assumption|].
      destruct rows as [|r2 [|r3 [|r4 [|]]]]; try discriminate Q.
      repeat match goal with H : Forall _ (_ :: _) |- _ => inversion H; clear H; subst end.
      repeat match goal with H : List.length ?l = 1%nat |- _ => destruct l as [|? []]; try discriminate H; clear H end.
      split; reflexivity.
  - right; left. f_equal. exact (mapR_parse_error _ _ _ _ E).
Qed.

(** ** the header *)
Lemma starts_dec pf c l : {starts_with_number pf c l} + {~ starts_with_number pf c l}.
Proof.
  unfold starts_with_number. destruct (pf (first_field c l)) as [v|]; [left; exists v; reflexivity|right; intros (v & [=])].
Qed.
Lemma header_ex pf c lines : exists hdr body, header pf c lines hdr body.
Proof.
  unfold header. cut (forall n, exists hdr body, lines = hdr ++ body /\ Forall (fun l => ~ starts_with_number pf c l) hdr /\ (List.length hdr <= n)%nat /\
    (body = [] \/ List.length hdr = n \/ exists l rest, body = l :: rest /\ starts_with_number pf c l)); [intros H; apply H|].
  induction lines as [|l lines IH]; intros n.
  - exists [], []. repeat split; [constructor|cbn; lia|left; reflexivity].
  - destruct (starts_dec pf c l) as [Y|N].
    + exists [], (l :: lines). repeat split; [constructor|cbn; lia|]. right; right. eauto.
    + destruct n as [|n].
      * exists [], (l :: lines). repeat split; [constructor|cbn; lia|]. right; left. reflexivity.
      * destruct (IH n) as (hdr & body & -> & F & L & E). exists (l :: hdr), body.
        split; [reflexivity|]. split; [constructor; assumption|]. split; [cbn; lia|].
        destruct E as [E|[E|E]]; [left; exact E|right; left; cbn; lia|right; right; exact E].
Qed.
Lemma header_unique pf c lines hdr body hdr' body' : header pf c lines hdr body -> header pf c lines hdr' body' ->
  hdr = hdr' /\ body = body'.
Proof.
  intros (E & F & L & X) (E' & F' & L' & X'). rewrite E in E'. clear E.
  revert L X L' X'. generalize 100%nat. revert hdr' F' E'. induction F as [|l hdr N F IH]; intros hdr' F' E' n L X L' X'.
  - destruct F' as [|l' hdr' N' F']; [split; [reflexivity|exact E']|]. exfalso. cbn in E', L'.
    destruct X as [->|[X|(q & rest & -> & Y)]]; [discriminate|cbn in X; lia|]. inversion E'; subst. contradiction.
  - destruct F' as [|l' hdr' N' F'].
    + exfalso. cbn in E', L. destruct X' as [->|[X'|(q & rest & -> & Y)]]; [discriminate|cbn in X'; lia|]. inversion E'; subst. contradiction.
    + cbn in E', L, L'. inversion E'; subst. destruct n as [|n]; [lia|].
      destruct (IH hdr' F' H1 n) as (-> & ->); try lia; [|auto|split; reflexivity].
      destruct X as [X|[X|X]]; [tauto|right; left; cbn in X; lia|tauto].
      destruct X' as [X'|[X'|X']]; [tauto|right; left; cbn in X'; lia|tauto].
Qed.
Lemma detect_nil pf c n : detect_header pf c n [] = (n, []).
Proof. induction n as [|n IH]; cbn [detect_header]; [reflexivity|]. rewrite IH. reflexivity. Qed.

Lemma detect_end pf c : forall n hdr, Forall (fun l => ~ starts_with_number pf c l) hdr -> (List.length hdr <= n)%nat ->
  detect_header pf c n hdr = (n, []).
Proof.
  induction n as [|n IH]; intros hdr F L; destruct F as [|l hdr N F]; cbn in L; try lia; [reflexivity|apply detect_nil|].
  cbn [detect_header]. rewrite first_field_split.
  destruct (pf (first_field c l)) eqn:E; [exfalso; apply N; eexists; exact E|]. rewrite IH by (auto; lia). reflexivity.
Qed.
Lemma skipn_all_le {A} (l : list A) n : (List.length l <= n)%nat -> skipn n l = [].
Proof. intros. apply skipn_all2. exact H. Qed.
Definition put (h : heap) (d : dataset) (q : list num * list num * list num * list num) : result (dataset * heap) :=
  let '(w, a, p, x) := q in Ok (set_columns h d w a p x (ds_mask d)).
Lemma load_read pf h d lines hdr body : header pf (ds_delim d) lines hdr body ->
  load pf h d (ByName lines) = rbind (read pf (ds_delim d) body) (put h d) /\
  load pf h d (ByHandle lines) =
    rbind (read pf (ds_delim d) (skipn (List.length hdr) (if Nat.eqb (List.length hdr) 100 then body else tl body))) (put h d).
Proof.
  intros (-> & F & L & X). unfold load. set (c := ds_delim d) in *.
  assert (exists k r, detect_header pf c 100 (hdr ++ body) = (k, r) /\ skipn k (hdr ++ body) = body /\
    skipn k r = skipn (List.length hdr) (if Nat.eqb (List.length hdr) 100 then body else tl body)) as (k & r & -> & E1 & E2).
  { destruct X as [->|[X|(l & rest & -> & Y)]].
    - rewrite app_nil_r, detect_end by assumption. do 2 eexists. split; [reflexivity|]. split.
      + apply skipn_all_le. exact L.
      + cbn [tl]. destruct (Nat.eqb (List.length hdr) 100); rewrite !skipn_nil; reflexivity.
    - rewrite (detect_long pf c 100 hdr body F X). do 2 eexists. split; [reflexivity|]. rewrite X. cbn [Nat.eqb].
      split; [|reflexivity]. rewrite skipn_app, skipn_all_le, X, Nat.sub_diag by lia. reflexivity.
    - destruct (Nat.eqb (List.length hdr) 100) eqn:E.
      + apply Nat.eqb_eq in E. rewrite (detect_long pf c 100 hdr (l :: rest) F E). do 2 eexists. split; [reflexivity|].
        rewrite E. split; [|reflexivity]. rewrite skipn_app, skipn_all_le, E, Nat.sub_diag by lia. reflexivity.
      + apply Nat.eqb_neq in E. rewrite (detect_spec pf c 100 hdr l rest F Y) by lia. do 2 eexists. split; [reflexivity|].
        split; [|reflexivity]. rewrite skipn_app, skipn_all_le, Nat.sub_diag by lia. reflexivity. }
  split; rewrite loadtxt_skip, ?E1, ?E2; unfold read; destruct (loadtxt pf c 0 _); reflexivity.
Qed.

Lemma put_holds h d pts : exists d' h', put h d (map p_wav pts, map p_aoi pts, map p_psi pts, map p_delta pts) = Ok (d', h') /\
  holds h' d' pts /\ ds_mask d' = ds_mask d /\ ds_flipped d' = ds_flipped d /\
  (forall a, (a < List.length h)%nat -> nth_error h' a = nth_error h a).
Proof.
  unfold put. pose proof (set_columns_spec h d (map p_wav pts) (map p_aoi pts) (map p_psi pts) (map p_delta pts) (ds_mask d)) as S.
  destruct (set_columns h d _ _ _ _ _) as [d' h']. exists d', h'.
  destruct S as (-> & E1 & E2 & E3 & E4 & Em & Ef & _).
  split; auto. split; [|repeat split; auto; intros; apply nth_error_app1; auto].
  unfold holds. rewrite E1, E2, E3, E4. rewrite !nth_error_app2 by lia. rewrite Nat.sub_diag.
  replace (S (List.length h) - List.length h)%nat with 1%nat by lia.
  replace (S (S (List.length h)) - List.length h)%nat with 2%nat by lia.
  replace (S (S (S (List.length h))) - List.length h)%nat with 3%nat by lia. auto.
Qed.
Lemma holds_unique h d pts pts' : holds h d pts -> holds h d pts' -> pts = pts'.
Proof. intros (A & B & Cc & D) (A' & B' & C' & D'). apply cols_unique; congruence. Qed.

Lemma read_exact pf c h d lines : let r := rbind (read pf c lines) (put h d) in
  (forall pts, fills h d r pts <-> (2 <= List.length pts)%nat /\ table_of pf c lines pts) /\
  (forall e, r = Raise e -> e = ValueError \/ exists x, one_point pf c lines x) /\
  (forall o, r = Ok o -> exists pts, fills h d r pts).
Proof.
  cbn zeta. destruct (read_cases pf c lines) as [(pts & T)|[E|(vs & Cv & Lv & E)]].
  - destruct (read_table pf c lines pts T) as (R2 & R0 & R1).
    destruct pts as [|x [|y pts]].
    + rewrite (R0 eq_refl). cbn [rbind]. split; [|split].
      * intros pts. split; [intros (d' & h' & [=] & _)|]. intros (L & T').
        destruct (read_table pf c lines pts T') as (Q & _). rewrite (Q L) in R0. discriminate (R0 eq_refl).
      * intros e [= <-]. left. reflexivity.
      * intros o [=].
    + rewrite (R1 eq_refl). cbn [rbind]. split; [|split].
      * intros pts. split; [intros (d' & h' & [=] & _)|]. intros (L & T').
        destruct (read_table pf c lines pts T') as (Q & _). rewrite (Q L) in R1. discriminate (R1 eq_refl).
      * intros e _. right. exists x. left. exact T.
      * intros o [=].
    + assert (2 <= List.length (x :: y :: pts))%nat as L by (cbn; lia). specialize (R2 L).
      remember (x :: y :: pts) as P eqn:EP. clear R0 R1 EP x y pts.
      rewrite R2. cbn [rbind]. destruct (put_holds h d P) as (d' & h' & E & H & M). rewrite E.
      split; [|split].
      * intros pts. split.
        -- intros (d2 & h2 & E2 & H2 & _). assert (d2 = d' /\ h2 = h') as (-> & ->) by (inversion E2; auto).
           rewrite (holds_unique _ _ _ _ H2 H). auto.
        -- intros (L2 & T2). destruct (read_table pf c lines pts T2) as (Q & _). specialize (Q L2). rewrite R2 in Q.
           assert (P = pts) as <- by (inversion Q; apply cols_unique; assumption).
           exists d', h'. auto.
      * intros e [=].
      * intros o _. exists P, d', h'. auto.
  - rewrite E. cbn [rbind]. split; [|split].
    + intros pts. split; [intros (d' & h' & [=] & _)|]. intros (L & T). destruct (read_table pf c lines pts T) as (Q & _).
      rewrite (Q L) in E. discriminate.
    + intros e [= <-]. left. reflexivity.
    + intros o [=].
  - rewrite E. cbn [rbind]. split; [|split].
    + intros pts. split; [intros (d' & h' & [=] & _)|]. intros (L & T). destruct (read_table pf c lines pts T) as (Q & _).
      rewrite (Q L) in E. discriminate.
    + intros e _. right. destruct (row_inv vs Lv) as (x & ->). exists x. right. exact Cv.
    + intros o [=].
Qed.
Lemma header_exact pf c lines : exists hdr body, header pf c lines hdr body /\
  forall hdr' body', header pf c lines hdr' body' -> hdr' = hdr /\ body' = body.
Proof.
  destruct (header_ex pf c lines) as (hdr & body & H). exists hdr, body. split; [exact H|].
  intros hdr' body' H'. exact (header_unique _ _ _ _ _ _ _ H' H).
Qed.
Lemma load_name_exact pf h d lines hdr body : header pf (ds_delim d) lines hdr body ->
  (forall pts, fills h d (load pf h d (ByName lines)) pts <->
     (2 <= List.length pts)%nat /\ table_of pf (ds_delim d) body pts) /\
  (forall o, load pf h d (ByName lines) = Ok o -> exists pts, fills h d (load pf h d (ByName lines)) pts) /\
  (forall e, load pf h d (ByName lines) = Raise e -> e = ValueError \/ exists x, one_point pf (ds_delim d) body x).
Proof.
  intros H. destruct (load_read pf h d lines hdr body H) as (-> & _).
  destruct (read_exact pf (ds_delim d) h d body) as (A & B & D). auto.
Qed.
Lemma load_handle_exact pf h d lines hdr body : header pf (ds_delim d) lines hdr body ->
  let rest := skipn (List.length hdr) (if Nat.eqb (List.length hdr) 100 then body else tl body) in
  (forall pts, fills h d (load pf h d (ByHandle lines)) pts <->
     (2 <= List.length pts)%nat /\ table_of pf (ds_delim d) rest pts) /\
  (forall o, load pf h d (ByHandle lines) = Ok o -> exists pts, fills h d (load pf h d (ByHandle lines)) pts) /\
  (forall e, load pf h d (ByHandle lines) = Raise e -> e = ValueError \/ exists x, one_point pf (ds_delim d) rest x).
Proof.
  intros H rest. destruct (load_read pf h d lines hdr body H) as (_ & ->). fold rest.
  destruct (read_exact pf (ds_delim d) h d rest) as (A & B & D). auto.
Qed.
