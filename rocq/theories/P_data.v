(** * Proofs about DataSE *)

Require Import Reals List Bool String Ascii Lra Lia Sorting.Sorted Sorting.Permutation.
From Verif Require Import Base M_tmm P_tmm M_disp P_disp M_model P_struct P_model M_data Spec_data.
Import ListNotations.
Open Scope list_scope.
Open Scope R_scope.

(** ** masks *)
Lemma kept_where {A} m : forall (l r : list A), kept m l r -> where_true m l = r.
Proof.
  unfold where_true. intros l r H. induction H; simpl; auto. f_equal; auto.
Qed.
Lemma kept_ex {A} m : forall l : list A, List.length m = List.length l -> exists r, kept m l r.
Proof.
  induction m as [|b m IH]; intros [|x l] E; simpl in E; try discriminate.
  - exists []. constructor.
  - destruct (IH l) as [r H]; [lia|]. destruct b; eexists; constructor; eauto.
Qed.
Lemma kept_len {A} m (l r : list A) : kept m l r -> List.length m = List.length l.
Proof. induction 1; simpl; lia. Qed.
Lemma kept_map {A B} (f : A -> B) m l r : kept m l r -> kept m (map f l) (map f r).
Proof. induction 1; simpl; constructor; auto. Qed.
Lemma kept_count {A} m (l r : list A) : kept m l r -> List.length r = count_occ Bool.bool_dec m true.
Proof. induction 1; simpl; auto. Qed.
Lemma kept_all {A} (l : list A) : kept (map (fun _ => true) l) l l.
Proof. induction l; simpl; constructor; auto. Qed.

Lemma arr_nth h a l : nth_error h a = Some l -> arr h a = l.
Proof. intros H. unfold arr. apply nth_error_nth; auto. Qed.

Lemma masked_kept {A} (f : A -> num) m (l r : list A) : kept m l r -> masked (MBool m) (map f l) = Ok (A1 (map f r)).
Proof.
  intros K. unfold masked. destruct l as [|x l].
  - inversion K; subst. reflexivity.
  - change (map f (x :: l)) with (f x :: map f l) at 1. cbv iota beta.
    rewrite map_length, (kept_len _ _ _ K), Nat.eqb_refl.
    rewrite (kept_where _ _ _ (kept_map f _ _ _ K)). reflexivity.
Qed.

Theorem getters h d pts m sel : holds h d pts -> ds_mask d = MBool m -> kept m pts sel ->
  get_wavelength h d = Ok (A1 (map p_wav sel)) /\ get_aoi h d = Ok (A1 (map p_aoi sel)) /\
  get_psi h d = Ok (A1 (map p_psi sel)) /\ get_delta h d = Ok (A1 (map p_delta sel)) /\
  get_data h d = Ok (columns sel) /\ ds_len h d = Ok (List.length sel).
Proof.
  intros (H1 & H2 & H3 & H4) Hm K.
  assert (G1 : get_wavelength h d = Ok (A1 (map p_wav sel)))
    by (unfold get_wavelength; rewrite Hm, (arr_nth _ _ _ H1); apply masked_kept; auto).
  assert (G2 : get_aoi h d = Ok (A1 (map p_aoi sel)))
    by (unfold get_aoi; rewrite Hm, (arr_nth _ _ _ H2); apply masked_kept; auto).
  assert (G3 : get_psi h d = Ok (A1 (map p_psi sel)))
    by (unfold get_psi; rewrite Hm, (arr_nth _ _ _ H3); apply masked_kept; auto).
  assert (G4 : get_delta h d = Ok (A1 (map p_delta sel)))
    by (unfold get_delta; rewrite Hm, (arr_nth _ _ _ H4); apply masked_kept; auto).
  repeat split; auto.
  - unfold get_data. rewrite G1, G2, G3, G4. reflexivity.
  - unfold ds_len. rewrite G1. simpl. rewrite map_length. reflexivity.
Qed.

Theorem getters_all h d pts : holds h d pts -> ds_mask d = MBool (map (fun _ => true) pts) ->
  get_data h d = Ok (columns pts) /\ ds_len h d = Ok (List.length pts).
Proof.
  intros H Hm. destruct (getters h d pts _ pts H Hm (kept_all pts)) as (_ & _ & _ & _ & G & L). auto.
Qed.

Theorem bad_mask h d pts m : holds h d pts -> pts <> [] -> ds_mask d = MBool m ->
  List.length m <> List.length pts -> get_data h d = Raise IndexError /\ ds_len h d = Raise IndexError.
Proof.
  intros (H1 & _) Hn Hm L. unfold ds_len, get_data, get_wavelength. rewrite Hm, (arr_nth _ _ _ H1).
  assert (E : masked (MBool m) (map p_wav pts) = Raise IndexError).
  { unfold masked. destruct pts as [|x pts]; [congruence|]. cbn [map].
    change (p_wav x :: map p_wav pts) with (map p_wav (x :: pts)). rewrite map_length.
    destruct (Nat.eqb_spec (List.length m) (List.length (x :: pts))); [contradiction|reflexivity]. }
  rewrite E. auto.
Qed.

Lemma nth_error_app_l {A} (l m : list A) i : (i < List.length l)%nat -> nth_error (l ++ m) i = nth_error l i.
Proof. apply nth_error_app1. Qed.

Lemma set_columns_spec h d w a p x m :
  let '(d', h') := set_columns h d w a p x m in
  h' = h ++ [w; a; p; x] /\ ds_wav d' = List.length h /\ ds_aoi d' = S (List.length h) /\
  ds_psi d' = S (S (List.length h)) /\ ds_delta d' = S (S (S (List.length h))) /\ ds_mask d' = m /\
  ds_flipped d' = ds_flipped d /\ ds_weighted d' = ds_weighted d /\ ds_file d' = ds_file d /\ ds_delim d' = ds_delim d.
Proof.
  unfold set_columns, alloc. cbv zeta. rewrite <- !app_assoc, !app_length. simpl.
  repeat split; auto; lia.
Qed.

Theorem setter h d pts :
  let '(d', h') := set_data_columns h d (map p_wav pts) (map p_aoi pts) (map p_psi pts) (map p_delta pts) in
  get_data h' d' = Ok (columns pts) /\ ds_len h' d' = Ok (List.length pts) /\
  ds_flipped d' = ds_flipped d /\
  (forall a, (a < List.length h)%nat -> nth_error h' a = nth_error h a /\
     forall f, get_data (update h' a f) d' = Ok (columns pts)).
Proof.
  unfold set_data_columns.
  pose proof (set_columns_spec h d (map p_wav pts) (map p_aoi pts) (map p_psi pts) (map p_delta pts) (all_true (map p_wav pts))) as S.
  destruct (set_columns h d _ _ _ _ _) as [d' h'].
  destruct S as (-> & E1 & E2 & E3 & E4 & Em & Ef & _).
  assert (Hh : holds (h ++ [map p_wav pts; map p_aoi pts; map p_psi pts; map p_delta pts]) d' pts).
  { unfold holds. rewrite E1, E2, E3, E4.
    rewrite !nth_error_app2 by lia. rewrite Nat.sub_diag.
    replace (S (List.length h) - List.length h)%nat with 1%nat by lia.
    replace (S (S (List.length h)) - List.length h)%nat with 2%nat by lia.
    replace (S (S (S (List.length h))) - List.length h)%nat with 3%nat by lia. auto. }
  assert (Hm : ds_mask d' = MBool (map (fun _ => true) pts)).
  { rewrite Em. unfold all_true. rewrite map_map. reflexivity. }
  destruct (getters_all _ _ _ Hh Hm) as [G L]. split; auto. split; auto. split; auto.
  intros a Ha. split; [apply nth_error_app1; auto|].
  intros f.
  assert (U : update (h ++ [map p_wav pts; map p_aoi pts; map p_psi pts; map p_delta pts]) a f =
              update h a f ++ [map p_wav pts; map p_aoi pts; map p_psi pts; map p_delta pts]).
  { clear - Ha. revert a Ha. induction h as [|y h IH]; intros [|a] Ha; simpl in *; try lia; auto.
    rewrite IH by lia. reflexivity. }
  assert (UL : List.length (update h a f) = List.length h).
  { clear. revert a. induction h as [|y h IH]; intros [|a]; simpl; auto. }
  rewrite U. apply getters_all; auto.
  unfold holds. rewrite E1, E2, E3, E4. rewrite <- UL.
  rewrite !nth_error_app2 by lia. rewrite Nat.sub_diag.
  replace (S (List.length (update h a f)) - List.length (update h a f))%nat with 1%nat by lia.
  replace (S (S (List.length (update h a f))) - List.length (update h a f))%nat with 2%nat by lia.
  replace (S (S (S (List.length (update h a f)))) - List.length (update h a f))%nat with 3%nat by lia. auto.
Qed.

(** mask = None *)
Theorem none_mask h d pts : holds h d pts -> pts <> [] -> ds_mask d = MNone ->
  get_data h d = Ok (A2 [map p_wav pts], A2 [map p_aoi pts], A2 [map p_psi pts], A2 [map p_delta pts]).
Proof.
  intros (H1 & H2 & H3 & H4) Hn Hm.
  unfold get_data, get_wavelength, get_aoi, get_psi, get_delta. rewrite Hm.
  rewrite (arr_nth _ _ _ H1), (arr_nth _ _ _ H2), (arr_nth _ _ _ H3), (arr_nth _ _ _ H4).
  destruct pts; [congruence|]. reflexivity.
Qed.

(** ** unique_wavelength_data *)
Lemma select_where_filter {B} (f : point -> B) u pts :
  select_where u (map p_wav pts) (map f pts) =
  map f (filter (fun x => num_eqb u (p_wav x)) pts).
Proof.
  unfold select_where, where_true. induction pts as [|x pts IH]; simpl; auto.
  destruct (num_eqb u (p_wav x)); simpl; rewrite <- IH; reflexivity.
Qed.

Lemma filter_partition (us : list R) : NoDup us -> forall pts : list point,
  (forall x, In x pts -> exists u, In u us /\ p_wav x = Some u) ->
  Permutation (flat_map (fun u => filter (fun x => num_eqb u (p_wav x)) pts) us) pts.
Proof.
  induction us as [|u us IH]; intros ND pts H; simpl.
  - destruct pts as [|x pts]; auto. destruct (H x (or_introl eq_refl)) as (? & [] & _).
  - inversion ND as [|? ? N ND']; subst.
    set (rest := filter (fun x => negb (num_eqb u (p_wav x))) pts).
    assert (E : flat_map (fun v => filter (fun x => num_eqb v (p_wav x)) pts) us =
                flat_map (fun v => filter (fun x => num_eqb v (p_wav x)) rest) us).
    { clear - N. induction us as [|v us IH]; simpl; auto. rewrite IH by (intros I; apply N; right; auto).
      f_equal. unfold rest. clear - N. induction pts as [|x pts IH]; simpl; auto.
      destruct (num_eqb v (p_wav x)) eqn:E1, (num_eqb u (p_wav x)) eqn:E2; simpl; rewrite ?E1, IH; auto.
      exfalso. unfold num_eqb in *. destruct (p_wav x) as [y|]; [|discriminate].
      destruct (Req_EM_T y v), (Req_EM_T y u); try discriminate. apply N. left. congruence. }
    rewrite E.
    assert (P : Permutation (flat_map (fun v => filter (fun x => num_eqb v (p_wav x)) rest) us) rest).
    { apply IH; auto. intros x Hx. unfold rest in Hx. apply filter_In in Hx as [Hx Hn].
      destruct (H x Hx) as (v & [->|Hv] & E'); eauto.
      exfalso. rewrite E' in Hn. simpl in Hn. destruct (Req_EM_T v v); [discriminate|congruence]. }
    rewrite P. unfold rest. clear. induction pts as [|x pts IH]; simpl; auto.
    destruct (num_eqb u (p_wav x)); simpl; [constructor; auto|].
    eapply Permutation_trans; [symmetry; apply Permutation_middle|]. constructor. exact IH.
Qed.

Lemma finite_map pts : (forall x, In x pts -> p_wav x <> None) ->
  map Some (finite (map p_wav pts)) = map p_wav pts /\ has_nan (map p_wav pts) = false.
Proof.
  induction pts as [|x pts IH]; simpl; intros H; auto.
  destruct IH as [I1 I2]; [auto|]. destruct (p_wav x) eqn:E; [|exfalso; apply (H x); auto].
  cbn [finite flat_map app map has_nan existsb orb]. split; [|exact I2]. f_equal. exact I1.
Qed.

Theorem unique_groups h d pts m sel : holds h d pts -> ds_mask d = MBool m -> kept m pts sel ->
  (forall x, In x sel -> p_wav x <> None) ->
  exists us, StronglySorted Rlt us /\
    (forall u, In u us <-> exists x, In x sel /\ p_wav x = Some u) /\
    unique_wavelength_data h d =
      Ok (map (fun u => let g := filter (fun x => num_eqb u (p_wav x)) sel in
                        (Some u, map p_aoi g, map p_psi g, map p_delta g)) us) /\
    Permutation (flat_map (fun u => filter (fun x => num_eqb u (p_wav x)) sel) us) sel.
Proof.
  intros H Hm K Hf. exists (np_unique (finite (map p_wav sel))).
  destruct (finite_map sel Hf) as [F1 F2].
  split; [apply np_unique_sorted|].
  assert (HI : forall u, In u (np_unique (finite (map p_wav sel))) <-> exists x, In x sel /\ p_wav x = Some u).
  { intros u. rewrite np_unique_In. 
    assert (E : In u (finite (map p_wav sel)) <-> In (Some u) (map p_wav sel)).
    { generalize dependent (finite (map p_wav sel)). intros l F1. rewrite <- F1, in_map_iff. split; [eauto|]. intros (y & A & B). congruence. }
    rewrite E, in_map_iff. split; intros (x & A & B); exists x; auto. }
  split; [exact HI|]. split.
  - unfold unique_wavelength_data. destruct (getters h d pts m sel H Hm K) as (_ & _ & _ & _ & G & _).
    rewrite G. cbn [rbind columns]. rewrite F2, app_nil_r. f_equal.
    apply map_ext. intros u. rewrite !select_where_filter. reflexivity.
  - apply filter_partition.
    + apply sorted_NoDup, np_unique_sorted.
    + intros x Hx. destruct (p_wav x) as [u|] eqn:E; [|exfalso; apply (Hf x); auto].
      exists u. split; auto. apply HI. eauto.
Qed.

(** ** lines *)
Lemma first_field_split c s : hd EmptyString (split c s) = first_field c s.
Proof.
  induction s as [|x s IH]; simpl; auto. destruct (Ascii.eqb x c); auto.
  destruct (split c s) as [|t ts] eqn:E; simpl in *; [|congruence].
  destruct s; simpl in E; [discriminate|]. destruct (Ascii.eqb a c); [discriminate|].
  destruct (split c s); discriminate.
Qed.

Lemma split_plain c s : plain c s -> split c s = [s].
Proof.
  induction s as [|x s IH]; simpl; auto. intros (N & _ & P).
  destruct (Ascii.eqb_spec x c); [contradiction|]. rewrite IH; auto.
Qed.
Lemma split_cons c s t : plain c s -> split c (s ++ String c t) = s :: split c t.
Proof.
  induction s as [|x s IH]; simpl.
  - rewrite Ascii.eqb_refl. auto.
  - intros (N & _ & P). destruct (Ascii.eqb_spec x c); [contradiction|]. rewrite IH; auto.
Qed.
Lemma strip_plain c s : plain c s -> strip_comment s = s.
Proof.
  induction s as [|x s IH]; simpl; auto. intros (_ & N & P).
  destruct (Ascii.eqb_spec x "#"); [contradiction|]. rewrite IH; auto.
Qed.
Lemma strip_cons c s t : c <> "#"%char -> plain c s ->
  strip_comment (s ++ String c t) = (s ++ String c (strip_comment t))%string.
Proof.
  intros Hc. induction s as [|x s IH].
  - intros _. change (""++String c t)%string with (String c t). cbn [strip_comment append].
    destruct (Ascii.eqb_spec c "#"); [contradiction|]. reflexivity.
  - cbn [plain append strip_comment]. intros (_ & N & P).
    destruct (Ascii.eqb_spec x "#"); [contradiction|]. rewrite IH; auto.
Qed.
Lemma first_field_cons c s t : plain c s -> first_field c (s ++ String c t) = s.
Proof. intros H. rewrite <- first_field_split, split_cons by auto. reflexivity. Qed.

Lemma data_line_parse pf c l x : c <> "#"%char -> data_line pf c l x ->
  strip_comment l = l /\ nonempty l = true /\
  parse_fields pf (split c l) = Ok [p_wav x; p_aoi x; p_psi x; p_delta x].
Proof.
  intros Hc (a & b & p & q & -> & Pa & Pb & Pp & Pq & Ea & Eb & Ep & Eq).
  split; [|split].
  - rewrite !(strip_cons c) by auto. rewrite (strip_plain c q) by auto. reflexivity.
  - destruct a; reflexivity.
  - rewrite !split_cons, split_plain by auto. unfold parse_fields. cbn [mapR]. rewrite Ea, Eb, Ep, Eq. reflexivity.
Qed.

Lemma loadtxt_lines pf c lines pts : c <> "#"%char -> Forall2 (data_line pf c) lines pts ->
  loadtxt pf c 0 lines = Ok (map (fun x => [p_wav x; p_aoi x; p_psi x; p_delta x]) pts).
Proof.
  intros Hc F. unfold loadtxt. simpl skipn.
  assert (E : mapR (fun l => parse_fields pf (split c l)) (filter nonempty (map strip_comment lines)) =
              Ok (map (fun x => [p_wav x; p_aoi x; p_psi x; p_delta x]) pts)).
  { induction F as [|l x lines pts L F IH]; auto.
    destruct (data_line_parse _ _ _ _ Hc L) as (E1 & E2 & E3).
    cbn [map filter]. rewrite E1, E2. cbn [mapR]. rewrite E3, IH. reflexivity. }
  rewrite E. cbn [rbind].
  assert (S : same_lengths (map (fun x => [p_wav x; p_aoi x; p_psi x; p_delta x]) pts) = true).
  { destruct pts as [|x pts]; auto. simpl. apply forallb_forall. intros r Hr.
    apply in_map_iff in Hr as (y & <- & _). reflexivity. }
  rewrite S. reflexivity.
Qed.

Lemma unpack_points (pts : list point) : (2 <= List.length pts)%nat ->
  unpack4 (map (fun x => [p_wav x; p_aoi x; p_psi x; p_delta x]) pts) =
  Ok (map p_wav pts, map p_aoi pts, map p_psi pts, map p_delta pts).
Proof.
  destruct pts as [|x [|y pts]]; cbn [List.length]; try lia. intros _. unfold unpack4. cbn [map as_vector forallb List.length Nat.eqb andb nth].
  rewrite !map_map. reflexivity.
Qed.

Lemma loadtxt_skip pf c n lines : loadtxt pf c n lines = loadtxt pf c 0 (skipn n lines).
Proof. reflexivity. Qed.

Lemma detect_spec pf c : forall fuel hdr r rest,
  Forall (fun l => ~ starts_with_number pf c l) hdr -> starts_with_number pf c r ->
  (List.length hdr < fuel)%nat ->
  detect_header pf c fuel (hdr ++ r :: rest) = (List.length hdr, rest).
Proof.
  induction fuel as [|n IH]; intros hdr r rest Fh Hr L; [lia|].
  destruct hdr as [|l hdr]; cbn [app detect_header].
  - rewrite first_field_split. destruct Hr as [v ->]. reflexivity.
  - rewrite first_field_split. inversion Fh as [|? ? N Fh']; subst.
    destruct (pf (first_field c l)) eqn:E; [exfalso; apply N; eexists; eauto|].
    simpl in L. rewrite IH; auto; lia.
Qed.
Lemma detect_long pf c : forall fuel hdr rest,
  Forall (fun l => ~ starts_with_number pf c l) hdr -> List.length hdr = fuel ->
  detect_header pf c fuel (hdr ++ rest) = (fuel, rest).
Proof.
  induction fuel as [|n IH]; intros hdr rest Fh L; destruct hdr as [|l hdr]; simpl in L; try discriminate; auto.
  cbn [app detect_header]. rewrite first_field_split. inversion Fh as [|? ? N Fh']; subst.
  destruct (pf (first_field c l)) eqn:E; [exfalso; apply N; eexists; eauto|].
  rewrite IH; auto; lia.
Qed.

Lemma data_line_starts pf c l x : data_line pf c l x -> starts_with_number pf c l.
Proof.
  intros (a & b & p & q & -> & Pa & _ & _ & _ & Ea & _). exists (p_wav x). rewrite first_field_cons; auto.
Qed.

(** loading by name *)
Theorem load_by_name pf h d hdr lines pts : ds_delim d <> "#"%char ->
  Forall (fun l => ~ starts_with_number pf (ds_delim d) l) hdr -> (List.length hdr < 100)%nat ->
  Forall2 (data_line pf (ds_delim d)) lines pts -> (2 <= List.length pts)%nat ->
  exists d' h', load pf h d (ByName (hdr ++ lines)) = Ok (d', h') /\ holds h' d' pts /\
    ds_mask d' = ds_mask d /\ ds_flipped d' = ds_flipped d /\
    (forall a, (a < List.length h)%nat -> nth_error h' a = nth_error h a).
Proof.
  intros Hc Fh L F N.
  destruct F as [|l x lines pts D F]; [simpl in N; lia|].
  unfold load. rewrite (detect_spec pf (ds_delim d) 100 hdr l lines Fh (data_line_starts _ _ _ _ D) L).
  rewrite loadtxt_skip, skipn_app, skipn_all, Nat.sub_diag. cbn [app skipn].
  rewrite (loadtxt_lines pf (ds_delim d) (l :: lines) (x :: pts) Hc) by (constructor; auto).
  cbn [rbind]. rewrite unpack_points by auto. cbn [rbind].
  pose proof (set_columns_spec h d (map p_wav (x :: pts)) (map p_aoi (x :: pts)) (map p_psi (x :: pts)) (map p_delta (x :: pts)) (ds_mask d)) as S.
  destruct (set_columns h d _ _ _ _ _) as [d' h']. exists d', h'.
  destruct S as (-> & E1 & E2 & E3 & E4 & Em & Ef & _).
  split; auto. split; [|repeat split; auto; intros; apply nth_error_app1; auto].
  unfold holds. rewrite E1, E2, E3, E4. rewrite !nth_error_app2 by lia. rewrite Nat.sub_diag.
  replace (S (List.length h) - List.length h)%nat with 1%nat by lia.
  replace (S (S (List.length h)) - List.length h)%nat with 2%nat by lia.
  replace (S (S (S (List.length h))) - List.length h)%nat with 3%nat by lia. auto.
Qed.

Theorem load_general pf h d hdr r rest :
  Forall (fun l => ~ starts_with_number pf (ds_delim d) l) hdr -> (List.length hdr < 100)%nat ->
  starts_with_number pf (ds_delim d) r ->
  load pf h d (ByName (hdr ++ r :: rest)) = load pf h d (ByName (r :: rest)) /\
  load pf h d (ByHandle (hdr ++ r :: rest)) =
    rbind (rbind (loadtxt pf (ds_delim d) 0 (skipn (List.length hdr) rest)) unpack4)
          (fun '(w, a, p, x) => Ok (set_columns h d w a p x (ds_mask d))).
Proof.
  intros Fh L Hr. unfold load.
  rewrite (detect_spec pf (ds_delim d) 100 hdr r rest Fh Hr L).
  assert (D := detect_spec pf (ds_delim d) 100 [] r rest (Forall_nil _) Hr ltac:(simpl; lia)). cbn [app] in D. rewrite D.
  rewrite !(loadtxt_skip pf _ (List.length hdr)), skipn_app, skipn_all, Nat.sub_diag. cbn [app skipn List.length].
  split; auto. destruct (loadtxt _ _ _ _); reflexivity.
Qed.

Theorem load_long_header pf h d hdr l rest : List.length hdr = 100%nat ->
  Forall (fun l => ~ starts_with_number pf (ds_delim d) l) hdr ->
  ~ starts_with_number pf (ds_delim d) l -> strip_comment l = l -> l <> EmptyString ->
  load pf h d (ByName (hdr ++ l :: rest)) = Raise ValueError.
Proof.
  intros L Fh Hn Hs He. unfold load. rewrite (detect_long pf (ds_delim d) 100 hdr (l :: rest) Fh L).
  rewrite loadtxt_skip, <- L, skipn_app, skipn_all, Nat.sub_diag. cbn [app skipn].
  unfold loadtxt. cbn [skipn map filter]. rewrite Hs. destruct l as [|c l]; [congruence|].
  cbn [nonempty mapR]. unfold parse_fields at 1.
  assert (S : exists ts, split (ds_delim d) (String c l) = first_field (ds_delim d) (String c l) :: ts).
  { rewrite <- first_field_split. destruct (split (ds_delim d) (String c l)) eqn:E.
    - exfalso. clear - E. simpl in E. destruct (Ascii.eqb c (ds_delim d)); [discriminate|]. destruct (split (ds_delim d) l); discriminate.
    - eauto. }
  destruct S as [ts ->]. cbn [mapR].
  destruct (pf (first_field (ds_delim d) (String c l))) eqn:E; [exfalso; apply Hn; eexists; eauto|]. reflexivity.
Qed.

(** ** save and load *)
Lemma zip4_points (pts : list point) :
  zip4 (map p_wav pts) (map p_aoi pts) (map p_psi pts) (map p_delta pts) =
  map (fun x => [p_wav x; p_aoi x; p_psi x; p_delta x]) pts.
Proof. induction pts as [|x pts IH]; simpl; auto. rewrite IH. reflexivity. Qed.

Theorem save_lines pr h d pts : holds h d pts ->
  save pr h d = Ok (header_line ::
    map (fun x => join tab [pr (p_wav x); pr (p_aoi x); pr (p_psi x); pr (p_delta x)]) pts).
Proof.
  intros (H1 & H2 & H3 & H4). unfold save.
  rewrite (arr_nth _ _ _ H1), (arr_nth _ _ _ H2), (arr_nth _ _ _ H3), (arr_nth _ _ _ H4).
  rewrite !map_length, Nat.eqb_refl. cbn [andb]. rewrite zip4_points, map_map. reflexivity.
Qed.

Theorem save_load pf pr h d pts h0 d0 : holds h d pts -> (2 <= List.length pts)%nat ->
  Forall (point_survives pf pr) pts -> pf "# wavelength"%string = None -> ds_delim d0 = tab ->
  exists lines, save pr h d = Ok lines /\
  exists d' h', load pf h0 d0 (ByName lines) = Ok (d', h') /\ holds h' d' pts /\ ds_mask d' = ds_mask d0.
Proof.
  intros H N F Hh Hd. rewrite (save_lines pr h d pts H). eexists. split; [reflexivity|].
  destruct (load_by_name pf h0 d0 [header_line]
    (map (fun x => join tab [pr (p_wav x); pr (p_aoi x); pr (p_psi x); pr (p_delta x)]) pts) pts) as (d' & h' & E & Hh' & Hm & _).
  - rewrite Hd. discriminate.
  - rewrite Hd. constructor; auto. intros [v E].
    assert (first_field tab header_line = "# wavelength"%string) by reflexivity. congruence.
  - simpl; lia.
  - rewrite Hd. clear - F. induction F as [|x pts S F IH]; simpl; constructor; auto.
    destruct S as ((A1 & A2 & A3) & (B1 & B2 & B3) & (C1 & C2 & C3) & (D1 & D2 & D3)).
    exists (pr (p_wav x)), (pr (p_aoi x)), (pr (p_psi x)), (pr (p_delta x)). repeat split; auto.
  - auto.
  - exists d', h'. auto.
Qed.

Theorem save_ignores_mask pr h d m : save pr h (with_mask d m) = save pr h d.
Proof. reflexivity. Qed.

(** ** reflection *)
Lemma fold_delta_folded v : folded v (fold_delta v).
Proof.
  unfold folded, fold_delta. destruct v as [x|]; auto. destruct (Rlt_dec 180 x); split; intros; lra.
Qed.

Lemma cos_fold x : cos ((360 - x) * (PI / 180)) = cos (x * (PI / 180)).
Proof.
  replace ((360 - x) * (PI / 180)) with (- (x * (PI / 180)) + 2 * PI) by field.
  rewrite cos_plus, cos_2PI, sin_2PI, cos_neg. ring.
Qed.

Theorem fold_facts x y : folded (Some x) (Some y) -> 0 <= x <= 360 ->
  0 <= y <= 180 /\ cos (y * (PI / 180)) = cos (x * (PI / 180)) /\ folded (Some y) (Some y).
Proof.
  intros [H1 H2] Hx. destruct (Rle_lt_dec x 180) as [L|L].
  - rewrite (H1 L). simpl. repeat split; auto; try lra.
  - rewrite (H2 L), cos_fold. simpl. repeat split; auto; try lra.
Qed.

Lemma fold_idem l : map fold_delta (map fold_delta l) = map (fun v => fold_delta (fold_delta v)) l.
Proof. apply map_map. Qed.

Lemma fold_twice x : x <= 360 -> 0 <= x -> fold_delta (fold_delta (Some x)) = fold_delta (Some x).
Proof.
  intros. unfold fold_delta at 2 3. destruct (Rlt_dec 180 x); simpl; [|destruct (Rlt_dec 180 x); auto; lra].
  destruct (Rlt_dec 180 (360 - x)); auto; lra.
Qed.

Lemma nth_error_update {A} (l : list A) i f : nth_error (update l i f) i = option_map f (nth_error l i).
Proof. revert i; induction l as [|x l IH]; intros [|i]; simpl; auto. Qed.
Lemma nth_error_update_ne {A} (l : list A) i j f : i <> j -> nth_error (update l i f) j = nth_error l j.
Proof. revert i j; induction l as [|x l IH]; intros [|i] [|j] N; simpl; auto; congruence. Qed.

Definition fold_point (x : point) : point := (fst x, fold_delta (snd x)).

Lemma fold_point_folded pts : Forall2 folded_point pts (map fold_point pts).
Proof. induction pts; simpl; constructor; auto. split; auto. apply fold_delta_folded. Qed.

Theorem from_arrays pf h delim w a p x pts refl :
  holds h (DataSE w a p x (MBool []) false false None delim) pts ->
  ~ In x [w; a; p] ->
  exists d h', new_dataset pf h delim (FromArrays w a p x) refl = Ok (d, h') /\
    ds_flipped d = refl /\ ds_mask d = MBool (map (fun _ => true) pts) /\
    (refl = true -> exists pts', Forall2 folded_point pts pts' /\ holds h' d pts' /\ get_data h' d = Ok (columns pts')) /\
    (refl = false -> h' = h /\ holds h' d pts).
Proof.
  intros (H1 & H2 & H3 & H4) N. simpl in H1, H2, H3, H4. unfold new_dataset. cbn [take_source rbind ds_delta ds_wav ds_aoi ds_psi].
  simpl in N. do 2 eexists. split; [reflexivity|]. cbn [ds_flipped ds_mask].
  assert (N1 : x <> w) by intuition. assert (N2 : x <> a) by intuition. assert (N3 : x <> p) by intuition.
  split; auto.
  match goal with |- ?M = _ /\ _ => assert (HM : M = MBool (map (fun _ => true) pts)) end.
  { unfold all_true. f_equal. destruct refl.
    + rewrite (arr_nth _ _ (map p_wav pts)) by (rewrite nth_error_update_ne; auto). rewrite map_map. reflexivity.
    + rewrite (arr_nth _ _ _ H1), map_map. reflexivity. }
  split; auto. split; [|intros ->; split; [reflexivity|]; repeat split; auto].
  intros ->. exists (map fold_point pts). split; [apply fold_point_folded|].
  match goal with |- ?P /\ _ => assert (HH : P) end.
  { unfold holds. cbn [ds_wav ds_aoi ds_psi ds_delta].
    rewrite !nth_error_update_ne by auto. rewrite nth_error_update, H4, H1, H2, H3. rewrite !map_map. simpl.
    rewrite map_map. repeat split; auto. }
  split; auto. apply getters_all; auto. cbn [ds_mask]. rewrite HM, map_map. reflexivity.
Qed.

(** a copy shares the arrays of the original *)
Theorem copy_folds_original pf h delim d pts m sel : holds h d pts ->
  ~ In (ds_delta d) [ds_wav d; ds_aoi d; ds_psi d] -> ds_mask d = MBool m -> kept m pts sel ->
  exists d' h', new_dataset pf h delim (FromDataSE d) true = Ok (d', h') /\
    get_data h d = Ok (columns sel) /\
    exists sel', Forall2 folded_point sel sel' /\ get_data h' d = Ok (columns sel').
Proof.
  intros (H1 & H2 & H3 & H4) N Hm K. unfold new_dataset. cbn [take_source rbind ds_delta].
  do 2 eexists. split; [reflexivity|].
  split; [apply (getters h d pts m sel); unfold holds; auto|].
  simpl in N.
  assert (N1 : ds_delta d <> ds_wav d) by intuition. assert (N2 : ds_delta d <> ds_aoi d) by intuition.
  assert (N3 : ds_delta d <> ds_psi d) by intuition.
  exists (map fold_point sel). split; [apply fold_point_folded|].
  apply (getters _ d (map fold_point pts) m (map fold_point sel)); auto.
  - unfold holds. rewrite !nth_error_update_ne by auto. rewrite nth_error_update, H4, H1, H2, H3. rewrite !map_map. simpl.
    rewrite map_map. repeat split; auto.
  - apply kept_map; auto.
Qed.

Theorem copy_loses_flag pf h delim d : ds_flipped d = true ->
  exists d', new_dataset pf h delim (FromDataSE d) false = Ok (d', h) /\ ds_flipped d' = false /\
    ds_delta d' = ds_delta d.
Proof. intros _. eexists. split; [reflexivity|]. auto. Qed.

(** refresh *)
Theorem refresh_write pf h d content name : ds_file d = Some name ->
  refresh pf OpenWrite h d content = (Raise OtherError, []).
Proof. intros E. unfold refresh. rewrite E. reflexivity. Qed.

Theorem refresh_read pf h d content name d' h' : ds_file d = Some name ->
  refresh pf OpenRead h d content = (Ok (d', h'), content) ->
  load pf h d (ByHandle content) = Ok (d', h') /\ ds_mask d' = ds_mask d /\ ds_flipped d' = ds_flipped d.
Proof.
  intros E H. unfold refresh in H. rewrite E in H.
  assert (L : load pf h d (ByHandle content) = Ok (d', h')) by congruence. split; auto. revert L. unfold load.
  destruct (detect_header _ _ _ _) as [k rest]. destruct (loadtxt _ _ _ _) as [rows|e]; cbn [rbind]; [|discriminate].
  destruct (unpack4 rows) as [[[[w a] p] x]|e]; cbn [rbind]; [|discriminate].
  pose proof (set_columns_spec h d w a p x (ds_mask d)) as S. intros L.
  assert (L' : set_columns h d w a p x (ds_mask d) = (d', h')) by congruence. rewrite L' in S. destruct S as (_ & _ & _ & _ & _ & Em & Ef & _). auto.
Qed.
Theorem refresh_nothing pf mode h d content : ds_file d = None ->
  refresh pf mode h d content = (Ok (d, h), content).
Proof. intros E. unfold refresh. rewrite E. reflexivity. Qed.

(** ** concrete files *)
Definition digit (s : string) : option num :=
  match s with
  | String c EmptyString =>
      if (Nat.leb 48 (nat_of_ascii c) && Nat.leb (nat_of_ascii c) 57)%bool
      then Some (Some (INR (nat_of_ascii c - 48))) else None
  | _ => None
  end.
Definition print1 (v : num) : string :=
  match v with
  | Some x => if Req_EM_T x (INR 1) then "1" else if Req_EM_T x (INR 2) then "2" else "3"
  | None => "nan"
  end%string.
Definition row1 (c : string) : string := join tab [c; c; c; c].
Definition pt1 (n : nat) : point := (Some (INR n), Some (INR n), Some (INR n), Some (INR n)).
Definition text1 : list string := header_line :: map row1 ["1"; "2"; "3"; "4"; "5"]%string.
Definition blank1 : dataset := DataSE 0 0 0 0 (MBool []) false false (Some "f.txt"%string) tab.
Definition set1 : dataset := DataSE 0 1 2 3 (MBool [true; false; true]) false false None tab.
Definition heap1 : heap := let c := [Some (INR 1); Some (INR 2); Some (INR 3)] in [c; c; c; c].

Lemma set1_holds : holds heap1 set1 [pt1 1; pt1 2; pt1 3].
Proof. repeat split. Qed.
Lemma set1_kept : kept [true; false; true] [pt1 1; pt1 2; pt1 3] [pt1 1; pt1 3].
Proof. repeat constructor. Qed.
Lemma survive1 n : In n [1; 2; 3]%nat -> survives digit print1 (Some (INR n)).
Proof.
  intros H. unfold survives, print1. destruct H as [<-|[<-|[<-|[]]]].
  - destruct (Req_EM_T (INR 1) (INR 1)); [|congruence]. cbv -[INR]. repeat split; discriminate.
  - destruct (Req_EM_T (INR 2) (INR 1)) as [E|]; [apply INR_eq in E; discriminate|].
    destruct (Req_EM_T (INR 2) (INR 2)); [|congruence]. cbv -[INR]. repeat split; discriminate.
  - destruct (Req_EM_T (INR 3) (INR 1)) as [E|]; [apply INR_eq in E; discriminate|].
    destruct (Req_EM_T (INR 3) (INR 2)) as [E|]; [apply INR_eq in E; discriminate|].
    cbv -[INR]. repeat split; discriminate.
Qed.
Lemma survive_pts : Forall (point_survives digit print1) [pt1 1; pt1 2; pt1 3].
Proof. repeat constructor; apply survive1; simpl; auto. Qed.

Lemma load_text1 :
  load digit [] blank1 (ByName text1) =
  Ok (set_columns [] blank1 (map (fun n => Some (INR n)) [1;2;3;4;5]%nat) (map (fun n => Some (INR n)) [1;2;3;4;5]%nat)
        (map (fun n => Some (INR n)) [1;2;3;4;5]%nat) (map (fun n => Some (INR n)) [1;2;3;4;5]%nat) (MBool [])).
Proof. reflexivity. Qed.
Lemma load_text1_handle :
  load digit [] blank1 (ByHandle text1) =
  Ok (set_columns [] blank1 (map (fun n => Some (INR n)) [3;4;5]%nat) (map (fun n => Some (INR n)) [3;4;5]%nat)
        (map (fun n => Some (INR n)) [3;4;5]%nat) (map (fun n => Some (INR n)) [3;4;5]%nat) (MBool [])).
Proof. reflexivity. Qed.

Lemma handle_differs : exists pf h d lines d1 h1 d2 h2,
  load pf h d (ByName lines) = Ok (d1, h1) /\ load pf h d (ByHandle lines) = Ok (d2, h2) /\
  holds h1 d1 (map pt1 [1; 2; 3; 4; 5]%nat) /\ holds h2 d2 (map pt1 [3; 4; 5]%nat).
Proof.
  exists digit, [], blank1, text1. rewrite load_text1, load_text1_handle.
  do 4 eexists. split; [reflexivity|]. split; [reflexivity|]. repeat split.
Qed.

(** a file loaded with reflect_delta, refreshed *)
Definition fold_text : list string := map (fun c => join tab [c; c; c; c]) ["1"; "9"; "9"; "9"]%string.
Definition nines (s : string) : option num :=     (* the field "9" stands for 270 degrees *)
  if String.eqb s "9" then Some (Some 270) else if String.eqb s "1" then Some (Some 1) else None.

Lemma refresh_unfolds : exists pf name content d h d' h',
  new_dataset pf [] tab (FromFile name content) true = Ok (d, h) /\ ds_flipped d = true /\
  get_delta h d = Ok (A1 [Some 1; Some 90; Some 90; Some 90]) /\
  refresh pf OpenRead h d content = (Ok (d', h'), content) /\ ds_flipped d' = true /\
  arr h' (ds_delta d') = [Some 270; Some 270; Some 270] /\
  get_delta h' d' = Raise IndexError.
Proof.
  exists nines, "f"%string, fold_text.
  assert (E : new_dataset nines [] tab (FromFile "f" fold_text) true =
    Ok (DataSE 0 1 2 3 (MBool [true; true; true; true]) true false (Some "f"%string) tab,
        let c := [Some 1; Some 270; Some 270; Some 270] in [c; c; c; [Some 1; Some 90; Some 90; Some 90]])).
  { unfold new_dataset. cbn -[fold_delta]. unfold fold_delta.
    destruct (Rlt_dec 180 1); [lra|]. destruct (Rlt_dec 180 270); [|lra].
    repeat f_equal; lra. }
  rewrite E. do 4 eexists. split; [reflexivity|]. split; [reflexivity|]. split; [reflexivity|].
  split; [reflexivity|]. split; [reflexivity|]. split; reflexivity.
Qed.

Lemma mask_none_two_d : exists h d pts, holds h d pts /\ List.length pts = 3%nat /\ ds_mask d = MNone /\
  get_wavelength h d = Ok (A2 [map p_wav pts]).
Proof.
  exists heap1, (with_mask set1 MNone), [pt1 1; pt1 2; pt1 3]. repeat split.
Qed.

Lemma alias_example : exists h d d' h' pf, get_delta h d = Ok (A1 [Some 270]) /\
  new_dataset pf h tab (FromDataSE d) true = Ok (d', h') /\ get_delta h' d = Ok (A1 [Some 90]).
Proof.
  exists [[Some 500]; [Some 70]; [Some 30]; [Some 270]], (DataSE 0 1 2 3 (MBool [true]) false false None tab).
  do 2 eexists. exists (fun _ => None). split; [reflexivity|]. split; [reflexivity|].
  unfold get_delta. cbn -[fold_delta]. unfold fold_delta. destruct (Rlt_dec 180 270); [|lra]. repeat f_equal. lra.
Qed.

Lemma flag_lost_example : exists pf h w a p x d1 h1 d2 h2,
  new_dataset pf h tab (FromArrays w a p x) true = Ok (d1, h1) /\
  new_dataset pf h1 tab (FromDataSE d1) false = Ok (d2, h2) /\
  get_delta h2 d2 = Ok (A1 [Some 90]) /\ ds_flipped d1 = true /\ ds_flipped d2 = false.
Proof.
  exists (fun _ => None), [[Some 500]; [Some 70]; [Some 30]; [Some 270]], 0%nat, 1%nat, 2%nat, 3%nat.
  do 4 eexists. split; [reflexivity|]. split; [reflexivity|]. split; [|auto].
  unfold get_delta. cbn -[fold_delta]. unfold fold_delta. destruct (Rlt_dec 180 270); [|lra]. repeat f_equal. lra.
Qed.

Lemma filter_kept {A} (f : A -> bool) l : kept (map f l) l (filter f l).
Proof. induction l as [|x l IH]; simpl; [constructor|]. destruct (f x); constructor; auto. Qed.

Theorem unique_partition h d pts m sel : holds h d pts -> ds_mask d = MBool m -> kept m pts sel ->
  (forall x, In x sel -> p_wav x <> None) ->
  exists gs : list (R * list point),
    unique_wavelength_data h d =
      Ok (map (fun g => (Some (fst g), map p_aoi (snd g), map p_psi (snd g), map p_delta (snd g))) gs) /\
    StronglySorted Rlt (map fst gs) /\
    Permutation (flat_map snd gs) sel /\
    Forall (fun g => snd g <> [] /\ Forall (fun x => p_wav x = Some (fst g)) (snd g) /\
                     exists m, kept m sel (snd g)) gs.
Proof.
  intros H Hm K Hf. destruct (unique_groups h d pts m sel H Hm K Hf) as (us & S & I & E & P).
  exists (map (fun u => (u, filter (fun x => num_eqb u (p_wav x)) sel)) us).
  rewrite E, !map_map. split; auto. split; [simpl; rewrite map_id; auto|].
  split.
  - rewrite flat_map_concat_map, map_map, <- flat_map_concat_map. exact P.
  - apply Forall_forall. intros g Hg. apply in_map_iff in Hg as (u & <- & Hu). cbn [fst snd]. split; [|split].
    + apply I in Hu as (x & Hx & E'). intros Z.
      assert (In x []) as []. rewrite <- Z. apply filter_In. split; auto. rewrite E'. simpl. destruct (Req_EM_T u u); auto.
    + apply Forall_forall. intros x Hx. apply filter_In in Hx as [_ Hx]. unfold num_eqb in Hx.
      destruct (p_wav x); [|discriminate]. destruct (Req_EM_T r u); [congruence|discriminate].
    + eexists. apply filter_kept.
Qed.

Lemma two_groups : unique_wavelength_data
    [[Some 500; Some 400; Some 500]; [Some 50; Some 60; Some 70]; [Some 1; Some 2; Some 3]; [Some 4; Some 5; Some 6]]
    (DataSE 0 1 2 3 (MBool [true; true; true]) false false None tab) =
  Ok [(Some 400, [Some 60], [Some 2], [Some 5]);
      (Some 500, [Some 50; Some 70], [Some 1; Some 3], [Some 4; Some 6])].
Proof.
  assert (L : 400 < 500) by lra. revert L. generalize 400, 500. intros u v L.
  unfold unique_wavelength_data. cbn -[IZR].
  repeat (match goal with |- context[Rlt_dec ?a ?b] => destruct (Rlt_dec a b); try lra
                       | |- context[Req_EM_T ?a ?b] => destruct (Req_EM_T a b); try lra end; cbn -[IZR]).
  reflexivity.
Qed.

Lemma heap1_holds delim :
  holds heap1 (DataSE 0 1 2 3 (MBool []) false false None delim) [pt1 1; pt1 2; pt1 3] /\ ~ In 3%nat [0; 1; 2]%nat.
Proof.
  split; [repeat split|]. cbn [In]. intros [E|[E|[E|[]]]]; discriminate E.
Qed.
