(** * Datasets of one point read from a file: proofs *)

Require Import Reals Lia Lra List Bool String Ascii.
From Verif Require Import Base M_disp M_model M_data Spec_data P_struct P_data M_ep4 M_instr Spec_ep4 Spec_instr P_instr P_instr3
  P_accept Spec_exact P_exact M_onepoint Spec_onepoint.
Import ListNotations.
Open Scope list_scope.
Open Scope R_scope.

(** ** agreement with M_data *)
Lemma x_getters h d : xget_data h (of_dataset d) = get_data h d /\ xlen h (of_dataset d) = ds_len h d /\
  xunique_wavelength_data h (of_dataset d) = unique_wavelength_data h d.
Proof. split; [reflexivity|]. split; reflexivity. Qed.
Lemma x_save pr h d : xsave pr h (of_dataset d) = save pr h d.
Proof. reflexivity. Qed.

(** what unpacking makes of the rows *)
Lemma unpack_cases (rows : list (list num)) h (d : dataset) :
  match unpack4 rows with
  | Ok (w, a, p, x) => xset_columns h (of_dataset d) rows =
      Ok (of_dataset (fst (set_columns h d w a p x (ds_mask d))), snd (set_columns h d w a p x (ds_mask d)))
  | Raise OtherError => exists x, as_vector rows = Some [p_wav x; p_aoi x; p_psi x; p_delta x]
  | Raise e => e = ValueError /\ xset_columns h (of_dataset d) rows = Raise ValueError
  end.
Proof.
  unfold xset_columns. destruct (as_vector rows) as [v|] eqn:E.
  - assert (U : unpack4 rows = Raise (if Nat.eqb (List.length v) 4 then OtherError else ValueError)) by (unfold unpack4; rewrite E; reflexivity).
    rewrite U. destruct (Nat.eqb (List.length v) 4) eqn:L.
    + apply Nat.eqb_eq in L. destruct v as [|a [|b [|c [|e [|]]]]]; try discriminate L. exists (a, b, c, e). reflexivity.
    + split; [reflexivity|]. destruct v as [|a [|b [|c [|e [|]]]]]; try reflexivity. discriminate L.
  - destruct (unpack4 rows) as [[[[w a] p] x]|e] eqn:U; [reflexivity|].
    assert (e = ValueError) as ->.
    { unfold unpack4 in U. rewrite E in U. destruct rows as [|r rows]; [congruence|]. destruct (Nat.eqb _ _); congruence. }
    split; reflexivity.
Qed.
Lemma load_cases pf h d f :
  match load pf h d f with
  | Ok (d', h') => xload pf h (of_dataset d) f = Ok (of_dataset d', h')
  | Raise OtherError => exists x, becomes h (of_dataset d) (xload pf h (of_dataset d) f) x
  | Raise e => e = ValueError /\ xload pf h (of_dataset d) f = Raise ValueError
  end.
Proof.
  unfold load, xload. change (x_delim (of_dataset d)) with (ds_delim d).
  destruct (detect_header _ _ _ _) as [skip rest]. destruct (loadtxt _ _ _ _) as [rows|e] eqn:E; cbn [rbind].
  - pose proof (unpack_cases rows h d) as U. destruct (unpack4 rows) as [[[[w a] p] x]|e]; cbn [rbind].
    + rewrite U. destruct (set_columns h d w a p x (ds_mask d)) as [d' h']. reflexivity.
    + destruct e; try exact U. destruct U as (x & V). exists x. unfold xset_columns. rewrite V.
      eexists. split; [reflexivity|]. split; [repeat split|repeat split].
  - assert (e = ValueError) as ->.
    { unfold loadtxt in E. destruct (mapR _ _) as [rows|e'] eqn:M; cbn [rbind] in E.
      - destruct (same_lengths rows); congruence.
      - injection E as <-. exact (mapR_parse_error _ _ _ _ M). }
    split; reflexivity.
Qed.
Lemma x_load pf h d f :
  (forall d' h', load pf h d f = Ok (d', h') -> xload pf h (of_dataset d) f = Ok (of_dataset d', h')) /\
  (load pf h d f = Raise ValueError <-> xload pf h (of_dataset d) f = Raise ValueError) /\
  (forall e, load pf h d f = Raise e -> e = ValueError \/ exists x, becomes h (of_dataset d) (xload pf h (of_dataset d) f) x).
Proof.
  pose proof (load_cases pf h d f) as U. destruct (load pf h d f) as [[d1 h1]|e].
  - split; [intros d' h' [= -> ->]; exact U|]. split; [split; [discriminate|]; rewrite U; discriminate|]. intros e [=].
  - split; [intros d' h' [=]|]. destruct e; try (destruct U as [A B]; discriminate A).
    + destruct U as [A B]. split; [tauto|]. intros e' [= <-]. left. reflexivity.
    + split; [split; [discriminate|]; destruct U as (x & d' & E & _); rewrite E; discriminate|]. intros e _. right. exact U.
Qed.
Lemma x_new pf h c s refl d h' : new_dataset pf h c s refl = Ok (d, h') ->
  xnew_dataset pf h c (xsource_of s) refl = Ok (of_dataset d, h').
Proof.
  unfold new_dataset, xnew_dataset. intros E.
  assert (T : forall d0 h0, take_source pf h c s = Ok (d0, h0) -> xtake_source pf h c (xsource_of s) = Ok (of_dataset d0, h0)).
  { intros d0 h0. destruct s as [|w a p x|e|name lines|lines]; cbn [take_source xsource_of xtake_source].
    - intros [= <- <-]. reflexivity.
    - intros [= <- <-]. reflexivity.
    - intros [= <- <-]. reflexivity.
    - intros L. exact (proj1 (x_load pf h _ _) _ _ L).
    - intros L. exact (proj1 (x_load pf h _ _) _ _ L). }
  destruct (take_source pf h c s) as [[d0 h0]|e]; [|discriminate]. rewrite (T d0 h0 eq_refl). cbn [rbind] in *.
  injection E as <- <-. destruct refl; reflexivity.
Qed.

(** ** one point *)
Lemma vector_row (x : point) : as_vector [row x] = Some (row x).
Proof. reflexivity. Qed.
Lemma x_read pf d lines hdr body : header pf (x_delim d) lines hdr body -> forall h,
  let rest := skipn (List.length hdr) (if Nat.eqb (List.length hdr) 100 then body else tl body) in
  xload pf h d (ByName lines) = rbind (loadtxt pf (x_delim d) 0 body) (xset_columns h d) /\
  xload pf h d (ByHandle lines) = rbind (loadtxt pf (x_delim d) 0 rest) (xset_columns h d).
Proof.
  intros (-> & F & L & X) h rest. unfold xload. set (c := x_delim d) in *.
  assert (exists k r, detect_header pf c 100 (hdr ++ body) = (k, r) /\ skipn k (hdr ++ body) = body /\ skipn k r = rest) as (k & r & -> & E1 & E2).
  { unfold rest. destruct X as [->|[X|(l & rs & -> & Y)]].
    - rewrite app_nil_r, detect_end by assumption. do 2 eexists. split; [reflexivity|]. split.
      + apply skipn_all_le. exact L.
      + cbn [tl]. destruct (Nat.eqb (List.length hdr) 100); rewrite !skipn_nil; reflexivity.
    - rewrite (detect_long pf c 100 hdr body F X). do 2 eexists. split; [reflexivity|]. rewrite X. cbn [Nat.eqb].
      split; [|reflexivity]. rewrite skipn_app, skipn_all_le, X, Nat.sub_diag by lia. reflexivity.
    - destruct (Nat.eqb (List.length hdr) 100) eqn:E.
      + apply Nat.eqb_eq in E. rewrite (detect_long pf c 100 hdr (l :: rs) F E). do 2 eexists. split; [reflexivity|].
        rewrite E. split; [|reflexivity]. rewrite skipn_app, skipn_all_le, E, Nat.sub_diag by lia. reflexivity.
      + apply Nat.eqb_neq in E. rewrite (detect_spec pf c 100 hdr l rs F Y) by lia. do 2 eexists. split; [reflexivity|].
        split; [|reflexivity]. rewrite skipn_app, skipn_all_le, Nat.sub_diag by lia. reflexivity. }
  split; rewrite loadtxt_skip, ?E1, ?E2; reflexivity.
Qed.

Lemma loadtxt_parsed pf c lines : loadtxt pf c 0 lines = rbind (parsed pf c lines) (fun rows => if same_lengths rows then Ok rows else Raise ValueError).
Proof. reflexivity. Qed.

Lemma read_one pf h d lines x : becomes h d (rbind (loadtxt pf (x_delim d) 0 lines) (xset_columns h d)) x <-> one_point pf (x_delim d) lines x.
Proof.
  set (c := x_delim d). split.
  - intros (d' & E & (S1 & S2 & S3 & S4) & _). rewrite loadtxt_parsed in E.
    destruct (parsed pf c lines) as [rows|e] eqn:P; [|discriminate]. cbn [rbind] in E.
    destruct (same_lengths rows) eqn:SL; [|discriminate]. cbn [rbind] in E. unfold xset_columns in E.
    destruct (as_vector rows) as [v|] eqn:V.
    + destruct v as [|a [|b [|q [|t [|]]]]]; try discriminate. injection E as <-. cbn in S1, S2, S3, S4.
      injection S1 as ->. injection S2 as ->. injection S3 as ->. injection S4 as ->.
      destruct rows as [|r [|r2 rows]]; [discriminate V| |].
      * cbn in V. injection V as ->. left. apply parsed_table. exact P.
      * right. unfold as_vector in V. destruct (forallb _ _) eqn:F; [|discriminate]. injection V as V. rewrite <- V.
        exact (parsed_column pf c lines (r :: r2 :: rows) P (ones _ F)).
    + destruct (unpack4 rows) as [[[[w a] p] y]|e]; [|discriminate]. cbn [rbind] in E. injection E as <-. discriminate S1.
  - intros [T|T].
    + rewrite loadtxt_parsed, (table_parsed _ _ _ _ T). cbn [rbind map same_lengths forallb]. unfold xset_columns. rewrite vector_row.
      unfold row. eexists. split; [reflexivity|]. split; repeat split.
    + rewrite loadtxt_parsed, (column_parsed _ _ _ _ T). cbn.
      eexists. split; [reflexivity|]. split; repeat split.
Qed.
Lemma load_one pf h d lines hdr body x : header pf (x_delim d) lines hdr body ->
  let rest := skipn (List.length hdr) (if Nat.eqb (List.length hdr) 100 then body else tl body) in
  (becomes h d (xload pf h d (ByName lines)) x <-> one_point pf (x_delim d) body x) /\
  (becomes h d (xload pf h d (ByHandle lines)) x <-> one_point pf (x_delim d) rest x).
Proof.
  intros H rest. destruct (x_read pf d lines hdr body H h) as [A B]. rewrite A, B. split; apply read_one.
Qed.

Lemma scalars_data h d x : scalars d x -> x_mask d = X0 true \/ x_mask d = XM MNone ->
  xget_data h d = Ok (columns [x]) /\ xlen h d = Ok 1%nat.
Proof.
  intros (A & B & Cc & D) M. unfold xget_data, xlen, xget_wavelength, xget_aoi, xget_psi, xget_delta. rewrite A, B, Cc, D.
  destruct M as [-> | ->]; split; reflexivity.
Qed.
Lemma scalars_hidden h d x : scalars d x -> x_mask d = X0 false -> xget_data h d = Ok (columns []) /\ xlen h d = Ok 0%nat.
Proof.
  intros (A & B & Cc & D) M. unfold xget_data, xlen, xget_wavelength, xget_aoi, xget_psi, xget_delta. rewrite A, B, Cc, D, M. split; reflexivity.
Qed.
Lemma scalars_bool h d x m : scalars d x -> let d' := xset_mask d (XM (MBool m)) in
  xget_wavelength h d' = Raise IndexError /\ xget_aoi h d' = Raise IndexError /\ xget_psi h d' = Raise IndexError /\
  xget_delta h d' = Raise IndexError /\ xlen h d' = Raise IndexError.
Proof.
  intros (A & B & Cc & D) d'. unfold xlen, xget_wavelength, xget_aoi, xget_psi, xget_delta, d', xset_mask. cbn. rewrite A, B, Cc, D. repeat split.
Qed.
Lemma scalars_unique h d x w : scalars d x -> x_mask d = X0 true -> p_wav x = Some w ->
  xunique_wavelength_data h d = Ok [(Some w, [p_aoi x], [p_psi x], [p_delta x])].
Proof.
  intros S M W. unfold xunique_wavelength_data. rewrite (proj1 (scalars_data h d x S (or_introl M))). cbn [rbind columns map].
  rewrite W. cbn [finite flat_map app has_nan existsb]. unfold np_unique. cbn.
  unfold select_where, where_true. cbn. destruct (Req_EM_T w w); [reflexivity|contradiction].
Qed.
Lemma new_one pf h c name lines hdr body x : header pf c lines hdr body -> one_point pf c body x ->
  (exists d, xnew_dataset pf h c (XFile name lines) false = Ok (d, h) /\ scalars d x /\ x_mask d = X0 true /\
     x_flipped d = false /\ x_file d = Some name /\ x_delim d = c /\
     xget_data h d = Ok (columns [x]) /\ xlen h d = Ok 1%nat) /\
  xnew_dataset pf h c (XFile name lines) true = Raise TypeError.
Proof.
  intros H O. unfold xnew_dataset. cbn [xtake_source].
  set (b := XData _ _ _ _ _ _ _ _ _). destruct (proj2 (proj1 (load_one pf h b lines hdr body x H)) O) as (d & E & S & R).
  rewrite E. cbn [rbind]. pose proof S as (A & B & Cc & D). destruct R as (R1 & R2 & R3 & R4 & R5). split.
  - rewrite A. eexists. split; [reflexivity|]. cbn [x_mask x_flipped x_file x_delim].
    assert (S' : scalars (XData (Sca (p_wav x)) (x_aoi d) (x_psi d) (x_delta d) (X0 true) false (x_weighted d) (x_file d) (x_delim d)) x) by (repeat split; assumption).
    split; [exact S'|]. split; [reflexivity|]. split; [reflexivity|]. split; [exact R4|]. split; [exact R5|].
    exact (scalars_data h _ x S' (or_introl eq_refl)).
  - rewrite D. reflexivity.
Qed.
Lemma copy_one pf h c d x : scalars d x ->
  xnew_dataset pf h c (XCopy d) true = Raise TypeError /\
  exists d', xnew_dataset pf h c (XCopy d) false = Ok (d', h) /\ scalars d' x /\ x_mask d' = X0 true.
Proof.
  intros (A & B & Cc & D). unfold xnew_dataset. cbn [xtake_source rbind x_delta x_wav]. rewrite A, D. split; [reflexivity|].
  eexists. split; [reflexivity|]. split; [repeat split; cbn; assumption|reflexivity].
Qed.

(** ** saving *)
Lemma save_one pr h d x : scalars d x -> forall h1 d1, holds h1 d1 [x] -> xsave pr h d = save pr h1 d1.
Proof.
  intros (A & B & Cc & D) h1 d1 (A1 & B1 & C1 & D1). unfold xsave, save. rewrite A, B, Cc, D.
  rewrite (arr_nth _ _ _ A1), (arr_nth _ _ _ B1), (arr_nth _ _ _ C1), (arr_nth _ _ _ D1). reflexivity.
Qed.

Lemma survivor_line pf pr x : point_survives pf pr x -> four_numbers pf tab (join tab (map pr (row x))) x.
Proof.
  intros ((P1 & N1 & L1) & (P2 & N2 & L2) & (P3 & N3 & L3) & (P4 & N4 & L4)).
  assert (FR : forall s, plain tab s -> free tab s) by (induction s as [|a s IH]; [trivial|]; intros (U & _ & V); split; auto).
  exists (map pr (row x)). split.
  - split; [discriminate|]. split; [|reflexivity]. unfold row. cbn [map]. repeat constructor; apply FR; assumption.
  - unfold row. cbn [map]. repeat constructor; assumption.
Qed.
Lemma free_join c l : Forall (free "#") l -> c <> "#"%char -> free "#" (join c l).
Proof.
  intros F N. assert (AP : forall s t, free "#" s -> free "#" t -> free "#" (s ++ t)%string).
  { induction s as [|a s IH]; intros t A B; cbn; [exact B|]. destruct A as [A1 A2]. split; auto. }
  induction F as [|s l H F IH]; [exact I|]. destruct l as [|t l]; [exact H|]. change (join c (s :: t :: l)) with (s ++ String c (join c (t :: l)))%string.
  apply AP; [exact H|]. split; assumption.
Qed.
Lemma plain_comment c s : plain c s -> free "#" s.
Proof. induction s as [|a s IH]; [trivial|]. intros (_ & U & V). split; auto. Qed.
Lemma survivor_table pf pr x : point_survives pf pr x -> table_of pf tab [join tab (map pr (row x))] [x].
Proof.
  intros S. pose proof (survivor_line pf pr x S) as L. destruct S as ((P1 & N1 & L1) & (P2 & N2 & L2) & (P3 & N3 & L3) & (P4 & N4 & L4)).
  exists [join tab (map pr (row x))], [join tab (map pr (row x))].
  split; [constructor; [|constructor]|split; [|constructor; [exact L|constructor]]].
  - split; [|left; reflexivity]. apply free_join; [|discriminate]. unfold row. cbn [map]. repeat constructor; eapply plain_comment; eassumption.
  - apply those_yes; [|constructor]. unfold row. cbn [map join]. destruct (pr (p_wav x)); [contradiction|discriminate].
Qed.
Lemma save_load_one pf pr h d x h0 c name : holds h d [x] -> point_survives pf pr x -> pf "# wavelength"%string = None -> c = tab ->
  exists lines, save pr h d = Ok lines /\
    (exists d', xnew_dataset pf h0 c (XFile name lines) false = Ok (d', h0) /\ scalars d' x /\
       xget_data h0 d' = Ok (columns [x]) /\ xlen h0 d' = Ok 1%nat /\ xsave pr h0 d' = Ok lines) /\
    xnew_dataset pf h0 c (XFile name lines) true = Raise TypeError.
Proof.
  intros H S N ->. rewrite (save_lines pr h d [x] H). eexists. split; [reflexivity|]. cbn [map].
  assert (HD : header pf tab [header_line; join tab (map pr (row x))] [header_line] [join tab (map pr (row x))]).
  { split; [reflexivity|]. split; [constructor; [|constructor]|].
    - intros (v & E). change (first_field tab header_line) with "# wavelength"%string in E. congruence.
    - split; [cbn; lia|]. right; right. do 2 eexists. split; [reflexivity|]. destruct S as ((P1 & N1 & L1) & _).
      exists (p_wav x). unfold row. cbn [map join]. rewrite first_field_cons by exact L1. exact P1. }
  destruct (new_one pf h0 tab name _ _ _ x HD (or_introl (survivor_table pf pr x S))) as [(d' & E & Sc & M & _ & _ & _ & G & L) T].
  split; [|exact T]. exists d'. split; [exact E|]. split; [exact Sc|]. split; [exact G|]. split; [exact L|].
  rewrite (save_one pr h0 d' x Sc h d H). rewrite (save_lines pr h d [x] H). reflexivity.
Qed.

(** ** turning the scalars into arrays *)
Definition blank_of (d : xdata) : dataset := DataSE 0 0 0 0 (MBool []) (x_flipped d) (x_weighted d) (x_file d) (x_delim d).
Lemma set_columns_holds h d pts m : let '(d', h') := set_columns h d (map p_wav pts) (map p_aoi pts) (map p_psi pts) (map p_delta pts) m in
  holds h' d' pts /\ ds_mask d' = m /\ ds_flipped d' = ds_flipped d.
Proof.
  pose proof (set_columns_spec h d (map p_wav pts) (map p_aoi pts) (map p_psi pts) (map p_delta pts) m) as Q.
  destruct (set_columns h d _ _ _ _ _) as [d' h']. destruct Q as (-> & E1 & E2 & E3 & E4 & Em & Ef & _).
  split; [|split; assumption]. unfold holds. rewrite E1, E2, E3, E4. rewrite !nth_error_app2 by lia. rewrite Nat.sub_diag.
  replace (S (List.length h) - List.length h)%nat with 1%nat by lia.
  replace (S (S (List.length h)) - List.length h)%nat with 2%nat by lia.
  replace (S (S (S (List.length h))) - List.length h)%nat with 3%nat by lia. auto.
Qed.
Lemma set_data_one h d (x : point) : exists d1 h1,
  xset_data h d [p_wav x] [p_aoi x] [p_psi x] [p_delta x] = (of_dataset d1, h1) /\
  holds h1 d1 [x] /\ ds_mask d1 = MBool [true] /\ ds_flipped d1 = x_flipped d.
Proof.
  pose proof (set_columns_holds h (blank_of d) [x] (MBool [true])) as Q. cbn [map] in Q.
  assert (E : xset_data h d [p_wav x] [p_aoi x] [p_psi x] [p_delta x] =
    (of_dataset (fst (set_columns h (blank_of d) [p_wav x] [p_aoi x] [p_psi x] [p_delta x] (MBool [true]))),
     snd (set_columns h (blank_of d) [p_wav x] [p_aoi x] [p_psi x] [p_delta x] (MBool [true])))) by reflexivity.
  rewrite E. destruct (set_columns h (blank_of d) _ _ _ _ _) as [d1 h1]. exists d1, h1. split; [reflexivity|exact Q].
Qed.

(** ** refresh *)
Lemma xset_points h d pts : (2 <= List.length pts)%nat ->
  exists a h', xset_columns h d (map row pts) = Ok (XData (Addr a) (Addr (S a)) (Addr (S (S a))) (Addr (S (S (S a)))) (x_mask d) (x_flipped d) (x_weighted d) (x_file d) (x_delim d), h') /\
    arr h' a = map p_wav pts /\ arr h' (S a) = map p_aoi pts /\ arr h' (S (S a)) = map p_psi pts /\ arr h' (S (S (S a))) = map p_delta pts.
Proof.
  intros L. unfold xset_columns.
  assert (V : as_vector (map row pts) = None) by (destruct pts as [|x [|y pts]]; cbn in L; try lia; reflexivity).
  rewrite V. change (map row pts) with (map (fun x => [p_wav x; p_aoi x; p_psi x; p_delta x]) pts). rewrite (unpack_points pts L). cbn [rbind].
  pose proof (set_columns_spec h (blank_of d) (map p_wav pts) (map p_aoi pts) (map p_psi pts) (map p_delta pts) (MBool [])) as Q.
  pose proof (set_columns_holds h (blank_of d) pts (MBool [])) as Q2. unfold set_columns in Q, Q2. unfold alloc in *. cbv zeta in *.
  set (h' := (((h ++ [_]) ++ [_]) ++ [_]) ++ [_]) in *. destruct Q as (Eh & E1 & E2 & E3 & E4 & _). destruct Q2 as ((F1 & F2 & F3 & F4) & _).
  cbn [ds_wav ds_aoi ds_psi ds_delta] in *. exists (List.length h), h'. rewrite E2, E3, E4 in *. split; [reflexivity|].
  repeat split; apply arr_nth; assumption.
Qed.
Lemma refresh_grown pf h d x content hdr body name pts : scalars d x -> x_mask d = X0 true -> x_file d = Some name ->
  header pf (x_delim d) content hdr body -> (2 <= List.length pts)%nat ->
  table_of pf (x_delim d) (skipn (List.length hdr) (if Nat.eqb (List.length hdr) 100 then body else tl body)) pts ->
  exists d' h', xrefresh pf h d content = Ok (d', h') /\ xget_data h' d' = Ok (one_row pts) /\ xlen h' d' = Ok (List.length pts).
Proof.
  intros S M F H L T. unfold xrefresh. rewrite F. destruct (x_read pf d content hdr body H h) as [_ ->].
  rewrite loadtxt_parsed, (table_parsed _ _ _ _ T). cbn [rbind]. rewrite same_rows. cbn [rbind].
  destruct (xset_points h d pts L) as (a & h' & -> & A1 & A2 & A3 & A4). eexists. exists h'. split; [reflexivity|].
  unfold xget_data, xlen, xget_wavelength, xget_aoi, xget_psi, xget_delta. cbn [x_mask x_wav x_aoi x_psi x_delta]. rewrite M. cbn [xmasked].
  rewrite A1, A2, A3, A4. destruct pts as [|y pts]; [cbn in L; lia|]. cbn [map rbind rmap np_size List.concat].
  split; [reflexivity|]. f_equal. rewrite app_nil_r. cbn [List.length]. rewrite map_length. reflexivity.
Qed.
Lemma refresh_shrunk pf h d content hdr body name m x : ds_file d = Some name -> ds_mask d = MBool m ->
  header pf (ds_delim d) content hdr body ->
  one_point pf (ds_delim d) (skipn (List.length hdr) (if Nat.eqb (List.length hdr) 100 then body else tl body)) x ->
  exists d', xrefresh pf h (of_dataset d) content = Ok (d', h) /\ scalars d' x /\ xget_data h d' = Raise IndexError /\ xlen h d' = Raise IndexError.
Proof.
  intros F M H O. unfold xrefresh. cbn [of_dataset x_file]. rewrite F.
  destruct (proj2 (proj2 (load_one pf h (of_dataset d) content hdr body x H)) O) as (d' & E & S & R). exists d'.
  split; [exact E|]. split; [exact S|]. destruct R as (R & _). cbn in R. rewrite M in R.
  destruct S as (A & B & Cc & D). unfold xget_data, xlen, xget_wavelength. rewrite A, R. split; reflexivity.
Qed.

(** ** examples: a file with one line, a file with four lines of one number *)
Definition line7 : list string := [header_line; row1 "7"].
Lemma line7_header : header digit tab line7 [header_line] [row1 "7"].
Proof.
  split; [reflexivity|]. split; [constructor; [|constructor]|].
  - intros (v & E). discriminate E.
  - split; [cbn; lia|]. right; right. do 2 eexists. split; [reflexivity|]. eexists. reflexivity.
Qed.
Lemma line7_point : one_point digit tab [row1 "7"] (pt1 7).
Proof.
  left. exists [row1 "7"], [row1 "7"]. split; [constructor; [|constructor]|split].
  - split; [|left; reflexivity]. cbn. repeat split; discriminate.
  - apply those_yes; [discriminate|constructor].
  - constructor; [|constructor]. exists ["7"; "7"; "7"; "7"]%string. split.
    + split; [discriminate|]. split; [|reflexivity]. repeat constructor; discriminate.
    + repeat constructor.
Qed.
Definition column7 : list string := ["6"; "5"; "4"; "3"]%string.
Lemma column7_header : header digit tab column7 [] column7.
Proof.
  split; [reflexivity|]. split; [constructor|]. split; [cbn; lia|]. right; right. do 2 eexists. split; [reflexivity|]. eexists. reflexivity.
Qed.
Definition pt6543 : point := (Some (INR 6), Some (INR 5), Some (INR 4), Some (INR 3)).
Lemma column7_point : one_point digit tab column7 pt6543.
Proof.
  right. exists column7, column7. split; [|split].
  - repeat constructor; cbn; try discriminate.
  - repeat (apply those_yes; [discriminate|]). constructor.
  - repeat constructor; discriminate.
Qed.
Lemma reflect_needs_two : exists pf lines d d0, 
  xnew_dataset pf [] tab (XFile "f.txt" lines) false = Ok (d, []) /\ xget_data [] d = Ok (columns [d0]) /\
  xnew_dataset pf [] tab (XFile "f.txt" lines) true = Raise TypeError.
Proof.
  destruct (new_one digit [] tab "f.txt" line7 _ _ _ line7_header line7_point) as [(d & E & _ & _ & _ & _ & _ & G & _) T].
  exists digit, line7, d, (pt1 7). auto.
Qed.
Lemma refresh_ex : header digit tab [row1 "7"; row1 "1"; row1 "2"] [] [row1 "7"; row1 "1"; row1 "2"] /\
  table_of digit tab (skipn 0 (tl [row1 "7"; row1 "1"; row1 "2"])) [pt1 1; pt1 2].
Proof.
  split.
  - split; [reflexivity|]. split; [constructor|]. split; [cbn; lia|]. right; right. do 2 eexists. split; [reflexivity|]. eexists. reflexivity.
  - exists [row1 "1"; row1 "2"], [row1 "1"; row1 "2"]. split; [constructor; [|constructor; [|constructor]]|split].
    + split; [|left; reflexivity]. cbn. repeat split; discriminate.
    + split; [|left; reflexivity]. cbn. repeat split; discriminate.
    + repeat (apply those_yes; [discriminate|]). constructor.
    + constructor; [|constructor; [|constructor]].
      * exists ["1"; "1"; "1"; "1"]%string. split; [|repeat constructor]. split; [discriminate|]. split; [|reflexivity]. repeat constructor; discriminate.
      * exists ["2"; "2"; "2"; "2"]%string. split; [|repeat constructor]. split; [discriminate|]. split; [|reflexivity]. repeat constructor; discriminate.
Qed.
