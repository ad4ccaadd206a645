(** * Proofs about reading texts back *)

Require Import List Bool String Ascii Arith Lia.
From Verif Require Import M_text M_signature Spec_text P_text Spec_text2.
Import ListNotations.
Open Scope string_scope.

Lemma body_escaped q c t : q = sq \/ q = dq ->
  literal_body q (escaped q c ++ t) = option_map (String c) (literal_body q t).
Proof.
  intros [-> | ->]; destruct c as [[|] [|] [|] [|] [|] [|] [|] [|]]; reflexivity.
Qed.
Lemma body_escape q s : q = sq \/ q = dq -> literal_body q (escape q s ++ String q EmptyString) = Some s.
Proof.
  intros Q. induction s as [|c s IH]; cbn [escape append].
  - cbn [literal_body]. rewrite Ascii.eqb_refl. reflexivity.
  - assert (E : forall a b d : string, (a ++ b) ++ d = a ++ b ++ d) by (induction a as [|x a IHa]; intros; cbn; [reflexivity|rewrite IHa; reflexivity]).
    rewrite E, body_escaped, IH by exact Q. reflexivity.
Qed.
Theorem literal_repr s : literal (str_repr s) = Some s.
Proof.
  unfold str_repr. set (q := if _ && _ then dq else sq).
  assert (Q : q = sq \/ q = dq) by (unfold q; destruct (_ && _); auto).
  cbn [literal]. assert (E : Ascii.eqb q "039" || Ascii.eqb q "034" = true) by (destruct Q as [-> | ->]; reflexivity).
  rewrite E. apply body_escape. exact Q.
Qed.

Lemma app_assoc_s (a b d : string) : (a ++ b) ++ d = a ++ b ++ d.
Proof. induction a as [|x a IHa]; cbn; [reflexivity|rewrite IHa; reflexivity]. Qed.
Lemma app_nil_s (a : string) : a ++ "" = a.
Proof. induction a; cbn; congruence. Qed.
Lemma lex_none s : lex None s = None.
Proof. induction s; cbn; auto. Qed.
Lemma split_text s : forall st cur t, lex (Some st) s = Some ([], Code) -> no_comma (Some st) s = true ->
  split_arguments st cur (s ++ t) = split_arguments ([], Code) (cur ++ s) t.
Proof.
  induction s as [|c s IH]; intros st cur t L N.
  - cbn in L. injection L as ->. rewrite app_nil_s. reflexivity.
  - cbn [lex] in L. cbn [no_comma] in N. apply andb_true_iff in N as [N1 N2].
    destruct (lex1 (Some st) c) as [st'|] eqn:E; [|rewrite lex_none in L; discriminate].
    cbn [append]. specialize (IH st' (cur ++ String c "") t L N2). rewrite app_assoc_s in IH. cbn [append] in IH. rewrite <- IH.
    cbn [split_arguments]. destruct st as [[|b stack] m].
    + destruct m; try (rewrite E; reflexivity).
      destruct (Ascii.eqb c ",") eqn:E1; [rewrite andb_true_r in N1; discriminate|].
      destruct (Ascii.eqb c ")") eqn:E2; [|rewrite E; reflexivity].
      apply Ascii.eqb_eq in E2. subst c. discriminate.
    + rewrite E. reflexivity.
Qed.
Lemma split_value s cur t : value_text s -> split_arguments ([], Code) cur (s ++ t) = split_arguments ([], Code) (cur ++ s) t.
Proof. intros (C & N & _). apply split_text; [apply C|exact N]. Qed.

(** names are values *)
Lemma nc_inside stack q c : q = sq \/ q = dq -> forall t, no_comma (Some (stack, Inside q)) (escaped q c ++ t) = no_comma (Some (stack, Inside q)) t.
Proof.
  intros [-> | ->] t; destruct c as [[|] [|] [|] [|] [|] [|] [|] [|]]; destruct stack; reflexivity.
Qed.
Lemma str_repr_value s : value_text (str_repr s).
Proof.
  split; [apply str_repr_complete|].
  unfold str_repr. set (q := if _ && _ then dq else sq).
  assert (Q : q = sq \/ q = dq) by (unfold q; destruct (_ && _); auto). clearbody q. split.
  - assert (E : forall u, no_comma (Some ([], Code)) (String q u) = no_comma (Some ([], Inside q)) u) by (intros u; destruct Q as [-> | ->]; reflexivity).
    rewrite E. clear E. generalize (nil : list ascii) as stack. intros stack.
    induction s as [|c s IH]; cbn [escape].
    + destruct Q as [-> | ->]; destruct stack; reflexivity.
    + rewrite app_assoc_s, nc_inside by exact Q. exact IH.
  - destruct Q as [-> | ->]; reflexivity.
Qed.
Lemma name_value n : value_text (name_repr n).
Proof. destruct n; [apply str_repr_value|]. split; [intros st; reflexivity|split; reflexivity]. Qed.

Lemma skip_space s : skip (String " " s) = skip s.
Proof. reflexivity. Qed.
Lemma argument_space s : argument (String " " s) = argument s.
Proof. reflexivity. Qed.
Ltac pos := repeat match goal with H : positional ?s |- _ => pose proof (proj1 H); pose proof (proj2 H); clear H end.

Lemma value_skip t : value_text t -> skip t = t.
Proof. intros H. apply H. Qed.
(** a literal piece of text between values: no brackets, quotes or commas in it *)
Lemma step c s cur : Ascii.eqb c "," = false -> Ascii.eqb c ")" = false -> lex1 (Some ([], Code)) c = Some ([], Code) ->
  split_arguments ([], Code) cur (String c s) = split_arguments ([], Code) (cur ++ String c "") s.
Proof. intros A B C. cbn [split_arguments]. rewrite A, B. unfold lexstate in *. rewrite C. reflexivity. Qed.
Lemma comma s cur : split_arguments ([], Code) cur (String "," s) = option_map (cons cur) (split_arguments ([], Code) "" s).
Proof. reflexivity. Qed.
Lemma closing cur : split_arguments ([], Code) cur ")" = Some [cur].
Proof. reflexivity. Qed.
Ltac parts := repeat (cbn [append]; first [rewrite closing | rewrite comma | rewrite step by reflexivity
   | rewrite split_value by (assumption || apply name_value || apply str_repr_value)]).
Ltac finish := cbn [option_map map append]; repeat (apply f_equal2 || apply f_equal); try reflexivity.

Lemma arg_name t : value_text t -> argument (" name=" ++ t) = (Some "name", t).
Proof. intros H. change (argument (" name=" ++ t)) with (Some "name", skip t). rewrite (value_skip t H). reflexivity. Qed.
Lemma arg_vfsolv t : value_text t -> argument (" vfsolv=" ++ t) = (Some "vfsolv", t).
Proof. intros H. change (argument (" vfsolv=" ++ t)) with (Some "vfsolv", skip t). rewrite (value_skip t H). reflexivity. Qed.
Lemma arg_interface t : value_text t -> argument (" interface=" ++ t) = (Some "interface", t).
Proof. intros H. change (argument (" interface=" ++ t)) with (Some "interface", skip t). rewrite (value_skip t H). reflexivity. Qed.
Lemma arg_mask t : value_text t -> argument (" mask=" ++ t) = (Some "mask", t).
Proof. intros H. change (argument (" mask=" ++ t)) with (Some "mask", skip t). rewrite (value_skip t H). reflexivity. Qed.
Lemma arg_lnsigma t : value_text t -> argument (" lnsigma=" ++ t) = (Some "lnsigma", t).
Proof. intros H. change (argument (" lnsigma=" ++ t)) with (Some "lnsigma", skip t). rewrite (value_skip t H). reflexivity. Qed.
Lemma arg_use_weights t : value_text t -> argument (" use_weights=" ++ t) = (Some "use_weights", t).
Proof. intros H. change (argument (" use_weights=" ++ t)) with (Some "use_weights", skip t). rewrite (value_skip t H). reflexivity. Qed.
Lemma arg_transform t : value_text t -> argument (" transform=" ++ t) = (Some "transform", t).
Proof. intros H. change (argument (" transform=" ++ t)) with (Some "transform", skip t). rewrite (value_skip t H). reflexivity. Qed.
Lemma arg_logp_extra t : value_text t -> argument (" logp_extra=" ++ t) = (Some "logp_extra", t).
Proof. intros H. change (argument (" logp_extra=" ++ t)) with (Some "logp_extra", skip t). rewrite (value_skip t H). reflexivity. Qed.
Lemma arg_data t : value_text t -> argument ("data=" ++ t) = (Some "data", t).
Proof. intros H. change (argument ("data=" ++ t)) with (Some "data", skip t). rewrite (value_skip t H). reflexivity. Qed.
Lemma arg_space t : argument t = (None, t) -> argument (" " ++ t) = (None, t).
Proof. intros H. exact H. Qed.
Ltac call f := match goal with |- call_of (?p ++ ?u) = _ =>
    change (call_of (p ++ u)) with (option_map (fun l => (f, map argument l)) (split_arguments ([], Code) "" u)) end.

Theorem slab_call t r ro n v i : positional t -> positional r -> positional ro -> value_text v -> value_text i ->
  call_of (slab_repr t r ro n v i) =
    Some ("SlabSE", [(None, t); (None, r); (None, ro); (Some "name", name_repr n); (Some "vfsolv", v); (Some "interface", i)]).
Proof.
  intros. pos. pose proof (arg_name (name_repr n) ltac:(assumption || apply name_value || apply str_repr_value)) as Kname; cbn [append] in Kname. pose proof (arg_vfsolv v ltac:(assumption || apply name_value || apply str_repr_value)) as Kvfsolv; cbn [append] in Kvfsolv. pose proof (arg_interface i ltac:(assumption || apply name_value || apply str_repr_value)) as Kinterface; cbn [append] in Kinterface.
  unfold slab_repr. call "SlabSE". parts. cbn [option_map map].
  rewrite Kname. rewrite Kvfsolv. rewrite Kinterface. change (argument (String " " r)) with (argument r). change (argument (String " " ro)) with (argument ro). repeat match goal with H : argument ?s = (None, ?s) |- _ => rewrite H; clear H end. reflexivity.
Qed.
Theorem mixed_call t a b v ro n i : positional t -> positional a -> positional b -> positional v -> positional ro -> value_text i ->
  call_of (mixed_repr t a b v ro n i) =
    Some ("MixedSlabSE", [(None, t); (None, a); (None, b); (None, v); (None, ro); (Some "name", name_repr n); (Some "interface", i)]).
Proof.
  intros. pos. pose proof (arg_name (name_repr n) ltac:(assumption || apply name_value || apply str_repr_value)) as Kname; cbn [append] in Kname. pose proof (arg_interface i ltac:(assumption || apply name_value || apply str_repr_value)) as Kinterface; cbn [append] in Kinterface.
  unfold mixed_repr. call "MixedSlabSE". parts. cbn [option_map map].
  rewrite Kname. rewrite Kinterface. change (argument (String " " a)) with (argument a). change (argument (String " " b)) with (argument b). change (argument (String " " v)) with (argument v). change (argument (String " " ro)) with (argument ro). repeat match goal with H : argument ?s = (None, ?s) |- _ => rewrite H; clear H end. reflexivity.
Qed.
Theorem objective_call m d l u t x nm : positional m -> positional d -> value_text l -> value_text u -> value_text t -> value_text x -> value_text nm ->
  call_of (objective_repr m d l u t x nm) =
    Some ("Objective", [(None, m); (None, d); (Some "lnsigma", l); (Some "use_weights", u); (Some "transform", t); (Some "logp_extra", x); (Some "name", nm)]).
Proof.
  intros. pos. pose proof (arg_lnsigma l ltac:(assumption || apply name_value || apply str_repr_value)) as Klnsigma; cbn [append] in Klnsigma. pose proof (arg_use_weights u ltac:(assumption || apply name_value || apply str_repr_value)) as Kuse_weights; cbn [append] in Kuse_weights. pose proof (arg_transform t ltac:(assumption || apply name_value || apply str_repr_value)) as Ktransform; cbn [append] in Ktransform. pose proof (arg_logp_extra x ltac:(assumption || apply name_value || apply str_repr_value)) as Klogp_extra; cbn [append] in Klogp_extra. pose proof (arg_name nm ltac:(assumption || apply name_value || apply str_repr_value)) as Kname; cbn [append] in Kname.
  unfold objective_repr. call "Objective". parts. cbn [option_map map].
  rewrite Klnsigma. rewrite Kuse_weights. rewrite Ktransform. rewrite Klogp_extra. rewrite Kname. change (argument (String " " d)) with (argument d). repeat match goal with H : argument ?s = (None, ?s) |- _ => rewrite H; clear H end. reflexivity.
Qed.
Theorem data_call f d m : value_text d -> value_text m ->
  call_of (data_repr f d m) = Some ("Data1D", [(Some "data", match f with Some f => str_repr f | None => d end); (Some "mask", m)]).
Proof.
  intros. pose proof (arg_mask m H0) as Km; cbn [append] in Km.
  assert (E : forall z, value_text z -> call_of ("Data1D(data=" ++ z ++ "," ++ " mask=" ++ m ++ ")") = Some ("Data1D", [(Some "data", z); (Some "mask", m)])).
  { intros z Z. pose proof (arg_data z Z) as Kd; cbn [append] in Kd.
    change ("Data1D(data=" ++ z ++ "," ++ " mask=" ++ m ++ ")") with ("Data1D(" ++ "data=" ++ z ++ "," ++ " mask=" ++ m ++ ")").
    call "Data1D". parts. cbn [option_map map]. rewrite Kd, Km. reflexivity. }
  unfold data_repr. destruct f as [f|]; apply E; [apply str_repr_value|exact H].
Qed.

Theorem model_no_call s n o : value_text s -> value_text o -> call_of (model_repr s n o) = None.
Proof.
  intros. unfold model_repr. call "ReflectModel". parts. reflexivity.
Qed.

Theorem slab_constructs t r ro n v i : positional t -> positional r -> positional ro -> value_text v -> value_text i ->
  constructs exported (slab_repr t r ro n v i) "SlabSE"
    [("thick", t); ("ri", r); ("rough", ro); ("name", name_repr n); ("vfsolv", v); ("interface", i)].
Proof.
  intros. eexists _, _. rewrite slab_call by assumption. split; [reflexivity|].
  split; [|split; [|reflexivity]]; [cbn; auto|reflexivity].
Qed.
Theorem mixed_constructs t a b v ro n i : positional t -> positional a -> positional b -> positional v -> positional ro -> value_text i ->
  constructs exported (mixed_repr t a b v ro n i) "MixedSlabSE"
    [("thick", t); ("ri_A", a); ("ri_B", b); ("vf_B", v); ("rough", ro); ("name", name_repr n); ("interface", i)].
Proof.
  intros. eexists _, _. rewrite mixed_call by assumption. split; [reflexivity|].
  split; [|split; [|reflexivity]]; [cbn; auto 8|reflexivity].
Qed.
Theorem others_construct_nothing :
  (forall m d l u t x nm, positional m -> positional d -> value_text l -> value_text u -> value_text t -> value_text x -> value_text nm ->
     constructs_nothing exported (objective_repr m d l u t x nm)) /\
  (forall f d m, value_text d -> value_text m -> constructs_nothing exported (data_repr f d m)) /\
  (forall s n o, value_text s -> value_text o -> constructs_nothing exported (model_repr s n o)).
Proof.
  split; [|split]; intros; intros g args E.
  - rewrite objective_call in E by assumption. assert (G : g = "Objective") by congruence. subst g. clear. cbn.
    intros K. repeat match type of K with _ \/ _ => destruct K as [K|K]; [discriminate|] end. exact K.
  - rewrite data_call in E by assumption. assert (G : g = "Data1D") by congruence. subst g. clear. cbn.
    intros K. repeat match type of K with _ \/ _ => destruct K as [K|K]; [discriminate|] end. exact K.
  - rewrite model_no_call in E by assumption. discriminate.
Qed.
(** renaming the class does not help the dataset: the mask is no parameter *)
Theorem data_mask_unbound f d m : value_text d -> value_text m ->
  exists args, call_of (data_repr f d m) = Some ("Data1D", args) /\
    exists signature, In ("DataSE", signature) exported /\ ~ In "mask" signature /\ In ("mask", m) (bind signature args).
Proof.
  intros. eexists. split; [apply data_call; assumption|].
  exists ["data"; "name"; "delimiter"; "reflect_delta"]. split; [cbn; auto 20|]. split.
  - cbn. intros K. repeat match type of K with _ \/ _ => destruct K as [K|K]; [discriminate|] end. exact K.
  - cbn. auto.
Qed.
Theorem names_differ n n' : str_repr n = str_repr n' -> n = n'.
Proof. intros E. pose proof (literal_repr n) as A. rewrite E, literal_repr in A. congruence. Qed.

Theorem objective_renamed m d l u t x nm : positional m -> positional d -> value_text l -> value_text u -> value_text t -> value_text x -> value_text nm ->
  constructs_renamed exported (objective_repr m d l u t x nm) "Objective" "ObjectiveSE"
    [("model", m); ("data", d); ("lnsigma", l); ("use_weights", u); ("transform", t); ("logp_extra", x); ("name", nm)].
Proof.
  intros. eexists. eexists. split; [apply objective_call; assumption|].
  split; [do 13 right; left; reflexivity|]. split; [reflexivity|]. intros p. cbn. tauto.
Qed.
Theorem model_renamed s n o : positional s -> value_text o -> o <> "" ->
  constructs_renamed exported (model_repr s n o ++ ")") "ReflectModel" "ReflectModelSE"
    [("structure", s); ("name", name_repr n); ("delta_offset", o ++ " ")].
Proof.
  intros. eexists. eexists. split.
  - instantiate (1 := [(None, s); (Some "name", name_repr n); (Some "delta_offset", o ++ " ")]).
    pos. pose proof (arg_name (name_repr n) (name_value n)) as K; cbn [append] in K.
    assert (K2 : argument (" delta_offset = " ++ o ++ " ") = (Some "delta_offset", o ++ " ")).
    { change (argument (" delta_offset = " ++ o ++ " ")) with (Some "delta_offset", skip (o ++ " ")). f_equal.
      match goal with H : value_text o |- _ => destruct H as (_ & _ & V) end. match goal with H : o <> "" |- _ => rename H into NE end. clear - V NE.
      destruct o as [|c o]; [contradiction|]. cbn [append]. destruct c as [[|] [|] [|] [|] [|] [|] [|] [|]]; try reflexivity.
      exfalso. assert (L : forall s : string, String.length (skip s) <= String.length s).
      { clear. induction s as [|c s IH]; [auto|]. destruct c as [[|] [|] [|] [|] [|] [|] [|] [|]]; cbn in *; auto with arith. }
      cbn in V. specialize (L o). rewrite V in L. cbn in L. exact (Nat.nle_succ_diag_l _ L). }
    cbn [append] in K2. unfold model_repr. repeat rewrite app_assoc_s. cbn [append].
    change (call_of ("ReflectModel(" ++ (s ++ ", name=" ++ name_repr n ++ "," ++ " delta_offset = " ++ o ++ " " ++ ")")) = Some ("ReflectModel", [(None, s); (Some "name", name_repr n); (Some "delta_offset", o ++ " ")])).
    call "ReflectModel". parts. cbn [option_map map]. rewrite K, ?app_assoc_s. cbn [append]. rewrite K2.
    repeat match goal with H : argument ?s = (None, ?s) |- _ => rewrite H; clear H end. reflexivity.
  - split; [do 12 right; left; reflexivity|]. split; [reflexivity|]. intros p. cbn. tauto.
Qed.
Theorem scatterer_entries n k : value_text n -> value_text k -> entries (scatterer_str n k) = Some [Some ("n", n); Some ("k", k)].
Proof.
  intros N K. unfold entries, scatterer_str. repeat rewrite app_assoc_s. parts. cbn [option_map map].
  change (labelled (String "n" (String ":" (String " " n)))) with (Some ("n", skip n)).
  change (labelled (String " " (String "k" (String ":" (String " " k))))) with (Some ("k", skip k)).
  rewrite (value_skip n N), (value_skip k K). reflexivity.
Qed.

(** names, None included *)
Lemma name_denotes n : denotes_name (name_repr n) n.
Proof. destruct n as [s|]; [apply literal_repr|reflexivity]. Qed.

Lemma slab_reads t r ro n v i :
  positional t -> positional r -> positional ro -> value_text v -> value_text i ->
  exists x, denotes_name x n /\ constructs exported (slab_repr t r ro n v i) "SlabSE"
    [("thick", t); ("ri", r); ("rough", ro); ("name", x); ("vfsolv", v); ("interface", i)].
Proof. intros. exists (name_repr n). split; [apply name_denotes|apply slab_constructs; auto]. Qed.
Lemma mixed_reads t a b v ro n i :
  positional t -> positional a -> positional b -> positional v -> positional ro -> value_text i ->
  exists x, denotes_name x n /\ constructs exported (mixed_repr t a b v ro n i) "MixedSlabSE"
    [("thick", t); ("ri_A", a); ("ri_B", b); ("vf_B", v); ("rough", ro); ("name", x); ("interface", i)].
Proof. intros. exists (name_repr n). split; [apply name_denotes|apply mixed_constructs; auto]. Qed.
Lemma model_reads s n o : positional s -> value_text o -> o <> "" ->
  exists x, denotes_name x n /\ constructs_renamed exported (model_repr s n o ++ ")") "ReflectModel" "ReflectModelSE"
    [("structure", s); ("name", x); ("delta_offset", o ++ " ")].
Proof. intros. exists (name_repr n). split; [apply name_denotes|apply model_renamed; auto]. Qed.
Lemma none_is_no_literal : literal "None" = None.
Proof. reflexivity. Qed.
