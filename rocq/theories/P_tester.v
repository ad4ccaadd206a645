(** * Lemmas: refellips.test *)

Require Import List String Ascii ZArith Bool Lia.
From Verif Require Import Base M_tester Spec_tester.
Import ListNotations.
Open Scope list_scope.
Open Scope string_scope.

Lemma vs_snoc n : vs n ++ "v" = vs (S n).
Proof. induction n as [|n IH]; [reflexivity|]. cbn [vs append]. f_equal. exact IH. Qed.
Lemma flag_vs n : flag n ("-" ++ vs n).
Proof.
  induction n as [|n IH]; [constructor|].
  rewrite <- vs_snoc. change ("-" ++ (vs n ++ "v")) with (("-" ++ vs n) ++ "v"). constructor. exact IH.
Qed.
Lemma flag_unique n s : flag n s -> s = "-" ++ vs n.
Proof.
  induction 1 as [|n s H IH]; [reflexivity|]. rewrite IH, <- vs_snoc. reflexivity.
Qed.

Lemma selection_spec l :
  selection l (if (l =? "fast")%string then ["-m"; "not slow"] else if negb (l =? "full")%string then ["-m"; l] else []).
Proof.
  destruct (String.eqb_spec l "fast") as [->|N]; [constructor|].
  destruct (String.eqb_spec l "full") as [->|N']; [constructor|]. constructor; auto.
Qed.
Lemma selection_unique l a b : selection l a -> selection l b -> a = b.
Proof. intros A B. inversion A; subst; inversion B; subst; congruence. Qed.

Lemma verb_spec int_of v a :
  (if verb_true v then rbind (verb_int int_of v) (fun z => Ok (if (1 <? z)%Z then ["-" ++ vs (Z.to_nat (z - 1))] else []))
   else Ok []) = Ok a -> more_verbose int_of v a.
Proof.
  assert (G : forall z, v = VInt z \/ (exists s, v = VText s /\ s <> "" /\ int_of s = Some z) ->
    more_verbose int_of v (if (1 <? z)%Z then ["-" ++ vs (Z.to_nat (z - 1))] else [])).
  { intros z H. destruct (Z.ltb_spec 1 z) as [L|L].
    - apply (mv_high int_of v z (Z.to_nat (z - 1))); auto; [lia|apply flag_vs].
    - apply (mv_low int_of v z); auto. }
  destruct v as [|z|s]; cbn [verb_true verb_int rbind].
  - intros E. injection E as <-. constructor.
  - destruct (Z.eqb_spec z 0) as [->|N]; cbn [negb]; intros E; injection E as <-; [apply (mv_low int_of _ 0%Z); [lia|auto]|].
    apply G. auto.
  - destruct s as [|c s]; [intros E; injection E as <-; constructor|].
    destruct (int_of (String c s)) as [z|] eqn:I; cbn [rbind]; [|discriminate].
    intros E. injection E as <-. apply G. right. exists (String c s). split; [reflexivity|]. split; [discriminate|exact I].
Qed.

Theorem arguments int_of path name label verbose extra doctests coverage tests args :
  pytest_args int_of path name label verbose extra doctests coverage tests = Ok args <->
  doctests = false /\
  exists where_ opts verb sel what,
    path = Some where_ /\ more_verbose int_of verbose verb /\ selection label sel /\
    (extra = NoSeq /\ opts = [] \/ extra = ListOf opts \/ exists s, extra = TextOf s /\ opts = characters s) /\
    (tests = NoSeq /\ what = [name] \/ tests = ListOf what \/ exists s, tests = TextOf s /\ what = characters s) /\
    args = ("-l" :: opts ++ verb ++ (if coverage then [("--cov=" ++ where_)%string] else []) ++ sel ++ "--pyargs" :: what)%list.
Proof.
  unfold pytest_args. split.
  - intros H. destruct path as [w|]; [|discriminate]. destruct doctests; [discriminate|]. split; [reflexivity|].
    destruct (if seq_true extra then py_list extra else Ok []) as [opts|] eqn:EX; cbn [rbind] in H; [|discriminate].
    match type of H with rbind ?x _ = _ => destruct x as [verb|] eqn:EV end; cbn [rbind] in H; [|discriminate].
    match type of H with rbind ?x _ = _ => destruct x as [what|] eqn:EW end; cbn [rbind] in H; [|discriminate].
    injection H as <-.
    exists w, opts, verb. eexists. exists what. split; [reflexivity|]. split; [apply verb_spec; exact EV|].
    split; [apply selection_spec|]. split; [|split; [|reflexivity]].
    + destruct extra as [|l|s]; cbn [seq_true py_list] in EX.
      * left. injection EX as <-. auto.
      * right. left. destruct l; injection EX as <-; reflexivity.
      * right. right. exists s. split; [reflexivity|]. destruct s; injection EX as <-; reflexivity.
    + destruct tests as [|l|s]; cbn [py_list] in EW; injection EW as <-; eauto 6.
  - intros (-> & w & opts & verb & sel & what & -> & V & S & X & W & ->).
    assert (EX : (if seq_true extra then py_list extra else Ok []) = Ok opts).
    { destruct X as [[-> ->]|[->|[s [-> ->]]]]; [reflexivity|destruct opts; reflexivity|destruct s; reflexivity]. }
    rewrite EX. cbn [rbind].
    assert (EV : (if verb_true verbose then rbind (verb_int int_of verbose) (fun z => Ok (if (1 <? z)%Z then ["-" ++ vs (Z.to_nat (z - 1))] else []))
                  else Ok []) = Ok verb).
    { assert (G : forall z, verbose = VInt z \/ (exists s, verbose = VText s /\ s <> "" /\ int_of s = Some z) -> z <> 0%Z ->
        verb_true verbose = true /\ verb_int int_of verbose = Ok z).
      { intros z [->|(s & -> & N & E)] NZ; cbn [verb_true verb_int].
        - split; [apply negb_true_iff, Z.eqb_neq; auto|reflexivity].
        - rewrite E. split; [destruct s; congruence|reflexivity]. }
      destruct V as [| |v z L H|v z n s L H E F]; try reflexivity.
      - destruct (Z.eq_dec z 0) as [->|NZ].
        + destruct H as [->|(s & -> & N & E)]; [reflexivity|]. destruct s as [|c s]; [reflexivity|]. cbn [verb_true verb_int]. rewrite E. reflexivity.
        + destruct (G z H NZ) as [-> ->]. cbn [rbind]. destruct (Z.ltb_spec 1 z); [lia|reflexivity].
      - destruct (G z H ltac:(lia)) as [-> ->]. cbn [rbind]. destruct (Z.ltb_spec 1 z) as [_|]; [|lia].
        rewrite (flag_unique n s F). do 3 f_equal. f_equal. lia. }
    rewrite EV. cbn [rbind].
    assert (EW : py_list (match tests with NoSeq => ListOf [name] | _ => tests end) = Ok what).
    { destruct W as [[-> ->]|[->|[s [-> ->]]]]; reflexivity. }
    rewrite EW. cbn [rbind]. rewrite (selection_unique _ _ _ S (selection_spec label)). reflexivity.
Qed.

Theorem verdict int_of path name label verbose extra doctests coverage tests main :
  let line := pytest_args int_of path name label verbose extra doctests coverage tests in
  let out := run_tests int_of path name label verbose extra doctests coverage tests main in
  (forall e, line = Raise e -> out = (None, Raise e)) /\
  (forall args, line = Ok args -> fst out = Some args /\
     (snd out = Ok true <-> succeeds (main args) /\ main args <> Exited CNone) /\
     (forall e, snd out = Raise e <-> main args = Crashed e)).
Proof.
  intros line out. unfold out, run_tests. fold line. split; [intros e ->; reflexivity|]. intros args ->. cbn [fst snd].
  split; [reflexivity|]. unfold succeeds. destruct (main args) as [z|c|e].
  - destruct (Z.eqb_spec z 0) as [->|N]; (split; [|intros e; split; discriminate]).
    + split; [intros _; split; [auto|discriminate]|auto].
    + split; [discriminate|]. intros [[H|[H|H]] _]; congruence.
  - destruct c as [|z|s]; (split; [|intros e; split; discriminate]).
    + split; [discriminate|]. intros [_ H]. congruence.
    + destruct (Z.eqb_spec z 0) as [->|N].
      * split; [intros _; split; [auto|discriminate]|auto].
      * split; [discriminate|]. intros [[H|[H|H]] _]; congruence.
    + split; [discriminate|]. intros [[H|[H|H]] _]; congruence.
  - split; [split; [discriminate|intros [[H|[H|H]] _]; discriminate]|].
    intros e'. split; intros H; injection H as ->; reflexivity.
Qed.

Theorem refusals int_of path name label verbose extra doctests coverage tests e :
  pytest_args int_of path name label verbose extra doctests coverage tests = Raise e <->
  path = None /\ e = KeyError \/
  path <> None /\ doctests = true /\ e = ValueError \/
  path <> None /\ doctests = false /\ e = ValueError /\ exists s, verbose = VText s /\ s <> "" /\ int_of s = None.
Proof.
  unfold pytest_args. destruct path as [w|].
  2:{ split; [intros H; injection H as <-; auto|]. intros [[_ ->]|[[H _]|[H _]]]; [reflexivity|congruence|congruence]. }
  destruct doctests.
  { split; [intros H; injection H as <-; right; left; repeat split; discriminate|].
    intros [[H _]|[(_ & _ & ->)|(_ & H & _)]]; [discriminate|reflexivity|discriminate]. }
  assert (EX : exists o, (if seq_true extra then py_list extra else Ok []) = Ok o).
  { destruct extra as [|l|s]; cbn [seq_true py_list]; [eauto|destruct l; eauto|destruct s; eauto]. }
  destruct EX as [o ->]. cbn [rbind].
  assert (EW : exists o, py_list (match tests with NoSeq => ListOf [name] | _ => tests end) = Ok o).
  { destruct tests; cbn [py_list]; eauto. }
  destruct EW as [o' EW].
  assert (G : forall v, rbind (Ok v) (fun verb : list string =>
     rbind (py_list (match tests with NoSeq => ListOf [name] | _ => tests end)) (fun what =>
        Ok (["-l"] ++ o ++ verb ++ (if coverage then [("--cov=" ++ w)%string] else []) ++
            (if (label =? "fast")%string then ["-m"; "not slow"] else if negb (label =? "full")%string then ["-m"; label] else []) ++
            ["--pyargs"] ++ what)%list)) <> Raise e).
  { intros v. cbn [rbind]. rewrite EW. cbn [rbind]. discriminate. }
  destruct verbose as [|z|s]; cbn [verb_true].
  - split; [intros H; exfalso; exact (G _ H)|].
    intros [[H _]|[(_ & H & _)|(_ & _ & _ & s & H & _)]]; discriminate.
  - cbn [verb_int rbind]. destruct (negb (z =? 0)%Z); (split; [intros H; exfalso; exact (G _ H)|]);
    intros [[H _]|[(_ & H & _)|(_ & _ & _ & s & H & _)]]; discriminate.
  - destruct s as [|c s].
    + split; [intros H; exfalso; exact (G _ H)|].
      intros [[H _]|[(_ & H & _)|(_ & _ & _ & s & H & N & _)]]; [discriminate|discriminate|]. injection H as <-. congruence.
    + cbn [verb_int]. destruct (int_of (String c s)) as [z|] eqn:I.
      * split; [intros H; exfalso; exact (G _ H)|].
        intros [[H _]|[(_ & H & _)|(_ & _ & _ & s' & H & _ & N)]]; [discriminate|discriminate|]. injection H as <-. congruence.
      * cbn [rbind]. split.
        -- intros H. injection H as <-. right. right. split; [discriminate|]. split; [reflexivity|]. split; [reflexivity|].
           exists (String c s). split; [reflexivity|]. split; [discriminate|exact I].
        -- intros [[H _]|[(_ & H & _)|(_ & _ & -> & _)]]; [discriminate|discriminate|reflexivity].
Qed.
