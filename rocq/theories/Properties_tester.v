(** * Property C149: refellips.test *)

Require Import List String Ascii ZArith Bool.
From Verif Require Import Base M_tester Spec_tester P_tester.
Import ListNotations.
Open Scope list_scope.
Open Scope string_scope.

(** The command line given to pytest: "-l", the extra options, -v repeated, coverage of the package, the marker
    expression, and after --pyargs what is to be tested; a text is taken for the list of its characters. *)
Theorem C149_arguments : forall int_of path name label verbose extra doctests coverage tests args,
  pytest_args int_of path name label verbose extra doctests coverage tests = Ok args <->
  doctests = false /\
  exists where_ opts verb sel what,
    path = Some where_ /\ more_verbose int_of verbose verb /\ selection label sel /\
    (extra = NoSeq /\ opts = [] \/ extra = ListOf opts \/ exists s, extra = TextOf s /\ opts = characters s) /\
    (tests = NoSeq /\ what = [name] \/ tests = ListOf what \/ exists s, tests = TextOf s /\ what = characters s) /\
    args = "-l" :: opts ++ verb ++ (if coverage then [("--cov=" ++ where_)%string] else []) ++ sel ++ "--pyargs" :: what.
Proof. exact arguments. Qed.
Print Assumptions C149_arguments.

(** When it refuses: the package is not imported, doctests are asked for, verbose is a text that is no number. *)
Theorem C149_refusals : forall int_of path name label verbose extra doctests coverage tests e,
  pytest_args int_of path name label verbose extra doctests coverage tests = Raise e <->
  path = None /\ e = KeyError \/
  path <> None /\ doctests = true /\ e = ValueError \/
  path <> None /\ doctests = false /\ e = ValueError /\ exists s, verbose = VText s /\ s <> "" /\ int_of s = None.
Proof. exact refusals. Qed.
Print Assumptions C149_refusals.

(** Pytest is called at most once, with that command line; the answer is True exactly when pytest ends with
    status 0, except that a SystemExit without a code counts as failure. *)
Theorem C149_verdict : forall int_of path name label verbose extra doctests coverage tests main,
  let line := pytest_args int_of path name label verbose extra doctests coverage tests in
  let out := run_tests int_of path name label verbose extra doctests coverage tests main in
  (forall e, line = Raise e -> out = (None, Raise e)) /\
  (forall args, line = Ok args -> fst out = Some args /\
     (snd out = Ok true <-> succeeds (main args) /\ main args <> Exited CNone) /\
     (forall e, snd out = Raise e <-> main args = Crashed e)).
Proof. exact verdict. Qed.
Print Assumptions C149_verdict.

(** success as Python sees it is not always reported as True, *)
Theorem C149_success_refuted : exists args main,
  pytest_args (fun _ => None) (Some "/p") "refellips" "fast" (VInt 1) NoSeq false false NoSeq = Ok args /\
  succeeds (main args) /\
  snd (run_tests (fun _ => None) (Some "/p") "refellips" "fast" (VInt 1) NoSeq false false NoSeq main) = Ok false.
Proof. eexists. exists (fun _ => Exited CNone). split; [reflexivity|]. split; [right; right; reflexivity|reflexivity]. Qed.
Print Assumptions C149_success_refuted.

(** ... and the name of one test module given as a text does not reach pytest. *)
Theorem C149_text_refuted : exists args tests,
  pytest_args (fun _ => None) (Some "/p") "refellips" "full" (VInt 1) NoSeq false false (TextOf tests) = Ok args /\
  ~ In tests args.
Proof.
  eexists. exists "refellips.tests". split; [reflexivity|]. cbn.
  intros H. repeat (destruct H as [H|H]; [discriminate H|]). exact H.
Qed.
Print Assumptions C149_text_refuted.

(** test(), test(verbose=3) and test("slow", tests=["a", "b"], coverage=True) *)
Example C149_example :
  pytest_args (fun _ => None) (Some "/p") "refellips" "fast" (VInt 1) NoSeq false false NoSeq =
    Ok ["-l"; "-m"; "not slow"; "--pyargs"; "refellips"] /\
  pytest_args (fun _ => None) (Some "/p") "refellips" "full" (VInt 3) NoSeq false false NoSeq =
    Ok ["-l"; "-vv"; "--pyargs"; "refellips"] /\
  pytest_args (fun _ => None) (Some "/p") "refellips" "slow" (VInt 1) NoSeq false true (ListOf ["a"; "b"]) =
    Ok ["-l"; "--cov=/p"; "-m"; "slow"; "--pyargs"; "a"; "b"].
Proof. repeat split. Qed.
