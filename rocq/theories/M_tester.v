(** * Model of refellips.test, refellips/__init__.py 27-78 *)

Require Import List String Ascii ZArith Bool.
From Verif Require Import Base.
Import ListNotations.
Open Scope list_scope.
Open Scope string_scope.

(** an argument that is None, a list (or tuple) of texts, or a text *)
Inductive seqarg := NoSeq | ListOf (l : list string) | TextOf (s : string).

(** the characters of a text, each as a text *)
Fixpoint characters (s : string) : list string :=
  match s with EmptyString => [] | String c s' => String c EmptyString :: characters s' end.

(** list(x) *)
Definition py_list (x : seqarg) : result (list string) :=
  match x with NoSeq => Raise TypeError | ListOf l => Ok l | TextOf s => Ok (characters s) end.
Definition seq_true (x : seqarg) : bool :=
  match x with NoSeq => false | ListOf l => match l with [] => false | _ => true end
             | TextOf s => match s with EmptyString => false | _ => true end end.

(** verbose: None, an integer (True is 1, False is 0) or a text; other types are not modelled *)
Inductive verbosity := VNone | VInt (z : Z) | VText (s : string).
Definition verb_true (v : verbosity) : bool :=
  match v with VNone => false | VInt z => negb (z =? 0)%Z | VText s => match s with EmptyString => false | _ => true end end.
(** int(verbose); [int_of] is Python's int of a text, [None] where it raises ValueError *)
Definition verb_int (int_of : string -> option Z) (v : verbosity) : result Z :=
  match v with
  | VNone => Raise TypeError
  | VInt z => Ok z
  | VText s => match int_of s with Some z => Ok z | None => Raise ValueError end
  end.

(** the code of a SystemExit *)
Inductive exitcode := CNone | CInt (z : Z) | CText (s : string).
(** what pytest.main does: returns a code, raises SystemExit or another exception *)
Inductive outcome := Returned (z : Z) | Exited (c : exitcode) | Crashed (e : exn).

(** "v" * n *)
Fixpoint vs (n : nat) : string := match n with O => EmptyString | S n => String "v" (vs n) end.

(** __init__.py 46-71: the arguments for pytest.  [path]: absolute path of the module if it is imported
    (sys.modules), a missing module is a KeyError *)
Definition pytest_args (int_of : string -> option Z) (path : option string) (module_name label : string)
    (verbose : verbosity) (extra_argv : seqarg) (doctests coverage : bool) (tests : seqarg) : result (list string) :=
  match path with
  | None => Raise KeyError
  | Some module_path =>
      if doctests then Raise ValueError
      else
        rbind (if seq_true extra_argv then py_list extra_argv else Ok []) (fun extra =>
        rbind (if verb_true verbose
               then rbind (verb_int int_of verbose) (fun v =>
                      Ok (if (1 <? v)%Z then ["-" ++ vs (Z.to_nat (v - 1))] else []))
               else Ok []) (fun verb =>
        let cov := if coverage then ["--cov=" ++ module_path] else [] in
        let sel := if (label =? "fast")%string then ["-m"; "not slow"]
                   else if negb (label =? "full")%string then ["-m"; label] else [] in
        let names := match tests with NoSeq => ListOf [module_name] | _ => tests end in
        rbind (py_list names) (fun what =>
        Ok (["-l"] ++ extra ++ verb ++ cov ++ sel ++ ["--pyargs"] ++ what)%list)))
  end.

(** __init__.py 73-78: what pytest was called with, if it was, and the answer *)
Definition run_tests (int_of : string -> option Z) (path : option string) (module_name label : string)
    (verbose : verbosity) (extra_argv : seqarg) (doctests coverage : bool) (tests : seqarg)
    (main : list string -> outcome) : option (list string) * result bool :=
  match pytest_args int_of path module_name label verbose extra_argv doctests coverage tests with
  | Raise e => (None, Raise e)
  | Ok args =>
      (Some args,
       match main args with
       | Returned z => Ok (z =? 0)%Z
       | Exited c => Ok (match c with CInt z => (z =? 0)%Z | _ => false end)
       | Crashed e => Raise e
       end)
  end.
