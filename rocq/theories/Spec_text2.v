(** * Specification: reading a Python text - string literals and calls *)

Require Import List Bool String Ascii Arith.
From Verif Require Import Spec_text.
Import ListNotations.
Open Scope string_scope.

(** ** string literals *)
Definition hexvalue (c : ascii) : option nat :=
  let k := nat_of_ascii c in
  if Nat.leb 48 k && Nat.leb k 57 then Some (k - 48)
  else if Nat.leb 97 k && Nat.leb k 102 then Some (k - 87) else None.
(** the rest of a literal with quote q *)
Fixpoint literal_body (q : ascii) (s : string) : option string :=
  match s with
  | EmptyString => None
  | String c s' =>
      if Ascii.eqb c q then match s' with EmptyString => Some EmptyString | _ => None end
      else if Ascii.eqb c "092" then
        match s' with
        | String "n" r => option_map (String "010") (literal_body q r)
        | String "r" r => option_map (String "013") (literal_body q r)
        | String "t" r => option_map (String "009") (literal_body q r)
        | String "092" r => option_map (String "092") (literal_body q r)
        | String "039" r => option_map (String "039") (literal_body q r)
        | String "034" r => option_map (String "034") (literal_body q r)
        | String "x" (String a (String b r)) =>
            match hexvalue a, hexvalue b with
            | Some i, Some j => option_map (String (ascii_of_nat (16 * i + j))) (literal_body q r)
            | _, _ => None
            end
        | _ => None
        end
      else option_map (String c) (literal_body q s')
  end.
Definition literal (s : string) : option string :=
  match s with
  | String q s' => if Ascii.eqb q "039" || Ascii.eqb q "034" then literal_body q s' else None
  | EmptyString => None
  end.

(** a text that denotes a name: None or a string *)
Definition denotes_name (x : string) (n : option string) : Prop :=
  match n with Some s => literal x = Some s | None => x = "None" end.

(** ** calls: name(argument, ..., key=argument, ...) *)
(** the rest of an argument list up to its closing bracket, split at the commas that are not
    within brackets or quotes; [cur] is the part of the argument read so far *)
Fixpoint split_arguments (st : lexstate) (cur : string) (s : string) : option (list string) :=
  match s with
  | EmptyString => None
  | String c s' =>
      match st with
      | ([], Code) =>
          if Ascii.eqb c "," then option_map (cons cur) (split_arguments st "" s')
          else if Ascii.eqb c ")" then match s' with EmptyString => Some [cur] | _ => None end
          else match lex1 (Some st) c with
               | Some st' => split_arguments st' (cur ++ String c EmptyString) s'
               | None => None
               end
      | _ => match lex1 (Some st) c with
             | Some st' => split_arguments st' (cur ++ String c EmptyString) s'
             | None => None
             end
      end
  end.
Definition letter (c : ascii) : bool :=
  let k := nat_of_ascii c in
  Nat.leb 65 k && Nat.leb k 90 || Nat.leb 97 k && Nat.leb k 122 || Nat.leb 48 k && Nat.leb k 57 || Nat.eqb k 95.
(** a word, and what follows it *)
Fixpoint word (s : string) : string * string :=
  match s with
  | String c s' => if letter c then let '(w, r) := word s' in (String c w, r) else (EmptyString, s)
  | EmptyString => (EmptyString, EmptyString)
  end.
Fixpoint skip (s : string) : string :=
  match s with String " " s' => skip s' | _ => s end.
(** an argument: its keyword, if it has one, and its text *)
Definition argument (s : string) : option string * string :=
  let t := skip s in
  let '(w, r) := word t in
  match w, skip r with
  | EmptyString, _ => (None, t)
  | _, String "=" r' => (Some w, skip r')
  | _, _ => (None, t)
  end.
Definition call_of (s : string) : option (string * list (option string * string)) :=
  match word s with
  | (EmptyString, _) => None
  | (f, String "(" r) => option_map (fun l => (f, map argument l)) (split_arguments ([], Code) "" r)
  | _ => None
  end.

(** no comma outside brackets and quotes *)
Fixpoint no_comma (st : option lexstate) (s : string) : bool :=
  match s with
  | EmptyString => true
  | String c s' => negb (Ascii.eqb c "," && match st with Some ([], Code) => true | _ => false end) && no_comma (lex1 st c) s'
  end.
(** the text of one value *)
Definition value_text (s : string) : Prop :=
  complete s /\ no_comma (Some ([], Code)) s = true /\ skip s = s.
(** ... that is not mistaken for key=value *)
Definition positional (s : string) : Prop := value_text s /\ argument s = (None, s).

(** arguments given to a function with these parameters: by position, then by name *)
Fixpoint bind (signature : list string) (args : list (option string * string)) : list (string * string) :=
  match args, signature with
  | (None, t) :: a, p :: ps => (p, t) :: bind ps a
  | (Some k, t) :: a, _ => (k, t) :: bind signature a
  | _, _ => []
  end.
(** the text is a call of [f], one of the classes, and gives each parameter of it a value *)
Definition constructs (classes : list (string * list string)) (s f : string) (values : list (string * string)) : Prop :=
  exists args signature, call_of s = Some (f, args) /\ In (f, signature) classes /\ bind signature args = values /\
    map fst values = signature.
(** the text is not a call of one of the classes *)
Definition constructs_nothing (classes : list (string * list string)) (s : string) : Prop :=
  forall f args, call_of s = Some (f, args) -> ~ In f (map fst classes).

(** "label: value" *)
Definition labelled (s : string) : option (string * string) :=
  match word (skip s) with (w, String ":" r) => Some (w, skip r) | _ => None end.
(** "label: value, label: value" *)
Definition entries (s : string) : option (list (option (string * string))) :=
  option_map (map labelled) (split_arguments ([], Code) "" (s ++ ")")).
(** but for the name of the class, the text gives each parameter of [f] a value *)
Definition constructs_renamed (classes : list (string * list string)) (s f' f : string) (values : list (string * string)) : Prop :=
  exists args signature, call_of s = Some (f', args) /\ In (f, signature) classes /\ bind signature args = values /\
    (forall p, In p signature <-> In p (map fst values)).
