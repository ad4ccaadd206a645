(** * Specification: when brackets and quotes of a Python text are closed *)

Require Import List Bool String Ascii.
Import ListNotations.
Open Scope string_scope.

(** outside string literals; inside one with quote q; after a backslash inside one *)
Inductive lexmode := Code | Inside (q : ascii) | Escape (q : ascii).
(** the open brackets, innermost first *)
Definition lexstate := (list ascii * lexmode)%type.

Definition closes (c : ascii) : option ascii :=
  if Ascii.eqb c ")" then Some "("%char else if Ascii.eqb c "]" then Some "["%char
  else if Ascii.eqb c "}" then Some "{"%char else None.
Definition opens (c : ascii) : bool := Ascii.eqb c "(" || Ascii.eqb c "[" || Ascii.eqb c "{".

Definition lex1 (st : option lexstate) (c : ascii) : option lexstate :=
  match st with
  | None => None
  | Some (stack, m) =>
      match m with
      | Escape q => Some (stack, Inside q)
      | Inside q => if Ascii.eqb c q then Some (stack, Code)
                    else if Ascii.eqb c "092" then Some (stack, Escape q)
                    else if Ascii.eqb c "010" then None          (* a literal does not span lines *)
                    else Some (stack, Inside q)
      | Code => if Ascii.eqb c "039" || Ascii.eqb c "034" then Some (stack, Inside c)
                else if opens c then Some (c :: stack, Code)
                else match closes c with
                     | Some o => match stack with
                                 | o' :: stack' => if Ascii.eqb o o' then Some (stack', Code) else None
                                 | [] => None
                                 end
                     | None => Some (stack, Code)
                     end
      end
  end.
Fixpoint lex (st : option lexstate) (s : string) : option lexstate :=
  match s with EmptyString => st | String c s' => lex (lex1 st c) s' end.

(** every bracket and quote that is opened is closed, and nothing else is *)
Definition complete (s : string) : Prop := forall stack, lex (Some (stack, Code)) s = Some (stack, Code).

(** character [c] does not occur in [s] *)
Fixpoint lacks (c : ascii) (s : string) : Prop := match s with EmptyString => True | String a s => a <> c /\ lacks c s end.
