(** * Specification: lines that are not measurements *)

Require Import List Bool String Ascii.
From Verif Require Import Base M_data M_ep4 M_instr Spec_instr.
Import ListNotations.
Open Scope list_scope.

(** of the fields number [is] the first one that holds no number is missing (IndexError) or
    something else (ValueError) *)
Definition refused (pf : string -> option num) (fs : list string) (is : list nat) (e : exn) : Prop :=
  exists good i more vs, is = good ++ i :: more /\ numbers pf fs good vs /\
    (nth_error fs i = None /\ e = IndexError \/ exists t, nth_error fs i = Some t /\ pf t = None /\ e = ValueError).
Definition refused_line (pf : string -> option num) (l : string) (is : list nat) (e : exn) : Prop :=
  exists fs, fields tab l fs /\ refused pf fs is e.
Definition good_line (pf : string -> option num) (l : string) (is : list nat) : Prop :=
  exists fs vs, fields tab l fs /\ numbers pf fs is vs.

(** what the record of an M2000 file may be instead: a line that is wrong, after good ones *)
Definition refused_record (pf : string -> option num) (ls : list string) (e : exn) : Prop :=
  match ls with
  | [] => False
  | l1 :: ls2 =>
      ~ free tab l1 /\
      (refused_line pf l1 [0; 1; 2; 3; 4; 5]%nat e \/
       good_line pf l1 [0; 1; 2; 3; 4; 5]%nat /\
       match ls2 with
       | [] => e = IndexError                     (* the file ends here *)
       | l2 :: ls3 =>
           refused_line pf l2 [2; 3; 4]%nat e \/
           good_line pf l2 [2; 3; 4]%nat /\
           match ls3 with
           | [] => e = IndexError
           | l3 :: _ => refused_line pf l3 [2; 3; 4]%nat e
           end
       end)
  end.
