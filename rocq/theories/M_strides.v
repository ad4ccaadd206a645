(** * Model of open_M2000file with integer take_every and dropdatapoints, also negative
    (refellips/dataSE.py 548-703); M_instr has those that are not negative. *)

Require Import Reals ZArith List Bool String Ascii.
From Coquelicot Require Import Complex.
Require Import List.
From Verif Require Import Base M_model M_data M_ep4 M_instr.
Import ListNotations.
Open Scope list_scope.
Open Scope R_scope.

(** a[::n]: a negative step starts from the last element *)
Definition slice_step {A} (n : Z) (l : list A) : result (list A) :=
  match n with
  | Z0 => Raise ValueError
  | Zpos p => Ok (stride_from (Pos.to_nat p) 0 l)
  | Zneg p => Ok (stride_from (Pos.to_nat p) 0 (rev l))
  end.

(** dataSE.py:625-663 *)
Definition M2000_standard_z (pf : string -> option num) (dropdatapoints : Z) (skiplines : nat) (lines : list string)
  : result loaded :=
  rbind (m2000_loop pf (List.length lines) (skipn skiplines lines)) (fun data =>
  rbind (slice_step dropdatapoints data) (fun data =>
  match data with
  | [] => Raise IndexError
  | _ => Ok (Loaded (map (fun r => nth 0 r None) data) (map (fun r => nth 1 r None) data)
                    (map (fun r => nth 2 r None) data) (map (fun r => nth 3 r None) data) false)
  end)).

(** dataSE.py:691-701 *)
Definition kinetic_dataset_z (dropdatapoints : Z) (rows : list krow) : result loaded :=
  rmap (fun rs => Loaded (map (fun r => fst (fst (fst (fst r)))) rs) (map (fun r => snd (fst (fst (fst r)))) rs)
                         (map (fun r => snd (fst (fst r))) rs) (map (fun r => snd (fst r)) rs) false)
       (slice_step dropdatapoints rows).

(** dataSE.py:688-703; idx % take_every has the sign of take_every *)
Fixpoint kinetic_loop_z (take_every dropdatapoints : Z) (rows : list krow) (idx : nat) (times : list R)
    (d : list (R * loaded)) : result (list (R * loaded)) :=
  match times with
  | [] => Ok d
  | t :: ts =>
      if (take_every =? 0)%Z then Raise OtherError      (* ZeroDivisionError *)
      else if (Z.of_nat idx mod take_every =? 0)%Z then
        rbind (kinetic_dataset_z dropdatapoints (group_rows rows t)) (fun x =>
        kinetic_loop_z take_every dropdatapoints rows (S idx) ts (dict_set req_b (round1 (t * 60)) x d))
      else kinetic_loop_z take_every dropdatapoints rows (S idx) ts d
  end.
Definition M2000_kinetic_z (take_every dropdatapoints : Z) (rows : list krow) : result (list (R * loaded)) :=
  kinetic_loop_z take_every dropdatapoints rows 0 (group_times rows) [].

(** dataSE.py:584-622 *)
Definition open_M2000file_z (pf : string -> option num) (f : file_arg) (table : list krow)
    (take_every dropdatapoints : Z) : result (list (string * string) * one_or_dict) :=
  let lines := match f with ByName l => l | ByHandle l => l end in
  let '(_, ls) := readline lines in
  let '(l1, ls) := readline ls in
  let '(l2, ls) := readline ls in
  let again := match f with ByName _ => lines | ByHandle _ => ls end in
  if String.eqb (chop 1 l2) "nm" then
    rbind (m2000_header (chop 1 l1)) (fun md =>
    rmap (fun x => (md, OneSet x)) (M2000_standard_z pf dropdatapoints 3 again))
  else if String.eqb (chop 1 l2) "Dynamic" then
    rbind (m2000_header (chop 1 l1)) (fun md =>
    rmap (fun d => (md, Dict d)) (M2000_kinetic_z take_every dropdatapoints table))
  else Raise ValueError.
