(** * Datasets over their lifetime (C103-C106).  [acts pf empty_life l] is what there is after the
    statements l, starting with nothing; an exception is caught and the run goes on. *)

Require Import Reals List Bool String Ascii.
From Verif Require Import Base M_disp M_data Spec_data M_life Spec_life P_life P_life2 P_life3.
Import ListNotations.
Open Scope list_scope.
Open Scope R_scope.

(** ** C103: every dataset always is a table of points *)
Theorem C103_tables : forall pf l, equal_throughout pf empty_life l ->
  Forall (fun e => exists pts, holds (lf_heap (acts pf empty_life l)) (en_data e) pts) (lf_sets (acts pf empty_life l)).
Proof. exact always_tables. Qed.
Print Assumptions C103_tables.

Example C103_example : forall pf, equal_throughout pf empty_life
   (made true [] ++ [assign; L_load 0 (ByName []); L_mask 0 MNone; L_write 3 1 (Some 0); L_new (L_copy 0) tab false []]).
Proof. exact table_example. Qed.

(** ** C104: columns that were assigned or loaded belong to the dataset *)
Theorem C104_own_columns : forall pf l0 o l d,
  let s := acts pf empty_life l0 in let s1 := snd (act pf s o) in let s2 := acts pf s1 l in
  fst (act pf s o) = Ok tt -> own_columns s d o -> Forall (fun o => ~ about d o /\ ~ folding_copy o) l ->
  get_data (lf_heap s2) (set_at s2 d) = get_data (lf_heap s1) (set_at s1 d).
Proof. exact own_columns_stay. Qed.
Print Assumptions C104_own_columns.

(** the flag for folded delta, the file and the metadata never change *)
Theorem C104_fixed : forall pf l s d e, nth_error (lf_sets s) d = Some e ->
  exists e', nth_error (lf_sets (acts pf s l)) d = Some e' /\ en_metadata e' = en_metadata e /\
    ds_flipped (en_data e') = ds_flipped (en_data e) /\ ds_weighted (en_data e') = ds_weighted (en_data e) /\
    ds_file (en_data e') = ds_file (en_data e) /\ ds_delim (en_data e') = ds_delim (en_data e).
Proof. exact fixed_attributes. Qed.
Print Assumptions C104_fixed.

Example C104_example : forall pf, let s := acts pf empty_life (made false []) in
  fst (act pf s assign) = Ok tt /\ own_columns s 0 assign /\
  Forall (fun o => ~ about 0 o /\ ~ folding_copy o) further /\
  get_data (lf_heap (snd (act pf s assign))) (set_at (snd (act pf s assign)) 0) =
    Ok (A1 (two 400 450), A1 (two 70 70), A1 (two 10 20), A1 (two 80 200)).
Proof. exact own_example. Qed.

(** a folding copy of the dataset does change it *)
Theorem C104_copies_refuted : forall pf, let s := acts pf empty_life (made false []) in let s1 := snd (act pf s assign) in
  let s2 := acts pf s1 [L_new (L_copy 0) tab true []] in
  get_delta (lf_heap s1) (set_at s1 0) = Ok (A1 (two 80 200)) /\
  get_delta (lf_heap s2) (set_at s2 0) = Ok (A1 (two 80 160)).
Proof. exact folding_copy_spoils. Qed.
Print Assumptions C104_copies_refuted.

(** ** C105: DataSE(data, mask=m) does not mask *)
Theorem C105_keywords_ignored : forall pf s x delim r kwds,
  fst (act pf s (L_new x delim r kwds)) = Ok tt ->
  let s1 := snd (act pf s (L_new x delim r kwds)) in let d := set_at s1 (List.length (lf_sets s)) in
  ds_mask d = MBool (map (fun _ => true) (arr (lf_heap s1) (ds_wav d))) /\
  (let s2 := snd (act pf s (L_new x delim r [])) in
   lf_heap s2 = lf_heap s1 /\ set_at s2 (List.length (lf_sets s)) = d).
Proof. exact keywords_do_not_mask. Qed.
Print Assumptions C105_keywords_ignored.

Theorem C105_mask_argument_refuted : forall pf,
  let s := acts pf empty_life (made false [("mask"%string, MBool [true; false])]) in
  get_data (lf_heap s) (set_at s 0) = Ok (A1 (two 500 600), A1 (two 65 65), A1 (two 30 40), A1 (two 90 270)) /\
  map en_metadata (lf_sets s) = [[("mask"%string, MBool [true; false])]].
Proof. exact mask_keyword. Qed.
Print Assumptions C105_mask_argument_refuted.

(** ** C106: a data assignment that raises leaves the dataset half assigned *)
Theorem C106_atomic_refuted : forall pf, let s := acts pf empty_life (made false []) in
  let three := [Some 1; Some 2; Some 3] in
  let o := L_columns 0 [Ok three; Ok three; Ok three] in
  fst (act pf s o) = Raise IndexError /\
  (exists pts, holds (lf_heap s) (set_at s 0) pts) /\
  let s1 := snd (act pf s o) in
  (forall pts, ~ holds (lf_heap s1) (set_at s1 0) pts) /\ get_data (lf_heap s1) (set_at s1 0) = Raise IndexError.
Proof. exact half_assigned. Qed.
Print Assumptions C106_atomic_refuted.

(** every other statement that raises leaves everything as it was *)
Theorem C106_others_atomic : forall pf s o e, (forall d cols, o <> L_columns d cols) ->
  fst (act pf s o) = Raise e -> snd (act pf s o) = s.
Proof. exact others_atomic. Qed.
Print Assumptions C106_others_atomic.
Example C106_example : forall pf, fst (act pf (acts pf empty_life (made false [])) (L_load 0 (ByName []))) = Raise ValueError.
Proof. exact load_fails. Qed.
