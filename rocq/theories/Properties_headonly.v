(** * Horiba files whose table has no rows (C154), and the length of a dataset with the mask None *)

Require Import Reals List Bool String Ascii.
From Verif Require Import Base M_data Spec_data P_data M_instr Spec_instr P_instr4 Spec_accept P_headonly.
Import ListNotations.
Open Scope list_scope.
Open Scope R_scope.

(** ** C154: the section DATA consists of the column names only.  Then len(metadata["DATA"]) counts
    characters (dataSE.py:516-522, 532), and so many lines less one of what follows the section are
    read as rows *)
Theorem C154_column_names_only : forall pf lines secs ns refl lo hi header names angle a,
  horiba 0 lines secs ns -> NoDup (map sec_label secs) -> In (Section "DATA" [header] true) secs ->
  fields " " header names -> NoDup names ->
  In "nm"%string names -> In "Psi"%string names -> In "Delta"%string names ->
  In (Section "INCIDENCE ANGLE" [angle] true) secs -> pf (substring 0 5 angle) = Some a ->
  exists before hd after, lines = before ++ hd :: after /\ trimmed hd header /\ (0 < List.length before)%nat /\
    forall contents xs, nonblank after contents -> Forall2 (data_row pf names) (firstn (String.length header - 1) contents) xs ->
    exists x sel, open_HORIBAfile pf true lines refl lo hi = Ok (map (fun s => (sec_label s, filed s)) secs, x) /\
      those (fun r => between lo hi (fst (fst r))) xs sel /\
      stores x refl (map (fun r => (fst (fst r), a, snd (fst r), snd r)) sel).
Proof. exact open_head_only. Qed.
Print Assumptions C154_column_names_only.

(** so a file without a row in its table can give a dataset with a point *)
Theorem C154_no_rows_no_points_refuted : exists pf lines secs ns x pt,
  horiba 0 lines secs ns /\ NoDup (map sec_label secs) /\ In (Section "DATA" ["nm Psi Delta"%string] true) secs /\
  open_HORIBAfile pf true lines false None None = Ok x /\ stores (snd x) false [pt].
Proof. exact ex_head_invents. Qed.
Print Assumptions C154_no_rows_no_points_refuted.

Example C154_example : horiba 0 ex_head ex_head_secs [0; 3]%nat /\
  exists x, open_HORIBAfile ex_pf true ex_head false None None = Ok x /\
    stores (snd x) false [(Some 400, Some 70, Some 20, Some 100)].
Proof. exact (conj ex_head_file ex_head_reads). Qed.

(** ** C64: with the mask None the arrays have an axis more, but len() counts the points *)
Theorem C64_none_length : forall h d pts, holds h d pts -> ds_mask d = MNone -> ds_len h d = Ok (List.length pts).
Proof. exact none_mask_len. Qed.
Print Assumptions C64_none_length.

Example C64_none_example : let h := [[Some 1; Some 2]; [Some 3; Some 4]; [Some 5; Some 6]; [Some 7; Some 8]] in
  holds h (DataSE 0 1 2 3 MNone false false None tab) [(Some 1, Some 3, Some 5, Some 7); (Some 2, Some 4, Some 6, Some 8)].
Proof. repeat split. Qed.
