(** * Model of the Accurion EP4 loader and custom_round (refellips/dataSE.py 258-461).

    pandas.read_csv is not modelled: its result is given as column names and rows of numbers
    ([None] = NaN).  The values of one row label are as in a DataFrame; boolean selection keeps
    the labels.  Progress messages are left out. *)

Require Import Reals ZArith List Bool String Ascii.
From Verif Require Import Base M_disp M_model M_data.
Import ListNotations.
Open Scope list_scope.
Open Scope R_scope.

(** ** np.round (used at dataSE.py:372, 441-442) *)

(** np.rint, np.round(x): to the nearest integer, half to even *)
Definition rint (x : R) : R :=
  let f := Int_part x in
  if Rlt_dec (x - IZR f) (1 / 2) then IZR f
  else if Rlt_dec (1 / 2) (x - IZR f) then IZR (f + 1)
  else if Z.even f then IZR f else IZR (f + 1).
(** np.round(x, 2) *)
Definition round2 (x : R) : R := rint (x * 100) / 100.

(** custom_round (dataSE.py:354-372), one value; division by base 0 gives nan *)
Definition custom_round (x base : R) : num := omap (fun q => round2 (base * rint q)) (odiv x base).

(** ** Tables (dataSE.py:283-287) *)
Record table := Table { tb_cols : list string; tb_rows : list (list num) }.

(** a row with its label, as iterrows() gives it (dataSE.py:411) *)
Definition lrow := (nat * list R)%type.

(** dropna(axis=0, how="any"); reset_index() (dataSE.py:284-287) *)
Definition dropna (rows : list (list num)) : list (list R) :=
  flat_map (fun r => match mapM (fun x => x) r with Some v => [v] | None => [] end) rows.
Definition reset_index (rows : list (list R)) : list lrow := combine (seq 0 (List.length rows)) rows.

(** df[name] (dataSE.py:290, 397-398): position of a column *)
Fixpoint index_of (name : string) (cols : list string) : option nat :=
  match cols with
  | [] => None
  | c :: cs => if String.eqb c name then Some O else omap S (index_of name cs)
  end.
Definition has_col (cols : list string) (name : string) : bool :=
  match index_of name cols with Some _ => true | None => false end.
(** entry of a row (dataSE.py:301, 412-416); KeyError for a missing column is raised where the
    column is selected *)
Definition cell (cols : list string) (name : string) (r : lrow) : R :=
  match index_of name cols with Some i => nth i (snd r) 0 | None => 0 end.
(** df[[names]] (dataSE.py:428-430, 447) *)
Definition need_cols (cols names : list string) : result unit :=
  if forallb (has_col cols) names then Ok tt else Raise KeyError.

Definition req_b (x y : R) : bool := if Req_EM_T x y then true else false.
(** Series.drop_duplicates() (dataSE.py:296, 299, 404-405) *)
Fixpoint drop_duplicates (l : list R) : list R :=
  match l with
  | [] => []
  | x :: l' => x :: filter (fun y => negb (req_b x y)) (drop_duplicates l')
  end.

(** ** groupby(["AOI", "#Lambda"]).mean(); reset_index() (dataSE.py:433-434, 448-449):
    groups in increasing lexicographic order of the keys *)
Definition lex_cmp (a b : R * R) : comparison :=
  if Rlt_dec (fst a) (fst b) then Lt else if Rlt_dec (fst b) (fst a) then Gt
  else if Rlt_dec (snd a) (snd b) then Lt else if Rlt_dec (snd b) (snd a) then Gt else Eq.
Fixpoint insert_key (k : R * R) (l : list (R * R)) : list (R * R) :=
  match l with
  | [] => [k]
  | h :: t => match lex_cmp k h with Lt => k :: h :: t | Eq => h :: t | Gt => h :: insert_key k t end
  end.
Definition group_keys (ks : list (R * R)) : list (R * R) := fold_right insert_key [] ks.
Definition key_of (cols : list string) (r : lrow) : R * R := (cell cols "AOI" r, cell cols "#Lambda" r).
Definition key_eqb (a b : R * R) : bool := req_b (fst a) (fst b) && req_b (snd a) (snd b).
Definition sumR (l : list R) : R := fold_right Rplus 0 l.
Definition np_mean (l : list R) : R := sumR l / INR (List.length l).
(** mean of a column in every group (dataSE.py:433, 448) *)
Definition group_mean (cols : list string) (name : string) (rows : list lrow) : list R :=
  map (fun k => np_mean (map (cell cols name) (filter (fun r => key_eqb (key_of cols r) k) rows)))
      (group_keys (map (key_of cols) rows)).

(** ** _loadEP4 (dataSE.py:375-461) *)
Record summary := Summary {
  sm_lambda : list R; sm_aoi : list R; sm_psi : list R; sm_delta : list R;
  sm_pos : option (R * R);               (* "X pos", "Y pos", or None *)
  sm_time : option (option R) }.         (* None: no key "time" *)

(** np.allclose(pos, entry, atol=0.2), rtol 1e-5; nan is not close to anything *)
Definition allclose (a : num) (b : R) : bool :=
  match a with
  | Some a => if Rle_dec (Rabs (a - b)) (2 / 10 + / 100000 * Rabs b) then true else false
  | None => false
  end.

(** dataSE.py:410-418: labels at which an area begins *)
Fixpoint area_starts (cols : list string) (xpos ypos : num) (rows : list lrow) : list nat :=
  match rows with
  | [] => []
  | r :: rs =>
      let x := cell cols "X_pos" r in let y := cell cols "Y_pos" r in
      if (negb (allclose xpos x) || negb (allclose ypos y))%bool
      then fst r :: area_starts cols (Some x) (Some y) rs
      else area_starts cols xpos ypos rs
  end.

(** df.loc[start : stop - 1] (dataSE.py:428): by label, both ends included *)
Definition loc (rows : list lrow) (start stop : nat) : list lrow :=
  filter (fun r => (Nat.leb start (fst r) && Nat.ltb (fst r) stop)%bool) rows.

(** dataSE.py:451-458 *)
Definition averages (cols : list string) (rows : list lrow) (pos : option (R * R)) : summary :=
  Summary (map snd (group_keys (map (key_of cols) rows))) (map fst (group_keys (map (key_of cols) rows)))
    (group_mean cols "Psi" rows) (group_mean cols "Delta" rows) pos None.
(** dataSE.py:436-443 *)
Definition area_summary (cols : list string) (rows : list lrow) : summary :=
  averages cols rows (Some (round2 (np_mean (group_mean cols "X_pos" rows)),
                            round2 (np_mean (group_mean cols "Y_pos" rows)))).

(** dataSE.py:426-444 *)
Fixpoint areas (cols : list string) (rows : list lrow) (indices : list nat) : list summary :=
  match indices with
  | a :: ((b :: _) as rest) =>
      let pdf := loc rows a b in
      match pdf with
      | [] => areas cols rows rest
      | _ => area_summary cols pdf :: areas cols rows rest
      end
  | _ => []
  end.

(** is there location data with more than one value? (dataSE.py:396-406) *)
Definition multi_location (cols : list string) (rows : list lrow) : bool :=
  (has_col cols "X_pos" && has_col cols "Y_pos" &&
   (Nat.ltb 1 (List.length (drop_duplicates (map (cell cols "X_pos") rows))) ||
    Nat.ltb 1 (List.length (drop_duplicates (map (cell cols "Y_pos") rows)))))%bool.

(** dataSE.py:396-461 *)
Definition load_EP4 (cols : list string) (rows : list lrow) : result (list summary) :=
  if multi_location cols rows then
    rbind (need_cols cols (["#Lambda"; "AOI"; "Psi"; "Delta"])%string) (fun _ =>
    Ok (areas cols rows (area_starts cols None None rows ++ [List.length rows])))
  else
    rbind (need_cols cols (["#Lambda"; "AOI"; "Psi"; "Delta"])%string) (fun _ => Ok [averages cols rows None]).

(** ** open_EP4file (dataSE.py:258-323) *)
(** op["time"] = t (dataSE.py:306) *)
Definition with_time (t : option R) (s : summary) : summary :=
  Summary (sm_lambda s) (sm_aoi s) (sm_psi s) (sm_delta s) (sm_pos s) (Some t).
(** output[-1]["time"] = t (dataSE.py:302) *)
Fixpoint label_last (t : R) (l : list summary) : result (list summary) :=
  match l with
  | [] => Raise IndexError
  | [s] => Ok [with_time (Some t) s]
  | s :: l' => rmap (cons s) (label_last t l')
  end.
(** dataSE.py:299-302 *)
Fixpoint time_loop (cols : list string) (rows : list lrow) (times : list R) (output : list summary)
  : result (list summary) :=
  match times with
  | [] => Ok output
  | t :: ts =>
      let tdf := filter (fun r => req_b (cell cols "Time" r) t) rows in
      rbind (load_EP4 cols tdf) (fun l =>
      rbind (label_last t (output ++ l)) (fun out => time_loop cols rows ts out))
  end.

(** _make_EP4dname (dataSE.py:326-351); [pr] formats a number *)
Definition butfirst23 (name : string) : string := substring 0 (String.length name - 23) name.
Definition EP4_name (pr : R -> string) (name : string) (s : summary) : result string :=
  match sm_time s with
  | None => Raise KeyError
  | Some t =>
      Ok (butfirst23 name ++
          match sm_pos s with Some (x, y) => "_x=" ++ pr x ++ "mm_y=" ++ pr y ++ "mm" | None => "" end ++
          match t with Some t => "_t=" ++ pr t ++ "s" | None => "" end)%string
  end.

(** a DataSE built from fresh arrays: DataSE(data, name, reflect_delta, **metadata)
    (dataSE.py:316-318 and the other loaders), see M_data *)
Record loaded := Loaded {
  ld_wav : list num; ld_aoi : list num; ld_psi : list num; ld_delta : list num; ld_reflect : bool }.
Definition install (h : heap) (l : loaded) : result (dataset * heap) :=
  let '(iw, h) := alloc h (ld_wav l) in let '(ia, h) := alloc h (ld_aoi l) in
  let '(ip, h) := alloc h (ld_psi l) in let '(ix, h) := alloc h (ld_delta l) in
  new_dataset (fun _ => None) h tab (FromArrays iw ia ip ix) (ld_reflect l).

(** one dataset or a list (dataSE.py:320-323) *)
Inductive one_or_many (A : Type) := One (a : A) | Many (l : list A).
Arguments One {A} a.
Arguments Many {A} l.

(** dataSE.py:309-318; del op[...] only removes the arrays from the metadata *)
Definition EP4_dataset (pr : R -> string) (fname : string) (reflect_delta : bool) (s : summary)
  : result (string * summary * loaded) :=
  rmap (fun name => (name, s, Loaded (map Some (sm_lambda s)) (map Some (sm_aoi s))
                                     (map Some (sm_psi s)) (map Some (sm_delta s)) reflect_delta))
       (EP4_name pr fname s).

(** dataSE.py:283-323 *)
Definition open_EP4file (pr : R -> string) (fname : string) (t : table) (reflect_delta : bool)
  : result (one_or_many (string * summary * loaded)) :=
  let cols := tb_cols t in
  let rows := reset_index (dropna (tb_rows t)) in
  let times := drop_duplicates (map (cell cols "Time") rows) in
  rbind (if (has_col cols "Time" && Nat.ltb 1 (List.length times))%bool
         then time_loop cols rows times []
         else rmap (map (with_time None)) (load_EP4 cols rows)) (fun output =>
  rbind (mapR (EP4_dataset pr fname reflect_delta) output) (fun datasets =>
  match datasets with
  | [d] => Ok (One d)
  | _ => Ok (Many datasets)
  end)).
