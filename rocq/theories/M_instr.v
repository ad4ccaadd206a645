(** * Model of the Horiba, M2000 and FilmSense loaders (refellips/dataSE.py 464-895).

    A file is the list of its lines as readline() returns them, line ends included; at the end
    readline() returns "".  [pf] is Python's float() ([None]: ValueError), [pi] int() of a
    non-negative number.  refnx.possibly_open_file opens a file name and uses a handle as it is.
    Metadata only ends up in DataSE.metadata; keys that coincide with a named argument of DataSE
    are not modelled. *)

Require Import Reals ZArith List Bool String Ascii.
From Coquelicot Require Import Complex.
From Verif Require Import Base Cplx M_tmm M_disp M_model M_data M_ep4.
Import ListNotations.
Open Scope list_scope.
Open Scope R_scope.

(** ** String operations of Python *)

(** s[:-n] (dataSE.py:495, 507, 589, 590, 741, 865) *)
Definition chop (n : nat) (s : string) : string := substring 0 (String.length s - n) s.
(** s[n:] (dataSE.py:603) *)
Definition drop_chars (n : nat) (s : string) : string := substring n (String.length s - n) s.
(** ASCII whitespace removed by str.strip() *)
Definition is_space (c : ascii) : bool :=
  existsb (Ascii.eqb c) [" "; "009"; "010"; "011"; "012"; "013"]%char.
Fixpoint lstrip (s : string) : string :=
  match s with
  | EmptyString => EmptyString
  | String c s' => if is_space c then lstrip s' else s
  end.
Fixpoint rstrip (s : string) : string :=
  match s with
  | EmptyString => EmptyString
  | String c s' => match rstrip s' with
                   | EmptyString => if is_space c then EmptyString else String c EmptyString
                   | t => String c t
                   end
  end.
(** line.strip() (dataSE.py:504) *)
Definition strip (s : string) : string := rstrip (lstrip s).

(** s.split(", ") (dataSE.py:604) *)
Fixpoint split_comma (s : string) : list string :=
  match s with
  | EmptyString => [EmptyString]
  | String c s' =>
      let rest := match split_comma s' with
                  | t :: ts => String c t :: ts
                  | [] => [String c EmptyString]
                  end in
      match s' with
      | String d s'' => if (Ascii.eqb c "," && Ascii.eqb d " ")%bool then EmptyString :: split_comma s'' else rest
      | EmptyString => rest
      end
  end.

(** float(fields[i]) *)
Definition float_at (pf : string -> option num) (fields : list string) (i : nat) : result num :=
  match nth_error fields i with
  | None => Raise IndexError
  | Some t => match pf t with Some v => Ok v | None => Raise ValueError end
  end.
Definition floats_at (pf : string -> option num) (fields : list string) (is : list nat) : result (list num) :=
  mapR (float_at pf fields) is.
(** f.readline() and what is left *)
Definition readline (lines : list string) : string * list string :=
  match lines with [] => (EmptyString, []) | l :: ls => (l, ls) end.

(** a[::n]; n = 0 raises ValueError; for negative n see M_strides *)
Fixpoint stride_from {A} (n k : nat) (l : list A) : list A :=
  match l with
  | [] => []
  | x :: l' => match k with O => x :: stride_from n (pred n) l' | S k' => stride_from n k' l' end
  end.
Definition stride {A} (n : nat) (l : list A) : result (list A) :=
  match n with O => Raise ValueError | _ => Ok (stride_from n 0 l) end.

(** d[key] = value of a dict *)
Fixpoint dict_set {K A} (eqb : K -> K -> bool) (k : K) (v : A) (d : list (K * A)) : list (K * A) :=
  match d with
  | [] => [(k, v)]
  | (k', v') :: d' => if eqb k k' then (k', v) :: d' else (k', v') :: dict_set eqb k v d'
  end.
Fixpoint dict_get {K A} (eqb : K -> K -> bool) (k : K) (d : list (K * A)) : option A :=
  match d with
  | [] => None
  | (k', v') :: d' => if eqb k k' then Some v' else dict_get eqb k d'
  end.

(** ** open_HORIBAfile (dataSE.py:464-545) *)

(** a metadata entry: list of lines, one line, None *)
Inductive entry := ELines (l : list string) | ELine (s : string) | ENone.
(** dataSE.py:515-522 *)
Definition close_entry (l : list string) : entry :=
  match l with [] => ENone | [s] => ELine s | _ => ELines l end.

Definition mdict := list (string * entry).
Definition ndict := list (string * nat).

(** " ".join(line.split(" ")[1:])[:-1] (dataSE.py:507) *)
Definition horiba_label (line : string) : string := chop 1 (join " " (tl (split " " line))).

(** the loop over the lines (dataSE.py:503-527).  [cur]: label and lines of the open section *)
Fixpoint horiba_loop (i : nat) (lines : list string) (cur : option (string * list string)) (md : mdict) (nd : ndict)
  : mdict * ndict :=
  match lines with
  | [] => (match cur with
           | Some (label, acc) => dict_set String.eqb label (ELines acc) md
           | None => md
           end, nd)
  | line :: rest =>
      let line := strip line in
      match cur with
      | None =>
          match line with
          | String c _ =>
              if Ascii.eqb c "#" then
                horiba_loop (S i) rest (Some (horiba_label line, [])) md (dict_set String.eqb (horiba_label line) i nd)
              else horiba_loop (S i) rest None md nd
          | EmptyString => horiba_loop (S i) rest None md nd
          end
      | Some (label, acc) =>
          match line with
          | EmptyString => horiba_loop (S i) rest None (dict_set String.eqb label (close_entry acc) md) nd
          | _ => horiba_loop (S i) rest (Some (label, acc ++ [line])) md nd
          end
      end
  end.

(** pd.read_csv(fname, skiprows, nrows, delimiter=" ", usecols=["nm", "Psi", "Delta"])
    (dataSE.py:529-536).  Blank lines are skipped.  Simplified: a row with another number of
    fields than the header, or a field that is not a number, is outside the model (OtherError).
    Rows are (nm, psi, delta). *)
Definition read_horiba (pf : string -> option num) (skip nrows : nat) (lines : list string)
  : result (list (num * num * num)) :=
  match filter nonempty (map strip (skipn skip lines)) with
  | [] => Raise ValueError
  | header :: body =>
      let names := split " " header in
      match index_of "nm" names, index_of "Psi" names, index_of "Delta" names with
      | Some i, Some j, Some k =>
          mapR (fun l =>
            let fs := split " " l in
            if Nat.eqb (List.length fs) (List.length names) then
              match parse_fields pf fs with
              | Ok vs => Ok (nth i vs None, nth j vs None, nth k vs None)
              | Raise _ => Raise OtherError
              end
            else Raise OtherError) (firstn nrows body)
      | _, _, _ => Raise ValueError
      end
  end.

(** comparison with a cut-off, None = -inf / inf; nan compares False *)
Definition above (lo : option R) (v : num) : bool :=
  match v, lo with
  | None, _ => false
  | Some _, None => true
  | Some x, Some l => if Rlt_dec l x then true else false
  end.
Definition below (hi : option R) (v : num) : bool :=
  match v, hi with
  | None, _ => false
  | Some _, None => true
  | Some x, Some h => if Rlt_dec x h then true else false
  end.

(** len(metadata["DATA"]) (dataSE.py:532): number of lines, or of characters of the only line *)
Definition entry_len (e : entry) : result nat :=
  match e with ELines l => Ok (List.length l) | ELine s => Ok (String.length s) | ENone => Raise TypeError end.
(** float(metadata["INCIDENCE ANGLE"][:5]) (dataSE.py:538) *)
Definition entry_float (pf : string -> option num) (e : entry) : result num :=
  match e with
  | ELine s => match pf (substring 0 5 s) with Some v => Ok v | None => Raise ValueError end
  | _ => Raise TypeError
  end.
Definition get_key {A} (k : string) (d : list (string * A)) : result A :=
  match dict_get String.eqb k d with Some v => Ok v | None => Raise KeyError end.

(** [ansi]: does the platform know the encoding "ANSI"?  (Python has it on Windows only;
    elsewhere read_csv raises LookupError.)  [nrows] = -1 for an empty string cannot occur. *)
Definition open_HORIBAfile (pf : string -> option num) (ansi : bool) (lines : list string)
    (reflect_delta : bool) (lo hi : option R) : result (mdict * loaded) :=
  let '(md, nd) := horiba_loop 0 lines None [] [] in
  rbind (get_key "DATA" nd) (fun i =>
  rbind (get_key "DATA" md) (fun data =>
  rbind (entry_len data) (fun n =>
  if (Nat.eqb n 0) then Raise ValueError       (* nrows = -1 *)
  else if negb ansi then Raise OtherError else
  rbind (read_horiba pf (i + 1) (n - 1) lines) (fun rows =>
  rbind (get_key "INCIDENCE ANGLE" md) (fun a =>
  rbind (entry_float pf a) (fun AOI =>
  let rows := filter (fun r => below hi (fst (fst r))) (filter (fun r => above lo (fst (fst r))) rows) in
  Ok (md, Loaded (map (fun r => fst (fst r)) rows) (map (fun _ => AOI) rows)
                 (map (fun r => snd (fst r)) rows) (map snd rows) reflect_delta))))))).

(** ** open_M2000file (dataSE.py:548-703) *)

(** dataSE.py:603-606 *)
Definition m2000_header (firstline : string) : result (list (string * string)) :=
  mapR (fun ele => match split "=" ele with [key; val] => Ok (key, val) | _ => Raise ValueError end)
       (split_comma (chop 1 (drop_chars 11 firstline))).

(** the loop of _open_M2000file_standard (dataSE.py:631-659): rows of wavelength, angle, psi,
    delta; the other eight numbers are only checked.  [fuel] bounds the number of records. *)
Fixpoint m2000_loop (pf : string -> option num) (fuel : nat) (lines : list string) : result (list (list num)) :=
  let '(l1, ls) := readline lines in
  let f1 := split tab l1 in
  if Nat.eqb (List.length f1) 1 then Ok [] else
  rbind (floats_at pf f1 [0; 1; 2; 3; 4; 5]%nat) (fun row =>
  let '(l2, ls) := readline ls in
  rbind (floats_at pf (split tab l2) [2; 3; 4]%nat) (fun _ =>
  let '(l3, ls) := readline ls in
  rbind (floats_at pf (split tab l3) [2; 3; 4]%nat) (fun _ =>
  match fuel with
  | O => Raise OtherError       (* not reached: C125_m2000_errors *)
  | S n => rmap (cons row) (m2000_loop pf n ls)
  end))).

(** dataSE.py:625-663, given the lines that the handle still has *)
Definition M2000_standard (pf : string -> option num) (dropdatapoints skiplines : nat) (lines : list string)
  : result loaded :=
  rbind (m2000_loop pf (List.length lines) (skipn skiplines lines)) (fun data =>
  rbind (stride dropdatapoints data) (fun data =>
  match data with
  | [] => Raise IndexError                       (* np.array([])[:, ...] *)
  | _ => Ok (Loaded (map (fun r => nth 0 r None) data) (map (fun r => nth 1 r None) data)
                    (map (fun r => nth 2 r None) data) (map (fun r => nth 3 r None) data) false)
  end)).

(** _open_M2000file_kinetic (dataSE.py:666-703).  [rows]: what pandas reads, as
    (wavelength, angle, psi, delta), time in minutes *)
Definition krow := ((num * num * num * num) * num)%type.
(** np.round(x, 1) *)
Definition round1 (x : R) : R := rint (x * 10) / 10.

(** groupby("Time, min"): sorted distinct times without nan, rows of a time in order *)
Definition group_times (rows : list krow) : list R := np_unique (finite (map snd rows)).
Definition group_rows (rows : list krow) (t : R) : list krow := filter (fun r => num_eqb t (snd r)) rows.

Definition kinetic_dataset (dropdatapoints : nat) (rows : list krow) : result loaded :=
  rmap (fun rs => Loaded (map (fun r => fst (fst (fst (fst r)))) rs) (map (fun r => snd (fst (fst (fst r)))) rs)
                         (map (fun r => snd (fst (fst r))) rs) (map (fun r => snd (fst r)) rs) false)
       (stride dropdatapoints rows).

Fixpoint kinetic_loop (take_every dropdatapoints : nat) (rows : list krow) (idx : nat) (times : list R)
    (d : list (R * loaded)) : result (list (R * loaded)) :=
  match times with
  | [] => Ok d
  | t :: ts =>
      match take_every with
      | O => Raise OtherError                      (* ZeroDivisionError *)
      | _ => if Nat.eqb (idx mod take_every) 0 then
               rbind (kinetic_dataset dropdatapoints (group_rows rows t)) (fun x =>
               kinetic_loop take_every dropdatapoints rows (S idx) ts (dict_set req_b (round1 (t * 60)) x d))
             else kinetic_loop take_every dropdatapoints rows (S idx) ts d
      end
  end.
Definition M2000_kinetic (take_every dropdatapoints : nat) (rows : list krow) : result (list (R * loaded)) :=
  kinetic_loop take_every dropdatapoints rows 0 (group_times rows) [].

(** result: one dataset or a dict *)
Inductive one_or_dict := OneSet (x : loaded) | Dict (d : list (R * loaded)).

(** dataSE.py:584-622.  [table] is what pandas.read_csv(fname, skiprows=4, ...) returns *)
Definition open_M2000file (pf : string -> option num) (f : file_arg) (table : list krow)
    (take_every dropdatapoints : nat) : result (list (string * string) * one_or_dict) :=
  let lines := match f with ByName l => l | ByHandle l => l end in
  let '(_, ls) := readline lines in
  let '(l1, ls) := readline ls in
  let '(l2, ls) := readline ls in
  (* a name is opened again, a handle goes on where it stands *)
  let again := match f with ByName _ => lines | ByHandle _ => ls end in
  if String.eqb (chop 1 l2) "nm" then
    rbind (m2000_header (chop 1 l1)) (fun md =>
    rmap (fun x => (md, OneSet x)) (M2000_standard pf dropdatapoints 3 again))
  else if String.eqb (chop 1 l2) "Dynamic" then
    rbind (m2000_header (chop 1 l1)) (fun md =>
    rmap (fun d => (md, Dict d)) (M2000_kinetic take_every dropdatapoints table))
  else Raise ValueError.

(** ** open_FilmSenseFile (dataSE.py:706-895).  The float32 rounding of N, C, S is not modelled. *)

(** np.rad2deg(np.arccos(N) / 2); nan for |N| > 1 (dataSE.py:810, 881) *)
Definition fs_psi (N : num) : num :=
  obind N (fun N => if Rle_dec (Rabs N) 1 then Some (acos N / 2 * (180 / PI)) else None).
(** (C + 1j * S) / (1 + N), up to a positive factor.  numpy divides both parts by a divisor 0;
    [None]: one of the quotients is then nan. *)
Definition fs_ratio (N Cc S : R) : option C :=
  if Req_EM_T (1 + N) 0 then
    if Req_EM_T Cc 0 then None else if Req_EM_T S 0 then None
    else Some (if Rlt_dec Cc 0 then -1 else 1, if Rlt_dec S 0 then -1 else 1)%R
  else Some ((Cc, S) / RtoC (1 + N))%C.
(** dataSE.py:813-819, 882-887 *)
Definition fs_delta (N Cc S : num) : num :=
  obind N (fun N => obind Cc (fun Cc => obind S (fun S =>
  omap (fun z => let d := carg z * (180 / PI) in if Rlt_dec d 0 then 360 + d else d) (fs_ratio N Cc S)))).

(** _parse_FilmSenseFileHeader (dataSE.py:740-759): numbers of wavelengths and datasets, nomAOI *)
Definition fs_header (pf : string -> option num) (pi : string -> option nat) (dynamic : bool) (firstline : string)
  : result (nat * nat * num) :=
  let fs := split tab (chop 1 firstline) in
  let int_at i := match nth_error fs i with
                  | None => Raise IndexError
                  | Some t => match pi t with Some n => Ok n | None => Raise ValueError end
                  end in
  rbind (int_at 0%nat) (fun nw => rbind (int_at 1%nat) (fun nd => rbind (float_at pf fs 2) (fun aoi =>
  rbind (floats_at pf fs (if dynamic then [3] else [3; 4; 5])%nat) (fun _ => Ok (nw, nd, aoi))))).

(** a block of [n] lines, of each the numbers at the given fields (dataSE.py:792-797, 799-805,
    854-859) *)
Fixpoint fs_block (pf : string -> option num) (fields : list nat) (n : nat) (lines : list string)
  : result (list (list num) * list string) :=
  match n with
  | O => Ok ([], lines)
  | S n => let '(l, ls) := readline lines in
           rbind (floats_at pf (split tab l) fields) (fun r =>
           rmap (fun '(rs, rest) => (r :: rs, rest)) (fs_block pf fields n ls))
  end.

Definition fs_loaded (wavs : list num) (aoi : num) (ncs : list (list num)) : loaded :=
  Loaded wavs (map (fun _ => aoi) ncs)
    (map (fun r => fs_psi (nth 0 r None)) ncs)
    (map (fun r => fs_delta (nth 0 r None) (nth 1 r None) (nth 2 r None)) ncs) false.

(** dataSE.py:762-824 *)
Definition fs_standard (pf : string -> option num) (pi : string -> option nat) (lines : list string) : result loaded :=
  let '(l, lines) := readline lines in
  rbind (fs_header pf pi false l) (fun '(nw, _, aoi) =>
  rbind (fs_block pf [0; 1; 2; 3]%nat nw lines) (fun '(ws, lines) =>
  rbind (fs_block pf [0; 1; 2; 3; 4]%nat nw lines) (fun '(ncs, _) =>
  Ok (fs_loaded (map (fun r => nth 0 r None) ws) aoi ncs)))).

(** dataSE.py:870-876: N, C, S, P, Intensity of wavelength number j *)
Definition fs_point (pf : string -> option num) (fields : list string) (j : nat) : result (list num) :=
  floats_at pf fields (map (fun i => j * 5 + i) [1; 2; 3; 4; 5])%nat.

(** dataSE.py:864-893.  A time that is nan is outside the model (OtherError) *)
Fixpoint fs_times (pf : string -> option num) (nw : nat) (wavs : list num) (aoi : num) (n : nat) (lines : list string)
    (d : list (R * loaded)) : result (list (R * loaded)) :=
  match n with
  | O => Ok d
  | S n => let '(l, ls) := readline lines in
           let fields := split tab (chop 2 l) in
           rbind (float_at pf fields 0) (fun t =>
           rbind (mapR (fs_point pf fields) (seq 0 nw)) (fun ncs =>
           match t with
           | Some t => fs_times pf nw wavs aoi n ls (dict_set req_b t (fs_loaded wavs aoi ncs) d)
           | None => Raise OtherError
           end))
  end.

(** dataSE.py:827-895 *)
Definition fs_dynamic (pf : string -> option num) (pi : string -> option nat) (lines : list string)
  : result (list (R * loaded)) :=
  let '(l, lines) := readline lines in
  rbind (fs_header pf pi true l) (fun '(nw, nd, aoi) =>
  rbind (fs_block pf [0; 1; 2; 3]%nat nw lines) (fun '(ws, lines) =>
  let '(_, lines) := readline lines in
  fs_times pf nw (map (fun r => nth 0 r None) ws) aoi nd lines [])).

(** dataSE.py:730-737 *)
Definition newline : string := String "010" EmptyString.
Definition open_FilmSenseFile (pf : string -> option num) (pi : string -> option nat) (lines : list string)
  : result one_or_dict :=
  let '(header, lines) := readline lines in
  if String.eqb header ("Film_Sense_Data" ++ newline) then rmap OneSet (fs_standard pf pi lines)
  else if String.eqb header ("Film_Sense_Dyn_Data" ++ newline) then rmap Dict (fs_dynamic pf pi lines)
  else Raise AssertionError.
