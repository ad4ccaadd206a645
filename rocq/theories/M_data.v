(** * Model of DataSE (refellips/dataSE.py 16-255).

    Arrays live in a heap and are shared by reference, as numpy arrays are; a DataSE object
    holds addresses.  [num]: [None] = nan.  Lines of a file carry no newline.  [pf] is
    Python's float(): [pf s = None] when it raises ValueError. *)

Require Import Reals List Bool String Ascii.
From Verif Require Import Base M_disp M_model.
Import ListNotations.
Open Scope list_scope.
Open Scope R_scope.

Definition num := option R.
Definition heap := list (list num).
Definition arr (h : heap) (a : nat) : list num := nth a h [].
Definition alloc (h : heap) (l : list num) : nat * heap := (List.length h, h ++ [l]).

(** the attribute [mask]: a boolean array or None (other index objects are not modelled) *)
Inductive mask := MBool (m : list bool) | MNone.

Record dataset := DataSE {
  ds_wav : nat; ds_aoi : nat; ds_psi : nat; ds_delta : nat;   (* addresses *)
  ds_mask : mask;
  ds_flipped : bool;
  ds_weighted : bool;
  ds_file : option string;
  ds_delim : ascii }.

(** ** Getters (dataSE.py:142-178) *)

(** result of a getter: a 1-d array, or a 2-d array after indexing with None *)
Inductive ndarray := A1 (l : list num) | A2 (rows : list (list num)).
Definition np_size (a : ndarray) : nat :=
  match a with A1 l => List.length l | A2 rows => List.length (List.concat rows) end.

Definition where_true {A} (m : list bool) (l : list A) : list A :=
  map snd (filter fst (combine m l)).

(** col[self.mask] if col.size > 0 else col *)
Definition masked (m : mask) (col : list num) : result ndarray :=
  match col with
  | [] => Ok (A1 col)
  | _ => match m with
         | MNone => Ok (A2 [col])
         | MBool bs => if Nat.eqb (List.length bs) (List.length col) then Ok (A1 (where_true bs col))
                       else Raise IndexError
         end
  end.

Definition get_wavelength (h : heap) (d : dataset) := masked (ds_mask d) (arr h (ds_wav d)).
Definition get_aoi (h : heap) (d : dataset) := masked (ds_mask d) (arr h (ds_aoi d)).
Definition get_psi (h : heap) (d : dataset) := masked (ds_mask d) (arr h (ds_psi d)).
Definition get_delta (h : heap) (d : dataset) := masked (ds_mask d) (arr h (ds_delta d)).

Definition get_data (h : heap) (d : dataset) : result (ndarray * ndarray * ndarray * ndarray) :=
  rbind (get_wavelength h d) (fun w => rbind (get_aoi h d) (fun a =>
  rbind (get_psi h d) (fun p => rmap (fun x => (w, a, p, x)) (get_delta h d)))).

(** __len__ (dataSE.py:109-111) and ObjectiveSE.npoints (objectiveSE.py:162-167) *)
Definition ds_len (h : heap) (d : dataset) : result nat := rmap np_size (get_wavelength h d).
Definition npoints (h : heap) (d : dataset) : nat := List.length (arr h (ds_wav d)).

(** data setter (dataSE.py:180-201): copies, clears the mask, keeps the rest *)
Definition set_columns (h : heap) (d : dataset) (w a p x : list num) (m : mask) : dataset * heap :=
  let '(iw, h) := alloc h w in let '(ia, h) := alloc h a in
  let '(ip, h) := alloc h p in let '(ix, h) := alloc h x in
  (DataSE iw ia ip ix m (ds_flipped d) (ds_weighted d) (ds_file d) (ds_delim d), h).
Definition all_true {A} (l : list A) : mask := MBool (map (fun _ => true) l).
Definition set_data_columns (h : heap) (d : dataset) (w a p x : list num) : dataset * heap :=
  set_columns h d w a p x (all_true w).

(** ** unique_wavelength_data (dataSE.py:127-140); 2-d columns are not modelled *)
Definition num_eqb (w : R) (v : num) : bool :=
  match v with Some x => if Req_EM_T x w then true else false | None => false end.
Definition select_where {A} (w : R) (ws : list num) (l : list A) : list A :=
  where_true (map (num_eqb w) ws) l.
Definition finite (l : list num) : list R := flat_map (fun v => match v with Some x => [x] | None => [] end) l.
Definition has_nan (l : list num) : bool := existsb (fun v => match v with None => true | _ => false end) l.

Definition unique_wavelength_data (h : heap) (d : dataset)
  : result (list (num * list num * list num * list num)) :=
  rbind (get_data h d) (fun '(w, a, p, x) =>
  match w, a, p, x with
  | A1 w, A1 a, A1 p, A1 x =>
      Ok (map (fun u => (Some u, select_where u w a, select_where u w p, select_where u w x))
              (np_unique (finite w)) ++
          (if has_nan w then [(None, [], [], [])] else []))
  | _, _, _, _ => Raise OtherError
  end).

(** ** Files *)

(** s.split(c) *)
Fixpoint split (c : ascii) (s : string) : list string :=
  match s with
  | EmptyString => [EmptyString]
  | String x s' =>
      if Ascii.eqb x c then EmptyString :: split c s'
      else match split c s' with
           | t :: ts => String x t :: ts
           | [] => [String x EmptyString]
           end
  end.

Fixpoint join (c : ascii) (l : list string) : string :=
  match l with
  | [] => EmptyString
  | [s] => s
  | s :: l' => (s ++ String c (join c l'))%string
  end.

(** header detection (dataSE.py:235-242): number of skipped lines and the lines not yet read.
    At the end of the file readline() returns "", whose float() fails. *)
Fixpoint detect_header (pf : string -> option num) (delim : ascii) (fuel : nat) (lines : list string)
  : nat * list string :=
  match fuel with
  | O => (O, lines)
  | S n =>
      match lines with
      | [] => let '(k, r) := detect_header pf delim n [] in (S k, r)
      | l :: ls =>
          match pf (hd EmptyString (split delim l)) with
          | Some _ => (O, ls)
          | None => let '(k, r) := detect_header pf delim n ls in (S k, r)
          end
      end
  end.

(** np.loadtxt(skiprows, delimiter): comments, empty lines, equal numbers of columns *)
Fixpoint strip_comment (s : string) : string :=
  match s with
  | EmptyString => EmptyString
  | String x s' => if Ascii.eqb x "#" then EmptyString else String x (strip_comment s')
  end.
Definition nonempty (s : string) : bool := match s with EmptyString => false | _ => true end.
Definition parse_fields (pf : string -> option num) (ts : list string) : result (list num) :=
  mapR (fun t => match pf t with Some v => Ok v | None => Raise ValueError end) ts.
Definition same_lengths {A} (rows : list (list A)) : bool :=
  match rows with
  | [] => true
  | r :: rs => forallb (fun r' => Nat.eqb (List.length r') (List.length r)) rs
  end.
Definition loadtxt (pf : string -> option num) (delim : ascii) (skip : nat) (lines : list string)
  : result (list (list num)) :=
  rbind (mapR (fun l => parse_fields pf (split delim l))
              (filter nonempty (map strip_comment (skipn skip lines)))) (fun rows =>
  if same_lengths rows then Ok rows else Raise ValueError).

(** np.loadtxt squeezes a single row, and a single column, to a vector *)
Definition as_vector (rows : list (list num)) : option (list num) :=
  match rows with
  | [r] => Some r
  | _ => if forallb (fun r => Nat.eqb (List.length r) 1) rows then Some (List.concat rows) else None
  end.
(** a, b, c, d = rows.T (dataSE.py:244-246); a vector of four numbers is unpacked to four numpy scalars
    instead of arrays: that case is modelled in M_onepoint, here it is OtherError *)
Definition unpack4 (rows : list (list num)) : result (list num * list num * list num * list num) :=
  match as_vector rows, rows with
  | Some v, _ => Raise (if Nat.eqb (List.length v) 4 then OtherError else ValueError)
  | None, r :: _ =>
      if Nat.eqb (List.length r) 4 then
        Ok (map (fun r => nth 0 r None) rows, map (fun r => nth 1 r None) rows,
            map (fun r => nth 2 r None) rows, map (fun r => nth 3 r None) rows)
      else Raise ValueError
  | None, [] => Raise ValueError
  end.

(** the argument of load: a file name, or an open handle with the lines not yet read *)
Inductive file_arg := ByName (lines : list string) | ByHandle (unread : list string).

(** load (dataSE.py:223-246) *)
Definition load (pf : string -> option num) (h : heap) (d : dataset) (f : file_arg) : result (dataset * heap) :=
  let lines := match f with ByName l => l | ByHandle l => l end in
  let '(skip, rest) := detect_header pf (ds_delim d) 100 lines in
  rbind (loadtxt pf (ds_delim d) skip (match f with ByName _ => lines | ByHandle _ => rest end)) (fun rows =>
  rbind (unpack4 rows) (fun '(w, a, p, x) => Ok (set_columns h d w a p x (ds_mask d)))).

(** save (dataSE.py:203-221): np.savetxt with header; [pr] formats a number ("%.18e") *)
Definition tab : ascii := "009".
Definition header_line : string :=
  ("# wavelength" ++ String tab ("AOI" ++ String tab ("Psi" ++ String tab "Delta")))%string.
Fixpoint zip4 {A} (a b c d : list A) : list (list A) :=
  match a, b, c, d with
  | x :: a', y :: b', z :: c', t :: d' => [x; y; z; t] :: zip4 a' b' c' d'
  | _, _, _, _ => []
  end.
Definition save (pr : num -> string) (h : heap) (d : dataset) : result (list string) :=
  let w := arr h (ds_wav d) in let a := arr h (ds_aoi d) in
  let p := arr h (ds_psi d) in let x := arr h (ds_delta d) in
  let n := List.length w in
  if (Nat.eqb (List.length a) n && Nat.eqb (List.length p) n && Nat.eqb (List.length x) n)%bool then
    Ok (header_line :: map (fun r => join tab (map pr r)) (zip4 w a p x))
  else Raise ValueError.

(** ** refresh (dataSE.py:248-255).  The mode in which refnx.possibly_open_file opens a file by
    default is a parameter.  Returns the new content of the file too. *)
Inductive open_mode := OpenRead | OpenWrite.
Definition refresh (pf : string -> option num) (mode : open_mode) (h : heap) (d : dataset) (content : list string)
  : result (dataset * heap) * list string :=
  match ds_file d with
  | None => (Ok (d, h), content)
  | Some _ => match mode with
              | OpenRead => (load pf h d (ByHandle content), content)
              | OpenWrite => (Raise OtherError, [])     (* truncated, then not readable *)
              end
  end.

(** ** Construction (dataSE.py:60-107).  Arrays are taken over by reference. *)
Inductive source :=
| FromNothing
| FromArrays (w a p x : nat)
| FromDataSE (d : dataset)
| FromFile (name : string) (lines : list string)
| FromHandle (unread : list string).     (* the filename attribute is then the handle *)

Definition fold_delta (v : num) : num :=
  match v with
  | Some x => if Rlt_dec 180 x then Some (360 - x) else v
  | None => None
  end.

(** the four addresses, before reflection and mask *)
Definition take_source (pf : string -> option num) (h : heap) (delim : ascii) (s : source)
  : result (dataset * heap) :=
  let blank w a p x f := DataSE w a p x (MBool []) false false f delim in
  match s with
  | FromNothing =>
      Ok (set_columns h (blank 0%nat 0%nat 0%nat 0%nat None) [] [] [] [] (MBool []))
  | FromArrays w a p x => Ok (blank w a p x None, h)
  | FromDataSE d => Ok (blank (ds_wav d) (ds_aoi d) (ds_psi d) (ds_delta d) (ds_file d), h)
  | FromFile name lines => load pf h (blank 0%nat 0%nat 0%nat 0%nat (Some name)) (ByName lines)
  | FromHandle lines => load pf h (blank 0%nat 0%nat 0%nat 0%nat None) (ByHandle lines)
  end.

Definition new_dataset (pf : string -> option num) (h : heap) (delim : ascii) (s : source) (reflect_delta : bool)
  : result (dataset * heap) :=
  rbind (take_source pf h delim s) (fun '(d, h) =>
  let h := if reflect_delta then update h (ds_delta d) (map fold_delta) else h in
  Ok (DataSE (ds_wav d) (ds_aoi d) (ds_psi d) (ds_delta d) (all_true (arr h (ds_wav d)))
             reflect_delta (ds_weighted d) (ds_file d) (ds_delim d), h)).
