(** * Model of DataSE when its columns are numpy scalars (refellips/dataSE.py 60-255).

    np.loadtxt squeezes a file with a single row (or a single column) to a vector, and unpacking a
    vector of four numbers gives four numpy scalars where the class expects arrays.  M_data models
    datasets whose columns are arrays; here a column is either.  A scalar is immutable and therefore not
    kept in the heap.  Indexing a numpy scalar is indexing the array without dimensions that holds it. *)

Require Import Reals List Bool String Ascii.
From Verif Require Import Base M_disp M_model M_data.
Import ListNotations.
Open Scope list_scope.
Open Scope R_scope.

Inductive column := Addr (a : nat) | Sca (v : num).
(** the attribute mask: a boolean without dimensions, or as in M_data *)
Inductive xmask := X0 (b : bool) | XM (m : mask).

Record xdata := XData {
  x_wav : column; x_aoi : column; x_psi : column; x_delta : column;
  x_mask : xmask;
  x_flipped : bool;
  x_weighted : bool;
  x_file : option string;
  x_delim : ascii }.

(** a dataset of M_data *)
Definition of_dataset (d : dataset) : xdata :=
  XData (Addr (ds_wav d)) (Addr (ds_aoi d)) (Addr (ds_psi d)) (Addr (ds_delta d)) (XM (ds_mask d))
        (ds_flipped d) (ds_weighted d) (ds_file d) (ds_delim d).

(** ** Getters (dataSE.py:142-178): col[self.mask] if col.size > 0 else col.  A boolean without dimensions
    adds an axis of length one (or zero); a boolean array is an index too many for a scalar. *)
Definition xmasked (h : heap) (m : xmask) (c : column) : result ndarray :=
  match c, m with
  | Sca v, X0 true => Ok (A1 [v])
  | Sca v, X0 false => Ok (A1 [])
  | Sca v, XM MNone => Ok (A1 [v])
  | Sca v, XM (MBool _) => Raise IndexError
  | Addr a, XM m => masked m (arr h a)
  | Addr a, X0 b => match arr h a with [] => Ok (A1 []) | l => Ok (A2 (if b then [l] else [])) end
  end.
Definition xget_wavelength (h : heap) (d : xdata) := xmasked h (x_mask d) (x_wav d).
Definition xget_aoi (h : heap) (d : xdata) := xmasked h (x_mask d) (x_aoi d).
Definition xget_psi (h : heap) (d : xdata) := xmasked h (x_mask d) (x_psi d).
Definition xget_delta (h : heap) (d : xdata) := xmasked h (x_mask d) (x_delta d).
Definition xget_data (h : heap) (d : xdata) : result (ndarray * ndarray * ndarray * ndarray) :=
  rbind (xget_wavelength h d) (fun w => rbind (xget_aoi h d) (fun a =>
  rbind (xget_psi h d) (fun p => rmap (fun x => (w, a, p, x)) (xget_delta h d)))).
(** __len__ (dataSE.py:109-111) *)
Definition xlen (h : heap) (d : xdata) : result nat := rmap np_size (xget_wavelength h d).

(** data setter (dataSE.py:180-201), given the values as arrays *)
Definition xset_data (h : heap) (d : xdata) (w a p x : list num) : xdata * heap :=
  let '(iw, h) := alloc h w in let '(ia, h) := alloc h a in
  let '(ip, h) := alloc h p in let '(ix, h) := alloc h x in
  (XData (Addr iw) (Addr ia) (Addr ip) (Addr ix) (XM (all_true w)) (x_flipped d) (x_weighted d) (x_file d) (x_delim d), h).
(** d.mask = m *)
Definition xset_mask (d : xdata) (m : xmask) : xdata :=
  XData (x_wav d) (x_aoi d) (x_psi d) (x_delta d) m (x_flipped d) (x_weighted d) (x_file d) (x_delim d).

(** unique_wavelength_data (dataSE.py:127-140); 2-d columns as in M_data *)
Definition xunique_wavelength_data (h : heap) (d : xdata)
  : result (list (num * list num * list num * list num)) :=
  rbind (xget_data h d) (fun '(w, a, p, x) =>
  match w, a, p, x with
  | A1 w, A1 a, A1 p, A1 x =>
      Ok (map (fun u => (Some u, select_where u w a, select_where u w p, select_where u w x))
              (np_unique (finite w)) ++
          (if has_nan w then [(None, [], [], [])] else []))
  | _, _, _, _ => Raise OtherError
  end).

(** save (dataSE.py:203-221): np.column_stack makes a column of one entry of a scalar *)
Definition entries (h : heap) (c : column) : list num := match c with Addr a => arr h a | Sca v => [v] end.
Definition xsave (pr : num -> string) (h : heap) (d : xdata) : result (list string) :=
  let w := entries h (x_wav d) in let a := entries h (x_aoi d) in
  let p := entries h (x_psi d) in let x := entries h (x_delta d) in
  let n := List.length w in
  if (Nat.eqb (List.length a) n && Nat.eqb (List.length p) n && Nat.eqb (List.length x) n)%bool then
    Ok (header_line :: map (fun r => join tab (map pr r)) (zip4 w a p x))
  else Raise ValueError.

(** load (dataSE.py:223-246) *)
Definition xset_columns (h : heap) (d : xdata) (rows : list (list num)) : result (xdata * heap) :=
  match as_vector rows with
  | Some [w; a; p; x] =>
      Ok (XData (Sca w) (Sca a) (Sca p) (Sca x) (x_mask d) (x_flipped d) (x_weighted d) (x_file d) (x_delim d), h)
  | Some _ => Raise ValueError
  | None =>
      rbind (unpack4 rows) (fun '(w, a, p, x) =>
      let '(iw, h) := alloc h w in let '(ia, h) := alloc h a in
      let '(ip, h) := alloc h p in let '(ix, h) := alloc h x in
      Ok (XData (Addr iw) (Addr ia) (Addr ip) (Addr ix) (x_mask d) (x_flipped d) (x_weighted d) (x_file d) (x_delim d), h))
  end.
Definition xload (pf : string -> option num) (h : heap) (d : xdata) (f : file_arg) : result (xdata * heap) :=
  let lines := match f with ByName l => l | ByHandle l => l end in
  let '(skip, rest) := detect_header pf (x_delim d) 100 lines in
  rbind (loadtxt pf (x_delim d) skip (match f with ByName _ => lines | ByHandle _ => rest end)) (xset_columns h d).

(** refresh (dataSE.py:248-255) with a file that can be read *)
Definition xrefresh (pf : string -> option num) (h : heap) (d : xdata) (content : list string) : result (xdata * heap) :=
  match x_file d with
  | None => Ok (d, h)
  | Some _ => xload pf h d (ByHandle content)
  end.

(** ** Construction (dataSE.py:60-107) *)
Inductive xsource :=
| XNothing
| XArrays (w a p x : nat)
| XCopy (d : xdata)
| XFile (name : string) (lines : list string)
| XHandle (unread : list string).

Definition xtake_source (pf : string -> option num) (h : heap) (delim : ascii) (s : xsource) : result (xdata * heap) :=
  let blank w a p x f := XData w a p x (XM (MBool [])) false false f delim in
  let empty := Addr 0%nat in
  match s with
  | XNothing => Ok (of_dataset (fst (set_columns h (DataSE 0 0 0 0 (MBool []) false false None delim) [] [] [] [] (MBool []))),
                    snd (set_columns h (DataSE 0 0 0 0 (MBool []) false false None delim) [] [] [] [] (MBool [])))
  | XArrays w a p x => Ok (blank (Addr w) (Addr a) (Addr p) (Addr x) None, h)
  | XCopy d => Ok (blank (x_wav d) (x_aoi d) (x_psi d) (x_delta d) (x_file d), h)
  | XFile name lines => xload pf h (blank empty empty empty empty (Some name)) (ByName lines)
  | XHandle lines => xload pf h (blank empty empty empty empty None) (ByHandle lines)
  end.

(** self._delta[dmask] = ... : a numpy scalar does not support item assignment (dataSE.py:102-105);
    np.ones_like of a scalar is an array without dimensions (dataSE.py:107) *)
Definition xnew_dataset (pf : string -> option num) (h : heap) (delim : ascii) (s : xsource) (reflect_delta : bool)
  : result (xdata * heap) :=
  rbind (xtake_source pf h delim s) (fun '(d, h) =>
  rbind (if reflect_delta
         then match x_delta d with Addr a => Ok (update h a (map fold_delta)) | Sca _ => Raise TypeError end
         else Ok h) (fun h =>
  let m := match x_wav d with Addr a => XM (all_true (arr h a)) | Sca _ => X0 true end in
  Ok (XData (x_wav d) (x_aoi d) (x_psi d) (x_delta d) m reflect_delta (x_weighted d) (x_file d) (x_delim d), h))).
