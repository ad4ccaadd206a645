(** * Model of datasets over their lifetime: datasets are made, masked, assigned, loaded, refreshed
    and saved one statement at a time, and arrays handed to them are written to (dataSE.py 60-255).

    [lf_user] holds the arrays the caller has made: an array that a dataset has made itself
    (data setter, load) cannot be named, because the getters return copies (boolean indexing).
    Simplified: a mask is not changed in place after it has been assigned; save writes a file that
    no dataset reads. *)

Require Import Reals List Bool String Ascii.
From Verif Require Import Base M_disp M_model M_data.
Import ListNotations.
Open Scope list_scope.
Open Scope R_scope.

(** a dataset and its [metadata] (dataSE.py:66): here the keywords whose value is a mask *)
Record entry := Entry { en_data : dataset; en_metadata : list (string * mask) }.
Record life := Life { lf_heap : heap; lf_user : list nat; lf_sets : list entry }.
Definition empty_life : life := Life [] [] [].

Inductive life_source :=
| L_nothing
| L_arrays (w a p x : nat)                       (* numbers of the caller's arrays *)
| L_copy (d : nat)                               (* another dataset *)
| L_file (name : string) (lines : list string)
| L_handle (unread : list string).

Inductive op :=
| L_array (l : list num)                         (* a = np.array([...]) *)
| L_write (a i : nat) (v : num)                  (* a[i] = v *)
| L_new (s : life_source) (delim : ascii) (reflect_delta : bool) (kwds : list (string * mask))
| L_mask (d : nat) (m : mask)                    (* d.mask = m *)
| L_columns (d : nat) (cols : list (result (list num)))
    (* d.data = cols; Raise e: np.array(column, dtype=float) raises e *)
| L_load (d : nat) (f : file_arg)
| L_refresh (d : nat) (mode : open_mode) (content : list string)
| L_save (d : nat).

Definition no_data : dataset := DataSE 0 0 0 0 MNone false false None tab.
Definition set_at (s : life) (d : nat) : dataset := nth d (map en_data (lf_sets s)) no_data.
Definition put_data (e : entry) (d : dataset) : entry := Entry d (en_metadata e).
Definition remask (d : dataset) (m : mask) : dataset :=
  DataSE (ds_wav d) (ds_aoi d) (ds_psi d) (ds_delta d) m (ds_flipped d) (ds_weighted d) (ds_file d) (ds_delim d).

(** the argument [data] of the constructor, if the things it names exist *)
Definition source_of (s : life) (x : life_source) : option source :=
  match x with
  | L_nothing => Some FromNothing
  | L_arrays w a p x =>
      match nth_error (lf_user s) w, nth_error (lf_user s) a, nth_error (lf_user s) p, nth_error (lf_user s) x with
      | Some w, Some a, Some p, Some x => Some (FromArrays w a p x)
      | _, _, _, _ => None
      end
  | L_copy d => option_map (fun e => FromDataSE (en_data e)) (nth_error (lf_sets s) d)
  | L_file name lines => Some (FromFile name lines)
  | L_handle lines => Some (FromHandle lines)
  end.
(** self.metadata = kwds, or that of the dataset given (dataSE.py:66, 86) *)
Definition metadata_of (s : life) (x : life_source) (kwds : list (string * mask)) : list (string * mask) :=
  match x with
  | L_copy d => match nth_error (lf_sets s) d with Some e => en_metadata e | None => kwds end
  | _ => kwds
  end.

(** the data setter (dataSE.py:180-201): the columns are replaced one by one, the mask at the end *)
Definition column (cols : list (result (list num))) (i : nat) : result (list num) :=
  match nth_error cols i with Some c => c | None => Raise IndexError end.
Definition readdress (d : dataset) (w a p x : nat) : dataset :=
  DataSE w a p x (ds_mask d) (ds_flipped d) (ds_weighted d) (ds_file d) (ds_delim d).
Definition set_data_tuple (h : heap) (d : dataset) (cols : list (result (list num))) : result unit * (dataset * heap) :=
  match column cols 0 with
  | Raise e => (Raise e, (d, h))
  | Ok w =>
  let '(iw, h) := alloc h w in
  match column cols 1 with
  | Raise e => (Raise e, (readdress d iw (ds_aoi d) (ds_psi d) (ds_delta d), h))
  | Ok a =>
  let '(ia, h) := alloc h a in
  match column cols 2 with
  | Raise e => (Raise e, (readdress d iw ia (ds_psi d) (ds_delta d), h))
  | Ok p =>
  let '(ip, h) := alloc h p in
  match column cols 3 with
  | Raise e => (Raise e, (readdress d iw ia ip (ds_delta d), h))
  | Ok x =>
  let '(ix, h) := alloc h x in
  (Ok tt, (remask (readdress d iw ia ip ix) (all_true w), h))
  end end end end.

(** d.f(...) where f computes the new object and the new heap *)
Definition on_set (s : life) (d : nat) (f : dataset -> result unit * (dataset * heap)) : result unit * life :=
  match nth_error (lf_sets s) d with
  | None => (Raise OtherError, s)
  | Some e => let '(r, (d', h')) := f (en_data e) in
              (r, Life h' (lf_user s) (update (lf_sets s) d (fun e => put_data e d')))
  end.
(** an exception leaves the object as it was *)
Definition or_keep (d : dataset) (h : heap) (r : result (dataset * heap)) : result unit * (dataset * heap) :=
  match r with Ok x => (Ok tt, x) | Raise e => (Raise e, (d, h)) end.

Definition act (pf : string -> option num) (s : life) (o : op) : result unit * life :=
  match o with
  | L_array l => (Ok tt, let '(a, h) := alloc (lf_heap s) l in Life h (lf_user s ++ [a]) (lf_sets s))
  | L_write a i v =>
      match nth_error (lf_user s) a with
      | None => (Raise OtherError, s)
      | Some adr => if Nat.ltb i (List.length (arr (lf_heap s) adr))
                    then (Ok tt, Life (update (lf_heap s) adr (fun l => update l i (fun _ => v))) (lf_user s) (lf_sets s))
                    else (Raise IndexError, s)
      end
  | L_new x delim reflect kwds =>
      match source_of s x with
      | None => (Raise OtherError, s)
      | Some src => match new_dataset pf (lf_heap s) delim src reflect with
                    | Raise e => (Raise e, s)
                    | Ok (d, h) => (Ok tt, Life h (lf_user s) (lf_sets s ++ [Entry d (metadata_of s x kwds)]))
                    end
      end
  | L_mask d m => on_set s d (fun y => (Ok tt, (remask y m, lf_heap s)))
  | L_columns d cols => on_set s d (fun y => set_data_tuple (lf_heap s) y cols)
  | L_load d f => on_set s d (fun y => or_keep y (lf_heap s) (load pf (lf_heap s) y f))
  | L_refresh d mode content => on_set s d (fun y => or_keep y (lf_heap s) (fst (refresh pf mode (lf_heap s) y content)))
  | L_save d => on_set s d (fun y => (Ok tt, (y, lf_heap s)))
  end.

(** statements one after the other; an exception is caught *)
Definition acts (pf : string -> option num) (s : life) (l : list op) : life :=
  fold_left (fun s o => snd (act pf s o)) l s.
