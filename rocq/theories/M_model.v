(** * Model of ReflectModelSE (refellips/reflect_modelSE.py 297-442) and of
    plot_structure (tools/plottools.py 146-217). *)

Require Import Reals List Bool ZArith String.
From Coquelicot Require Import Complex.
From Verif Require Import Base Cplx M_tmm M_ema M_disp M_struct.
Import ListNotations.
Open Scope list_scope.
Open Scope R_scope.

(** np.unique: sorted, without repetitions *)
Fixpoint insert_unique (x : R) (l : list R) : list R :=
  match l with
  | [] => [x]
  | y :: l' => if Rlt_dec x y then x :: l
               else if Req_EM_T x y then l else y :: insert_unique x l'
  end.
Definition np_unique (l : list R) : list R := fold_right insert_unique [] l.

(** slabs()[..., :4] *)
Definition layer_of (r : slab) : layer := mkLayer (s_thick r) (s_ri r) (s_rough r).

(** dtype of the wavelength column, inherited by the output arrays (zeros_like, lines
    378-379).  A float assigned to an integer array is truncated towards zero; a nan gives
    some platform dependent integer. *)
Inductive dtype := DFloat | DInt (nan_value : R).
Definition trunc (x : R) : R := if Rle_dec 0 x then IZR (Int_part x) else - IZR (Int_part (- x)).
Definition store (t : dtype) (v : option R) : option R :=
  match t with
  | DFloat => v
  | DInt nan => Some (match v with Some x => trunc x | None => nan end)
  end.

(** out[idx] = vals with idx = np.where(wavelength == wav) *)
Fixpoint put (t : dtype) (wav : R) (X : list (R * R)) (out vals : list (option R)) : list (option R) :=
  match X, out with
  | x :: X', o :: out' =>
      if Req_EM_T (fst x) wav then
        match vals with
        | v :: vals' => store t v :: put t wav X' out' vals'
        | [] => o :: put t wav X' out' []
        end
      else o :: put t wav X' out' vals
  | _, _ => []
  end.

(** aois[idx] *)
Definition select (wav : R) (X : list (R * R)) : list R :=
  map snd (filter (fun x => if Req_EM_T (fst x) wav then true else false) X).

(** psi and delta of all points of one wavelength (reflect_modelSE.py:383-392); slabs() of an
    empty structure is None, which cannot be subscripted (TypeError) *)
Definition one_wavelength (ext : externals) (s : structure) (off : R) (flip : bool) (wav : R) (aoi : list R)
  : result (list (option R * option R)) * structure :=
  let s := set_wavelength s (Some wav) in
  match structure_slabs ext s None with
  | (Raise e, s) => (Raise e, s)
  | (Ok None, s) => (Raise TypeError, s)
  | (Ok (Some rows), s) => (fst (Delta_Psi_TMM aoi (map layer_of rows) wav off flip), s)
  end.

(** the loop over unique wavelengths (lines 381-394) *)
Fixpoint model_loop (ext : externals) (t : dtype) (off : R) (flip : bool) (X : list (R * R))
    (wavs : list R) (s : structure) (psi delta : list (option R))
  : result (list (option R) * list (option R)) * structure :=
  match wavs with
  | [] => (Ok (psi, delta), s)
  | wav :: wavs' =>
      match one_wavelength ext s off flip wav (select wav X) with
      | (Raise e, s') => (Raise e, s')
      | (Ok vals, s') =>
          model_loop ext t off flip X wavs' s'
            (put t wav X psi (map fst vals)) (put t wav X delta (map snd vals))
      end
  end.

(** model(wavelength_aoi) (reflect_modelSE.py:355-396 with p=None), [off] = delta_offset.value,
    [flip] = _flip_delta; X lists the pairs (wavelength, angle of incidence) *)
Definition model (ext : externals) (t : dtype) (s : structure) (off : R) (flip : bool) (X : list (R * R))
  : result (list (option R) * list (option R)) * structure :=
  let zeros := repeat (Some 0) (List.length X) in
  model_loop ext t off flip X (np_unique (map fst X)) s zeros zeros.

(** ** plot_structure (tools/plottools.py:146-217): the curves drawn and the structure
    afterwards.  [data] is the wavelength array of the objective's data when an objective is
    given instead of a structure. *)
Definition linspace6 (a b : R) : list R := map (fun i => a + INR i * ((b - a) / 5)) (seq 0 6).
Definition plotted_wavelengths (data : option (list R)) : list R :=
  match data with
  | None => [658]
  | Some ws =>
      let u := np_unique ws in
      if (8 <? List.length u)%nat then linspace6 (hd 0 u) (List.last u 0) else u
  end.

Fixpoint plot_loop (ext : externals) (s : structure) (wavs : list R)
  : result (list (list R * list (option C))) * structure :=
  match wavs with
  | [] => (Ok [], s)
  | wav :: wavs' =>
      let s := set_wavelength s (Some wav) in
      match ri_profile ext s None 0 with
      | Raise e => (Raise e, s)
      | Ok c => match plot_loop ext s wavs' with
                | (Ok cs, s') => (Ok (c :: cs), s')
                | (Raise e, s') => (Raise e, s')
                end
      end
  end.

Definition plot_structure (ext : externals) (s : structure) (data : option (list R)) (reverse : bool)
  : result (list (list R * list (option C))) * structure :=
  match plot_loop ext (set_reverse s reverse) (plotted_wavelengths data) with
  | (Ok cs, s') => (Ok cs, set_reverse s' false)
  | (Raise e, s') => (Raise e, s')
  end.
