(** * Columns a fit was not made for: nan wavelengths and angles, 2-d columns.

    ReflectModelSE.model (reflect_modelSE.py 355-396) and ObjectiveSE.residuals and chisqr
    (objectiveSE.py 183-226) once more, for every content of the columns.  Here [None] is nan
    (infinite values are not covered).  The results only; the wavelength left in the structure
    is nan if there is a nan wavelength. *)

Require Import Reals List Bool ZArith String.
From Coquelicot Require Import Complex.
From Verif Require Import Base Cplx M_tmm M_ema M_disp M_struct M_model M_data M_objective.
Import ListNotations.
Open Scope list_scope.
Open Scope R_scope.

Definition finite_part (l : list num) : list R := flat_map (fun v => match v with Some x => [x] | None => [] end) l.
(** wavelength == wav; nan equals nothing *)
Definition is_wav (wav : R) (v : num) : bool :=
  match v with Some w => if Req_EM_T w wav then true else false | None => false end.

(** out[idx] = vals with idx = np.where(wavelength == wav) (lines 382, 393-394) *)
Fixpoint put_any (wav : R) (X : list (num * num)) (out vals : list num) : list num :=
  match X, out with
  | x :: X', o :: out' =>
      if is_wav wav (fst x) then
        match vals with
        | v :: vals' => v :: put_any wav X' out' vals'
        | [] => o :: put_any wav X' out' []
        end
      else o :: put_any wav X' out' vals
  | _, _ => []
  end.
(** aois[idx] (line 383) *)
Definition select_any (wav : R) (X : list (num * num)) : list num :=
  map snd (filter (fun x => is_wav wav (fst x)) X).

(** lines 384-392.  A nan angle fails the test of the fronting medium in coh_tmm (line 132: the
    imaginary part of (n + 0j) * nan is nan), after Delta_Psi_TMM accessed the first row *)
Definition one_any (ext : externals) (s : structure) (off : R) (flip : bool) (wav : R) (aoi : list num)
  : result (list (num * num)) * structure :=
  match all_some aoi with
  | Some a => one_wavelength ext s off flip wav a
  | None =>
      let s := set_wavelength s (Some wav) in
      (match fst (structure_slabs ext s None) with
       | Raise e => Raise e
       | Ok None => Raise TypeError
       | Ok (Some []) => Raise IndexError
       | Ok (Some _) => Raise AssertionError
       end, s)
  end.

(** the last round, when there is a nan wavelength (np.unique sorts nan last): no entry of the
    column equals nan, so Delta_Psi_TMM is called without angles and nothing is stored.  Only
    exceptions matter.  Simplified: the slab table is that of an arbitrary wavelength (1 nm);
    C126_errors proves that exceptions do not depend on it. *)
Definition nan_round (ext : externals) (s : structure) (off : R) (flip : bool) : result unit :=
  rmap (fun _ => tt) (fst (one_wavelength ext s off flip 1 [])).

Fixpoint any_loop (ext : externals) (off : R) (flip : bool) (X : list (num * num))
    (wavs : list R) (s : structure) (psi delta : list num) : result (list num * list num) :=
  match wavs with
  | [] => if existsb (fun x => match fst x with None => true | Some _ => false end) X
          then rmap (fun _ => (psi, delta)) (nan_round ext s off flip)
          else Ok (psi, delta)
  | wav :: wavs' =>
      match one_any ext s off flip wav (select_any wav X) with
      | (Raise e, _) => Raise e
      | (Ok vals, s') =>
          any_loop ext off flip X wavs' s'
            (put_any wav X psi (map fst vals)) (put_any wav X delta (map snd vals))
      end
  end.
Definition model_any (ext : externals) (s : structure) (off : R) (flip : bool) (X : list (num * num))
  : result (list num * list num) :=
  let zeros := repeat (Some 0) (List.length X) in
  any_loop ext off flip X (np_unique (finite_part (map fst X))) s zeros zeros.

(** ** The objective *)

(** np.c_[wavelength, aoi] (objectiveSE.py:202) and its two rows (reflect_modelSE.py:377).  Of
    2-d columns np.c_ makes a single row of all wavelengths and angles, which has two columns to
    unpack only if it consists of two numbers.  All columns of a dataset have one mask, so other
    combinations do not occur (OtherError). *)
Definition wavelength_aoi_any (w a : ndarray) : result (list (num * num)) :=
  match w, a with
  | A1 w, A1 a => if Nat.eqb (List.length w) (List.length a) then Ok (combine w a) else Raise ValueError
  | A2 [w], A2 [a] => match w ++ a with [x; y] => Ok [(x, y)] | _ => Raise ValueError end
  | _, _ => Raise OtherError
  end.

(** np.r_[psi - psi_d, delta_err]; with 2-d data the result is a column *)
Definition residual_array (psi delta : list num) (psi_d delta_d : ndarray) : result ndarray :=
  let both p x :=
    rbind (zip_columns (fun x y => circular_distance x y 360) delta x) (fun delta_err =>
    rmap (fun psi_err => psi_err ++ delta_err) (zip_columns Rminus psi p)) in
  match psi_d, delta_d with
  | A1 p, A1 x => rmap A1 (both p x)
  | A2 [p], A2 [x] => rmap (fun r => A2 (map (fun v => [v]) r)) (both p x)
  | _, _ => Raise OtherError
  end.

Definition residuals_any (sy : system) (o : objective) (pvals : option (list R)) (st : state) : result ndarray :=
  match setp sy o pvals st with
  | (Raise e, _) => Raise e
  | (Ok _, st) =>
      rbind (get_data (sy_heap sy) (ob_data o)) (fun '(w, a, p, x) =>
      rbind (wavelength_aoi_any w a) (fun X =>
      rbind (model_any (sy_ext sy) (current sy st (ob_model o)) (value sy st (mo_offset (the_model sy (ob_model o))))
                       (nth (ob_model o) (st_flips st) false) X) (fun '(psi, delta) =>
      residual_array psi delta p x)))
  end.

(** np.dot(res, res); two columns cannot be multiplied *)
Definition chisqr_any (sy : system) (o : objective) (pvals : option (list R)) (st : state) : result num :=
  rbind (residuals_any sy o pvals st) (fun r =>
  match r with
  | A1 res => Ok (nsum (map (omap (fun x => x * x)) res))
  | A2 [[x]] => Ok (omap (fun x => x * x) x)
  | A2 _ => Raise ValueError
  end).
