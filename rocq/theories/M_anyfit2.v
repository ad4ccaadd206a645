(** * The likelihood for every content of the columns: logl (objectiveSE.py 353-419) and logpost
    (objectiveSE.py 421-451) for nan wavelengths and angles and for 2-d columns, as in M_anyfit.
    The results only. *)

Require Import Reals List Bool.
From Verif Require Import Base M_struct M_model M_data M_objective M_anyfit.
Import ListNotations.
Open Scope list_scope.
Open Scope R_scope.

(** lines 396-413: the array whose entries are added.
    - 1-d residuals: entry by entry;
    - a column of residuals (mask None, one point) and the scalar variance 1: a column;
    - a column of residuals and the variances of psi and delta: numpy combines each residual with
      each variance; if the logarithms were added before, the two entries of logl cannot take up
      the table (ValueError) *)
Definition logl_array (w : bool) (lns : option R) (psi delta : list num) (res : ndarray) : result (list num) :=
  match lns, res with
  | None, A1 r => Ok (map (logl_term w (Some 1)) r)
  | None, A2 rows => Ok (map (logl_term w (Some 1)) (List.concat rows))
  | Some s, A1 r => Ok (map2 (logl_term w) (map (omap (fun m => 1 * 1 + exp (2 * s) * m * m)) (psi ++ delta)) r)
  | Some s, A2 rows =>
      if w then Raise ValueError
      else Ok (flat_map (fun r => map (fun m => logl_term false (omap (fun m => 1 * 1 + exp (2 * s) * m * m) m) r) (psi ++ delta))
                        (List.concat rows))
  end.

Definition logl_any (sy : system) (o : objective) (pvals : option (list R)) (st : state) : result R :=
  match setp sy o pvals st with
  | (Raise e, _) => Raise e
  | (Ok _, st) =>
      rbind (get_data (sy_heap sy) (ob_data o)) (fun '(w, a, _, _) =>
      rbind (wavelength_aoi_any w a) (fun X =>
      rbind (model_any (sy_ext sy) (current sy st (ob_model o)) (value sy st (mo_offset (the_model sy (ob_model o))))
                       (nth (ob_model o) (st_flips st) false) X) (fun '(psi, delta) =>
      rbind (residuals_any sy o None st) (fun res =>
      rbind (logl_array (weighted o) (option_map (value sy st) (ob_lnsigma o)) psi delta res) (fun l =>
      match all_some l with
      | Some l => Ok (- (1 / 2) * Rsum l)
      | None => Raise RuntimeError
      end)))))
  end.

(** [None] = -inf *)
Definition logpost_any (sy : system) (o : objective) (pvals : option (list R)) (st : state) : result (option R) :=
  match setp sy o pvals st with
  | (Raise e, _) => Raise e
  | (Ok _, st) =>
      rbind (fst (logp sy o None st)) (fun lp =>
      match lp with
      | None => Ok None
      | Some x => rmap (fun y => Some (x + y)) (logl_any sy o None st)
      end)
  end.
