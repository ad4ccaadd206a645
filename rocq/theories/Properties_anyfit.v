(** * Property theorems: points without a wavelength or an angle, and 2-d columns (C126)

    [model_any], [residuals_any] and [chisqr_any] are model, residuals and chisqr for every
    content of the columns; None is nan. *)

Require Import Reals List Bool ZArith String.
From Coquelicot Require Import Complex.
From Verif Require Import Base M_tmm M_disp M_struct M_model P_struct2 P_model2 M_data Spec_data M_objective Spec_objective
  P_objective3 M_anyfit Spec_anyfit P_anyfit P_anyfit2.
Import ListNotations.
Open Scope list_scope.
Open Scope R_scope.

(** finite columns: nothing new *)
Theorem C126_finite :
  (forall ext s off flip X, model_any ext s off flip (map (fun x : R * R => (Some (fst x), Some (snd x))) X) =
     fst (model ext DFloat s off flip X)) /\
  (forall sy o v st r, fst (residuals sy o v st) = Ok r -> residuals_any sy o v st = Ok (A1 r)) /\
  (forall sy o v st r, fst (chisqr sy o v st) = Ok r -> chisqr_any sy o v st = Ok r).
Proof. exact (conj any_extends (conj residuals_extend chisqr_extend)). Qed.
Print Assumptions C126_finite.

(** ** model() *)
Theorem C126_points ext s off flip X psi delta (returned : model_any ext s off flip X = Ok (psi, delta)) :
  List.length psi = List.length X /\ List.length delta = List.length X /\
  Forall2 (value_at (single ext s off flip)) X (combine psi delta) /\
  (In None (map fst X) -> fst (one_wavelength ext s off flip 1 []) = Ok []).
Proof. exact (any_points ext s off flip X psi delta returned). Qed.
Print Assumptions C126_points.

Theorem C126_returns ext s off flip X pds
    (values : Forall2 (value_at (single ext s off flip)) X pds)
    (table : In None (map fst X) -> fst (one_wavelength ext s off flip 1 []) = Ok []) :
  model_any ext s off flip X = Ok (map fst pds, map snd pds).
Proof. exact (any_from_points ext s off flip X pds values table). Qed.
Print Assumptions C126_returns.

Example C126_example ext off flip a :
  model_any ext glass off flip [(None, a); (Some 633, Some 0)] = Ok ([Some 0; Some 45], [Some 0; Some (180 + off)]).
Proof. exact (glass_nan ext off flip a). Qed.

(** nan in, nan out: not for the wavelength *)
Theorem C126_nan_refuted : exists s off X, In None (map fst X) /\ forall ext flip,
  exists psi delta, model_any ext s off flip X = Ok (psi, delta) /\ ~ In None psi /\ ~ In None delta.
Proof. exact nan_refuted. Qed.
Print Assumptions C126_nan_refuted.

(** a nan angle stops the calculation of all points *)
Theorem C126_angle ext s off flip X w (no_angle : In (Some w, None) X) :
  (exists e, model_any ext s off flip X = Raise e) /\
  ((forall v, In (Some v) (map fst X) -> exists rows, (2 <= List.length rows)%nat /\
      fst (structure_slabs ext (set_wavelength s (Some v)) None) = Ok (Some rows)) ->
   model_any ext s off flip X = Raise AssertionError).
Proof. exact (conj (unangled_raises ext s off flip X w no_angle) (unangled_assertion ext s off flip X w no_angle)). Qed.
Print Assumptions C126_angle.

Example C126_angle_example ext off flip a :
  model_any ext glass off flip [(Some 633, Some a); (Some 500, None)] = Raise AssertionError.
Proof. exact (glass_angle ext off flip a). Qed.

(** whether the slab table can be made does not depend on the wavelength *)
Theorem C126_errors ext s off flip w w' (components : ordinary s) (W : w <> 0) (W' : w' <> 0) :
  fst (one_wavelength ext s off flip w []) = fst (one_wavelength ext s off flip w' []).
Proof. exact (errors_same ext s off flip w w' components W W'). Qed.
Print Assumptions C126_errors.

Example C126_errors_example ext off flip : ordinary glass /\ fst (one_wavelength ext glass off flip 1 []) = Ok [].
Proof. exact (conj glass_ordinary (glass_nil ext off flip)). Qed.

(** ** residuals() *)
Theorem C126_residuals sy o v st st1 pts m sel r
    (data : holds (sy_heap sy) (ob_data o) pts) (mask : ds_mask (ob_data o) = MBool m) (unmasked : kept m pts sel)
    (parameters_set : setp sy o v st = (Ok tt, st1)) (returned : residuals_any sy o v st = Ok r) :
  exists rpsi rdelta, r = A1 (rpsi ++ rdelta) /\
    List.length rpsi = List.length sel /\ List.length rdelta = List.length sel /\
    forall i x, nth_error sel i = Some x -> exists pd a b,
      nth_error rpsi i = Some a /\ nth_error rdelta i = Some b /\
      value_at (fun wa pd => predicts sy st1 (ob_model o) [wa] [fst pd] [snd pd]) (p_wav x, p_aoi x) pd /\
      residual_of pd (p_psi x) (p_delta x) a b.
Proof. exact (residuals_points sy o v st st1 pts m sel r data mask unmasked parameters_set returned). Qed.
Print Assumptions C126_residuals.

(** a point without a wavelength has the same residuals whatever the parameters are *)
Theorem C126_residual_fixed sy o v v' st st' pts m sel r r' i x
    (data : holds (sy_heap sy) (ob_data o) pts) (mask : ds_mask (ob_data o) = MBool m) (unmasked : kept m pts sel)
    (returned : residuals_any sy o v st = Ok (A1 r)) (returned' : residuals_any sy o v' st' = Ok (A1 r'))
    (point : nth_error sel i = Some x) (no_wavelength : p_wav x = None) :
  nth_error r i = nth_error r' i /\ nth_error r (List.length sel + i)%nat = nth_error r' (List.length sel + i)%nat /\
  exists a b, nth_error r i = Some a /\ nth_error r (List.length sel + i)%nat = Some b /\
    residual_of (Some 0, Some 0) (p_psi x) (p_delta x) a b.
Proof. exact (residual_fixed sy o v v' st st' pts m sel r r' i x data mask unmasked returned returned' point no_wavelength). Qed.
Print Assumptions C126_residual_fixed.

(** the first point has no wavelength; x is the offset *)
Example C126_residuals_example l x d (small : Rabs d <= 180) (near : Rabs (x - 1) <= 180) :
  holds (heap_n d) (data_n (MBool [true; true])) (pts_n d) /\
  residuals_any (sys_ex 1 (3 / 2) (heap_n d)) (ob_n (MBool [true; true])) (Some [l; x]) (st_g 0 0 None) =
  Ok (A1 [Some (-30); Some 0; Some (Rabs d); Some (Rabs (x - 1))]).
Proof. exact (conj (holds_n d _) (residuals_n l x d small near)). Qed.

(** ** mask = None *)
Theorem C126_mask_none sy o v st pts
    (data : holds (sy_heap sy) (ob_data o) pts) (mask : ds_mask (ob_data o) = MNone) :
  (forall st1, setp sy o v st = (Ok tt, st1) -> (2 <= List.length pts)%nat -> residuals_any sy o v st = Raise ValueError) /\
  (pts <> [] -> exists e, chisqr_any sy o v st = Raise e).
Proof.
  exact (conj (fun st1 => mask_none_residuals sy o v st st1 pts data mask) (mask_none_chisqr sy o v st pts data mask)).
Qed.
Print Assumptions C126_mask_none.

(** a single point: residuals are a column, which chisqr cannot multiply *)
Theorem C126_mask_none_one sy o v st st1 x psi delta
    (data : holds (sy_heap sy) (ob_data o) [x]) (mask : ds_mask (ob_data o) = MNone)
    (parameters_set : setp sy o v st = (Ok tt, st1))
    (calculated : model_any (sy_ext sy) (current sy st1 (ob_model o)) (value sy st1 (mo_offset (the_model sy (ob_model o))))
                            (nth (ob_model o) (st_flips st1) false) [(p_wav x, p_aoi x)] = Ok ([psi], [delta])) :
  exists a b, residual_of (psi, delta) (p_psi x) (p_delta x) a b /\
    residuals_any sy o v st = Ok (A2 [[a]; [b]]) /\ chisqr_any sy o v st = Raise ValueError.
Proof. exact (mask_none_one sy o v st st1 x psi delta data mask parameters_set calculated). Qed.
Print Assumptions C126_mask_none_one.

Example C126_mask_none_example d : holds (heap_n d) (data_n MNone) (pts_n d) /\
  residuals_any (sys_ex 1 (3 / 2) (heap_n d)) (ob_n MNone) None (st_g 0 0 None) = Raise ValueError.
Proof. exact (conj (holds_n d MNone) (mask_none_n d None _ eq_refl)). Qed.
