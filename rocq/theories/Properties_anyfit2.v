(** * Property theorems: the likelihood of points without a wavelength and of a cleared mask (C138)

    [logl_any] and [logpost_any] are logl and logpost for every content of the columns; None is nan. *)

Require Import Reals List Bool ZArith String Lra.
From Verif Require Import Base M_disp M_struct M_model P_struct2 P_model2 M_data Spec_data M_objective Spec_objective
  P_objective3 M_anyfit Spec_anyfit P_anyfit P_anyfit2 M_anyfit2 Spec_anyfit2 P_anyfit3 P_anyfit4.
Import ListNotations.
Open Scope list_scope.
Open Scope R_scope.

(** where logl and logpost of C06-C10 return, nothing new *)
Theorem C138_finite :
  (forall sy o v st r, fst (logl sy o v st) = Ok r -> logl_any sy o v st = Ok r) /\
  (forall sy o v st r, fst (logpost sy o v st) = Ok r -> logpost_any sy o v st = Ok r).
Proof. exact (conj logl_extend logpost_extend). Qed.
Print Assumptions C138_finite.

(** logl is a sum over the unmasked points; [st1] is the state after setp *)
Theorem C138_points sy o v st st1 pts m sel L
    (columns_hold : holds (sy_heap sy) (ob_data o) pts) (masked : ds_mask (ob_data o) = MBool m) (unmasked : kept m pts sel)
    (values_set : setp sy o v st = (Ok tt, st1)) (returned : logl_any sy o v st = Ok L) :
  (exists ts, Forall2 (contributes (fun wa pd => predicts sy st1 (ob_model o) [wa] [fst pd] [snd pd]) (weighted o)
                         (option_map (value sy st1) (ob_lnsigma o))) sel ts /\ L = - (1 / 2) * total ts) /\
  (In None (map p_wav sel) ->
   fst (one_wavelength (sy_ext sy) (current sy st1 (ob_model o)) (value sy st1 (mo_offset (the_model sy (ob_model o))))
          (nth (ob_model o) (st_flips st1) false) 1 []) = Ok []).
Proof. exact (logl_points sy o v st st1 pts m sel columns_hold masked unmasked values_set L returned). Qed.
Print Assumptions C138_points.

(** and conversely *)
Theorem C138_returns sy o v st st1 pts m sel ts
    (columns_hold : holds (sy_heap sy) (ob_data o) pts) (masked : ds_mask (ob_data o) = MBool m) (unmasked : kept m pts sel)
    (values_set : setp sy o v st = (Ok tt, st1))
    (addends : Forall2 (contributes (fun wa pd => predicts sy st1 (ob_model o) [wa] [fst pd] [snd pd]) (weighted o)
                          (option_map (value sy st1) (ob_lnsigma o))) sel ts)
    (table : In None (map p_wav sel) ->
       fst (one_wavelength (sy_ext sy) (current sy st1 (ob_model o)) (value sy st1 (mo_offset (the_model sy (ob_model o))))
              (nth (ob_model o) (st_flips st1) false) 1 []) = Ok []) :
  logl_any sy o v st = Ok (- (1 / 2) * total ts).
Proof. exact (logl_from_points sy o v st st1 pts m sel columns_hold masked unmasked values_set ts addends table). Qed.
Print Assumptions C138_returns.

(** [o'] is [o] with data from which the points without a wavelength are removed: these points add a
    constant to logl and logpost, whatever the parameter values *)
Theorem C138_without sy o o' v st pts m sel pts' m' L
    (columns_hold : holds (sy_heap sy) (ob_data o) pts) (masked : ds_mask (ob_data o) = MBool m) (unmasked : kept m pts sel)
    (columns_hold' : holds (sy_heap sy) (ob_data o') pts') (masked' : ds_mask (ob_data o') = MBool m')
    (removed : kept m' pts' (filter has_wavelength sel))
    (same_model : ob_model o' = ob_model o) (same_lnsigma : ob_lnsigma o' = ob_lnsigma o) (same_weights : weighted o' = weighted o)
    (returned : logl_any sy o v st = Ok L) :
  exists L' cs, logl_any sy o' v st = Ok L' /\
    Forall2 (lost (weighted o)) (filter (fun x => negb (has_wavelength x)) sel) cs /\ L = L' - total cs / 2.
Proof.
  exact (logl_without sy o o' v st pts m sel pts' m' L columns_hold masked unmasked columns_hold' masked' removed
           same_model same_lnsigma same_weights returned).
Qed.
Print Assumptions C138_without.

Theorem C138_shape sy o o' v1 v2 st1 st2 pts m sel pts' m' L1 L2
    (columns_hold : holds (sy_heap sy) (ob_data o) pts) (masked : ds_mask (ob_data o) = MBool m) (unmasked : kept m pts sel)
    (columns_hold' : holds (sy_heap sy) (ob_data o') pts') (masked' : ds_mask (ob_data o') = MBool m')
    (removed : kept m' pts' (filter has_wavelength sel))
    (same_model : ob_model o' = ob_model o) (same_lnsigma : ob_lnsigma o' = ob_lnsigma o) (same_weights : weighted o' = weighted o)
    (returned1 : logl_any sy o v1 st1 = Ok L1) (returned2 : logl_any sy o v2 st2 = Ok L2) :
  exists L1' L2', logl_any sy o' v1 st1 = Ok L1' /\ logl_any sy o' v2 st2 = Ok L2' /\ L1 - L2 = L1' - L2'.
Proof.
  exact (logl_shape sy o o' v1 v2 st1 st2 pts m sel pts' m' L1 L2 columns_hold masked unmasked columns_hold' masked' removed
           same_model same_lnsigma same_weights returned1 returned2).
Qed.
Print Assumptions C138_shape.

Theorem C138_posterior sy o o' v st pts m sel pts' m' r
    (columns_hold : holds (sy_heap sy) (ob_data o) pts) (masked : ds_mask (ob_data o) = MBool m) (unmasked : kept m pts sel)
    (columns_hold' : holds (sy_heap sy) (ob_data o') pts') (masked' : ds_mask (ob_data o') = MBool m')
    (removed : kept m' pts' (filter has_wavelength sel))
    (same_model : ob_model o' = ob_model o) (same_lnsigma : ob_lnsigma o' = ob_lnsigma o) (same_weights : weighted o' = weighted o)
    (returned : logpost_any sy o v st = Ok r) :
  match r with
  | None => logpost_any sy o' v st = Ok None
  | Some P => exists P' cs, logpost_any sy o' v st = Ok (Some P') /\
      Forall2 (lost (weighted o)) (filter (fun x => negb (has_wavelength x)) sel) cs /\ P = P' - total cs / 2
  end.
Proof.
  exact (logpost_without sy o o' v st pts m sel pts' m' r columns_hold masked unmasked columns_hold' masked' removed
           same_model same_lnsigma same_weights returned).
Qed.
Print Assumptions C138_posterior.

(** glass in air: the first of two points has no wavelength; the objective [ob_rest] has the second only *)
Example C138_example l x d uw (small : Rabs d <= 180) (near : Rabs (x - 1) <= 180) : let sy := sys_ex 1 (3 / 2) (heap_two d) in
  holds (sy_heap sy) (ob_data (ob_two uw)) (pts_n d) /\ kept [true; true] (pts_n d) (pts_n d) /\
  holds (sy_heap sy) (ob_data (ob_rest uw)) [pt_two] /\ kept [true] [pt_two] (filter has_wavelength (pts_n d)) /\
  exists L, logl_any sy (ob_two uw) (Some [l; x]) (st_g 0 0 None) = Ok L.
Proof. exact (two_logl l x d uw small near). Qed.

(** the mask cleared by [data.mask = None], one point *)
Theorem C138_mask_none_one sy o v st st1 x p d p0 d0 b
    (columns_hold : holds (sy_heap sy) (ob_data o) [x]) (cleared : ds_mask (ob_data o) = MNone)
    (values_set : setp sy o v st = (Ok tt, st1)) (psi_measured : p_psi x = Some p0) (delta_measured : p_delta x = Some d0)
    (distance_of_delta : distance (Some d) (Some d0) (Some b))
    (calculated : model_any (sy_ext sy) (current sy st1 (ob_model o)) (value sy st1 (mo_offset (the_model sy (ob_model o))))
                    (nth (ob_model o) (st_flips st1) false) [(p_wav x, p_aoi x)] = Ok ([Some p], [Some d])) :
  match ob_lnsigma o with
  | None => logl_any sy o v st = Ok (- (1 / 2) * (addend (weighted o) None p (p - p0) + addend (weighted o) None d b))
  | Some s => if weighted o then logl_any sy o v st = Raise ValueError
      else let s := Some (value sy st1 s) in
           logl_any sy o v st = Ok (- (1 / 2) * ((addend false s p (p - p0) + addend false s d (p - p0)) + (addend false s p b + addend false s d b)))
  end.
Proof. exact (logl_one sy o v st st1 x p d p0 d0 b columns_hold cleared values_set psi_measured delta_measured distance_of_delta calculated). Qed.
Print Assumptions C138_mask_none_one.

Example C138_mask_none_example uw : holds (sy_heap sys_one) (ob_data (ob_one MNone uw)) [pt_one] /\
  distance (Some (180 + 0)) (Some 180) (Some 0) /\
  exists st1, setp sys_one (ob_one MNone uw) (Some [0; 0]) (st_g 0 0 None) = (Ok tt, st1) /\
  model_any (sy_ext sys_one) (current sys_one st1 0) (value sys_one st1 (mo_offset (the_model sys_one 0))) (nth 0 (st_flips st1) false)
    [(Some 633, Some 0)] = Ok ([Some 45], [Some (180 + 0)]).
Proof. exact (one_case uw). Qed.

(** that clearing the mask gives the likelihood of all points is false *)
Theorem C138_mask_none_refuted : exists sy x uw v st L L', let d mk := DataSE 0%nat 1%nat 2%nat 3%nat mk false true None tab in
  let o mk := Objective 0%nat (d mk) (Some 2%nat) uw None in
  holds (sy_heap sy) (d MNone) [x] /\
  logl_any sy (o (MBool [true])) v st = Ok L /\ logl_any sy (o MNone) v st = Ok L' /\ L' < L.
Proof. exact mask_none_refuted. Qed.
Print Assumptions C138_mask_none_refuted.
