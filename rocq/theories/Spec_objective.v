(** * Specification of the objective *)

Require Import Reals List Bool ZArith.
From Verif Require Import Base M_disp M_struct M_model M_data Spec_data M_objective.
Import ListNotations.
Open Scope list_scope.
Open Scope R_scope.

(** [d] is the distance of [a] and [b] on a circle of circumference [per]: the distance of
    [a - b] to the nearest multiple of [per] *)
Definition circle_distance (per a b d : R) : Prop :=
  (exists k : Z, d = Rabs (a - b + IZR k * per)) /\
  forall k : Z, d <= Rabs (a - b + IZR k * per).

(** a point was measured at the given wavelength and angle *)
Definition measured (x : point) (wa : R * R) : Prop :=
  p_wav x = Some (fst wa) /\ p_aoi x = Some (snd wa).

(** the objective's data are the points [pts], of which [sel] are not masked, measured at [X] *)
Definition has_data (sy : system) (o : objective) (sel : list point) (X : list (R * R)) : Prop :=
  exists pts m, holds (sy_heap sy) (ob_data o) pts /\ ds_mask (ob_data o) = MBool m /\
    kept m pts sel /\ Forall2 measured sel X.

(** the model's prediction in the state [st] *)
Definition predicts (sy : system) (st : state) (m : nat) (X : list (R * R)) (psi delta : list num) : Prop :=
  fst (call_model sy m X st) = Ok (psi, delta).

(** arithmetic with nan *)
Definition minus (a b : num) (r : num) : Prop :=
  match a, b with Some x, Some y => r = Some (x - y) | _, _ => r = None end.
(** on the circle of 360 degrees; only correct for numbers at most 360 apart *)
Definition distance (a b : num) (r : num) : Prop :=
  match a, b with
  | Some x, Some y => exists d, r = Some d /\
      (Rabs (x - y) <= 360 -> circle_distance 360 x y d) /\ (360 < Rabs (x - y) -> d = 360 - Rabs (x - y))
  | _, _ => r = None
  end.

Fixpoint sum (l : list R) : R := match l with [] => 0 | x :: l' => x + sum l' end.

(** refnx: a constrained parameter does not vary *)
Definition well_formed (sy : system) : Prop :=
  forall p, p_vary (sy_params sy p) = true -> p_constraint (sy_params sy p) = None.

(** number [i] is the position of the last occurrence of [q] *)
Definition last_at (l : list pid) (q : pid) (i : nat) : Prop :=
  nth_error l i = Some q /\ forall j, (i < j)%nat -> nth_error l j <> Some q.

(** every point visited by a numerical differentiation has length [n] *)
Inductive visits (n : nat) : differentiator -> Prop :=
| visits_probe v k : List.length v = n -> (forall r, visits n (k r)) -> visits n (Probe v k)
| visits_return jac : visits n (Return jac)
| visits_throw e : visits n (Throw e).

(** ** Histories: calls on objectives, and assignments to structure.wavelength *)
Inductive event :=
| E_setp (o : objective) (v : option (list R))
| E_residuals (o : objective) (v : option (list R))
| E_chisqr (o : objective) (v : option (list R))
| E_logp (o : objective) (v : option (list R))
| E_logl (o : objective) (v : option (list R))
| E_logpost (o : objective) (v : option (list R))
| E_covar (o : objective) (a1 a2 : list R -> differentiator)
    (algebra : list (list R) -> bool -> list R -> result (list (list R)))
| E_wavelength (a : nat) (w : option R).
Definition step (sy : system) (st : state) (e : event) : state :=
  match e with
  | E_setp o v => snd (setp sy o v st)
  | E_residuals o v => snd (residuals sy o v st)
  | E_chisqr o v => snd (chisqr sy o v st)
  | E_logp o v => snd (logp sy o v st)
  | E_logl o v => snd (logl sy o v st)
  | E_logpost o v => snd (logpost sy o v st)
  | E_covar o a1 a2 alg => snd (covar sy o a1 a2 alg st)
  | E_wavelength a w => State (st_store st) (update (st_wavelengths st) a (fun _ => w)) (st_flips st)
  end.

(** a vector which is not one of values for all parameters *)
Definition partial_vector (sy : system) (o : objective) (v : option (list R)) : Prop :=
  match v with
  | None => True
  | Some l => List.length l = List.length (varying_parameters sy o) \/
              List.length l <> List.length (parameters sy o)
  end.
(** events on [o] or on an objective that varies no further parameter *)
Definition allowed (sy : system) (o : objective) (e : event) : Prop :=
  match e with
  | E_setp o' v | E_residuals o' v | E_chisqr o' v | E_logp o' v | E_logl o' v | E_logpost o' v =>
      incl (varying_parameters sy o') (varying_parameters sy o) /\ partial_vector sy o' v
  | E_covar o' a1 a2 _ =>
      forall v, visits (List.length v) (a1 v) /\ visits (List.length v) (a2 v)
  | E_wavelength _ _ => True
  end.

Definition with_extra (o : objective) (f : option (system -> state -> R)) : objective :=
  Objective (ob_model o) (ob_data o) (ob_lnsigma o) (ob_use_weights o) f.

(** variance of a point with prediction [m] *)
Definition variance (sy : system) (st : state) (o : objective) (m : R) : R :=
  match ob_lnsigma o with
  | Some p => 1 + exp (2 * value sy st p) * m ^ 2
  | None => 1
  end.
(** its term of the log-likelihood *)
Definition term (sy : system) (st : state) (o : objective) (m r : R) : R :=
  r ^ 2 / variance sy st o m +
  (if ds_weighted (ob_data o) && ob_use_weights o then ln (2 * PI * variance sy st o m) else 0).

(** the varying parameters have the given finite intervals as bounds *)
Definition intervals (sy : system) (o : objective) (bs : list (R * R)) : Prop :=
  map (fun p => p_bounds (sy_params sy p)) (varying_parameters sy o) = map (fun b => Interval (fst b) (snd b)) bs.

(** the two systems differ only in the data and in what computes index files, interpolation etc. *)
Definition other_model (sy : system) (ext : externals) (h : heap) : system :=
  System (sy_params sy) ext (sy_structures sy) (sy_models sy) h.
