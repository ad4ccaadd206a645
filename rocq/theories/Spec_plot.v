(** * Specification of plots *)

Require Import Reals List Bool ZArith String Sorted.
From Verif Require Import Base M_disp M_struct M_model M_data Spec_data M_objective Spec_objective M_plot.
Import ListNotations.
Open Scope list_scope.
Open Scope R_scope.

Definition least (l : list R) (a : R) : Prop := In a l /\ forall x, In x l -> a <= x.
Definition greatest (l : list R) (b : R) : Prop := In b l /\ forall x, In x l -> x <= b.

(** [n] equally spaced numbers from [a] to [b] *)
Definition evenly (n : nat) (a b : R) (xs : list R) : Prop :=
  List.length xs = n /\ forall i x, nth_error xs i = Some x -> x * INR (n - 1) = a * INR (n - 1 - i) + b * INR i.

(** the unmasked points of a dataset, and where they were measured *)
Definition has_points (sy : system) (d : dataset) (sel : list point) (X : list (R * R)) : Prop :=
  exists pts m, holds (sy_heap sy) d pts /\ ds_mask d = MBool m /\ kept m pts sel /\ Forall2 measured sel X.

(** abscissa and the other coordinate (wavelength, angle) of a plot against the angle or the
    wavelength *)
Definition abscissa (by_angle : bool) (x : R * R) : R := if by_angle then snd x else fst x.
Definition other (by_angle : bool) (x : R * R) : R := if by_angle then fst x else snd x.
Definition place (by_angle : bool) (x v : R) : R * R := if by_angle then (v, x) else (x, v).
Definition axis_name (by_angle : bool) : string := if by_angle then "aoi"%string else "wavelength"%string.

(** the curve shows what the model predicts in state [st], the other coordinate being [v] *)
Definition shows (sy : system) (st : state) (m : nat) (by_angle : bool) (v : R) (c : curve) : Prop :=
  List.length (cv_psi c) = List.length (cv_x c) /\ List.length (cv_delta c) = List.length (cv_x c) /\
  forall i x p d, nth_error (cv_x c) i = Some x -> nth_error (cv_psi c) i = Some p -> nth_error (cv_delta c) i = Some d ->
    predicts sy st m [place by_angle x v] [p] [d].

(** the points drawn are the data *)
Definition shows_data (by_angle : bool) (sel : list point) (X : list (R * R)) (f : figure) : Prop :=
  fg_x f = map (abscissa by_angle) X /\ fg_psi f = map p_psi sel /\ fg_delta f = map p_delta sel.

(** the axis: as asked, otherwise the angle if there are several *)
Definition axis_rule (xaxis : option string) (X : list (R * R)) (b : bool) : Prop :=
  match xaxis with
  | Some a => a = axis_name b
  | None => b = true <-> exists x y, In x X /\ In y X /\ snd x <> snd y
  end.

(** every constraint is computed from the numbers in unconstrained parameters *)
Definition resolved (sy : system) : Prop :=
  forall p f, p_constraint (sy_params sy p) = Some f ->
  forall s s', (forall q, p_constraint (sy_params sy q) = None -> s q = s' q) -> f s = f s'.

(** ** plot_ellipsdata: the data [d] and the model [m'] that are to be plotted *)
Definition given (data : option dataset) (m : option nat) (ob : option objective) (d : dataset) (m' : option nat) : Prop :=
  (exists o, ob = Some o /\ data = None /\ m = None /\ d = ob_data o /\ m' = Some (ob_model o)) \/
  (ob = None /\ data = Some d /\ m' = m).
Definition margin (by_angle : bool) : R := if by_angle then 5 else 50.

(** the curves of plot_ellipsdata for the points [X]: against the angle one per wavelength;
    against the wavelength only one, at the angle of the first point *)
Definition curves_spec sy st (X : list (R * R)) (m : option nat) (b : bool) (cs : list curve) : Prop :=
  exists lo hi, least (map (abscissa b) X) lo /\ greatest (map (abscissa b) X) hi /\
  match m, b with
  | None, _ => cs = []
  | Some m, true => exists vs, StronglySorted Rlt vs /\ (forall v, In v vs <-> In v (map fst X)) /\
      Forall2 (fun v c => evenly 50 (lo - 5) (hi + 5) (cv_x c) /\ shows sy st m true v c) vs cs
  | Some m, false => exists x0 X' c, X = x0 :: X' /\ cs = [c] /\
      evenly 50 (lo - 50) (hi + 50) (cv_x c) /\ shows sy st m false (snd x0) c
  end.
(** the residual panel *)
Definition panel_spec sy st o (X : list (R * R)) (b : bool) (p : panel) : Prop :=
  pn_x p = map (abscissa b) X /\ List.length (pn_psi p) = List.length X /\ List.length (pn_delta p) = List.length X /\
  fst (residuals sy o None st) = Ok (pn_psi p ++ pn_delta p) /\ fst (chisqr sy o None st) = Ok (pn_chisqr p).

(** ** Parameter vectors: [st'] is [st] with the numbers [v] in the parameters [ps] *)
Definition assigned (sy : system) (ps : list pid) (v : list R) (st st' : state) : Prop :=
  List.length v = List.length ps /\
  (forall i p x, nth_error ps i = Some p -> nth_error v i = Some x -> value sy st' p = x) /\
  (forall q, ~ In q ps -> st_store st' q = st_store st q) /\
  st_wavelengths st' = st_wavelengths st /\ st_flips st' = st_flips st.

(** the varying members of [ps], each once, in the order of their first occurrences *)
Definition varying_list (sy : system) (ps vs : list pid) : Prop :=
  (forall p, In p vs <-> In p ps /\ p_vary (sy_params sy p) = true) /\ NoDup vs /\
  (forall i j p q, nth_error vs i = Some p -> nth_error vs j = Some q -> (i < j)%nat ->
     exists l1 l2, ps = l1 ++ p :: l2 /\ ~ In p l1 /\ ~ In q l1).
