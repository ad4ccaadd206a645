(** * Specification of datasets and data files *)

Require Import Reals List Bool String Ascii.
From Verif Require Import Base M_data.
Import ListNotations.
Open Scope list_scope.
Open Scope R_scope.

(** a measured point: wavelength, angle, psi, delta *)
Definition point := (num * num * num * num)%type.
Definition p_wav (x : point) : num := fst (fst (fst x)).
Definition p_aoi (x : point) : num := snd (fst (fst x)).
Definition p_psi (x : point) : num := snd (fst x).
Definition p_delta (x : point) : num := snd x.

(** the dataset [d] holds the points [pts] (masked ones included) *)
Definition holds (h : heap) (d : dataset) (pts : list point) : Prop :=
  nth_error h (ds_wav d) = Some (map p_wav pts) /\
  nth_error h (ds_aoi d) = Some (map p_aoi pts) /\
  nth_error h (ds_psi d) = Some (map p_psi pts) /\
  nth_error h (ds_delta d) = Some (map p_delta pts).

(** the members of a list selected by a mask, in order *)
Inductive kept {A} : list bool -> list A -> list A -> Prop :=
| kept_nil : kept [] [] []
| kept_true m l r x : kept m l r -> kept (true :: m) (x :: l) (x :: r)
| kept_false m l r x : kept m l r -> kept (false :: m) (x :: l) r.

(** what the getters report for a list of points *)
Definition columns (pts : list point) : ndarray * ndarray * ndarray * ndarray :=
  (A1 (map p_wav pts), A1 (map p_aoi pts), A1 (map p_psi pts), A1 (map p_delta pts)).

(** fields of a line: they contain neither the delimiter nor a comment sign *)
Fixpoint plain (c : ascii) (s : string) : Prop :=
  match s with
  | EmptyString => True
  | String x s' => x <> c /\ x <> "#"%char /\ plain c s'
  end.

(** [v] survives being printed and parsed *)
Definition survives (pf : string -> option num) (pr : num -> string) (v : num) : Prop :=
  pf (pr v) = Some v /\ pr v <> EmptyString /\ plain "009" (pr v).
Definition point_survives pf pr (x : point) : Prop :=
  survives pf pr (p_wav x) /\ survives pf pr (p_aoi x) /\ survives pf pr (p_psi x) /\ survives pf pr (p_delta x).

(** first field of a line, up to the first delimiter *)
Fixpoint first_field (c : ascii) (s : string) : string :=
  match s with
  | EmptyString => EmptyString
  | String x s' => if Ascii.eqb x c then EmptyString else String x (first_field c s')
  end.
Definition starts_with_number (pf : string -> option num) (c : ascii) (l : string) : Prop :=
  exists v, pf (first_field c l) = Some v.

(** the data rows in a list of lines *)
Definition data_line (pf : string -> option num) (c : ascii) (l : string) (x : point) : Prop :=
  exists a b p q, l = (a ++ String c (b ++ String c (p ++ String c q)))%string /\
    plain c a /\ plain c b /\ plain c p /\ plain c q /\
    pf a = Some (p_wav x) /\ pf b = Some (p_aoi x) /\ pf p = Some (p_psi x) /\ pf q = Some (p_delta x).

Definition with_mask (d : dataset) (m : mask) : dataset :=
  DataSE (ds_wav d) (ds_aoi d) (ds_psi d) (ds_delta d) m (ds_flipped d) (ds_weighted d) (ds_file d) (ds_delim d).

(** folding of delta about 180 degrees *)
Definition folded (v v' : num) : Prop :=
  match v, v' with
  | Some x, Some y => (x <= 180 -> y = x) /\ (180 < x -> y = 360 - x)
  | None, None => True
  | _, _ => False
  end.
Definition folded_point (x y : point) : Prop := fst x = fst y /\ folded (p_delta x) (p_delta y).
