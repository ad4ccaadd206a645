(** * Specification of slopes *)

Require Import Reals.
From Coquelicot Require Import Coquelicot.
Require Import List.
From Verif Require Import Base Cplx M_tmm Spec_optics.
Import ListNotations.
Open Scope R_scope.

(** [g] is defined at and around [x], and its slope there is [l] *)
Definition has_slope (g : R -> option R) (x l : R) : Prop :=
  exists v, g x = Some v /\
  forall eps, 0 < eps -> exists eta, 0 < eta /\
    forall h, h <> 0 -> Rabs h < eta -> exists v', g (x + h) = Some v' /\ Rabs ((v' - v) / h - l) < eps.
Definition slopes (g : R -> option R) (x : R) : Prop := exists l, has_slope g x l.

(** real and imaginary part are differentiable *)
Definition cdiff (f : R -> C) (x : R) : Prop := ex_derive (fun y => Re (f y)) x /\ ex_derive (fun y => Im (f y)) x.

(** the sine of the angle in a medium, [sn], is constant around [x], or is not on the cut of the arcsine: the
    wave is neither totally reflected there nor grazing *)
Definition sine_ok (sn : R -> C) (x : R) : Prop :=
  locally x (fun y => sn y = sn x) \/ ~ (Im (sn x) = 0 /\ 1 <= Rabs (Re (sn x))).
(** the layer does not damp the wave by exactly exp(-35), where the calculation cuts it off;
    [s]: n0 sin(theta0); thickness [d] and wavelength [w] in nm *)
Definition not_at_cut_off (s n : C) (d w : R) : Prop :=
  forall q : C, (q * q)%C = (n * n - s * s)%C -> 2 * PI * Im q * d / w <> 35.

(** a film whose indices and thicknesses (Angstrom) depend on a parameter, with roughnesses *)
Definition films := list ((R -> C) * (R -> R) * R).
Definition film_of (F : films) (y : R) : list (C * R * R) := map (fun l => (fst (fst l) y, snd (fst l) y, snd l)) F.
(** indices and thicknesses are differentiable at [x]; angle [th] in radians, wavelength [w] in nm *)
Definition smooth_stack (nA : R -> C) (F : films) (nB : R -> C) (th w x : R) : Prop :=
  let s := fun y => (RtoC (Re (nA y)) * RtoC (sin th))%C in
  ex_derive (fun y => Re (nA y)) x /\ cdiff nB x /\ sine_ok (fun y => (s y / nB y)%C) x /\
  Forall (fun l => cdiff (fst (fst l)) x /\ ex_derive (snd (fst l)) x /\ sine_ok (fun y => (s y / fst (fst l) y)%C) x /\
    not_at_cut_off (s x) (fst (fst l) x) (snd (fst l) x / 10) w) F.

(** psi and delta of a table of layers that depends on a parameter *)
Definition psi_on (T : R -> list layer) (aoi w off : R) (refl : bool) (y : R) : option R :=
  match fst (Delta_Psi_TMM [aoi] (T y) w off refl) with Ok [(psi, _)] => psi | _ => None end.
Definition delta_on (T : R -> list layer) (aoi w off : R) (refl : bool) (y : R) : option R :=
  match fst (Delta_Psi_TMM [aoi] (T y) w off refl) with Ok [(_, delta)] => delta | _ => None end.
