(** * Specification: which thicknesses of a layer fit two measured points (C144) *)

Require Import Reals ZArith List.
From Coquelicot Require Import Complex.
From Verif Require Import Base Cplx M_tmm Spec_optics Spec_ident.
Import ListNotations.
Open Scope R_scope.

(** a measured point: the indices of the media at its wavelength, the other layers before and after the layer
    in question, angle of incidence (degrees), wavelength (nm), psi and delta *)
Record point := Point {
  pt_fronting : C; pt_pre : list (C * R * R); pt_layer : C; pt_post : list (C * R * R); pt_backing : C;
  pt_aoi : R; pt_w : R; pt_psi : R; pt_delta : R }.

Definition pt_s (p : point) : R := Re (pt_fronting p) * sin (rad (pt_aoi p)).

(** the thickness (Angstrom) of one interference order *)
Definition order_of (p : point) : R := 10 * order_thickness (Re (pt_layer p)) (pt_s p) (pt_w p).

(** light travels through the layer without loss *)
Definition clear (p : point) : Prop :=
  0 < pt_w p /\ transparent (pt_layer p) /\ Rabs (pt_s p) < Re (pt_layer p).

(** the layers of the point, the layer in question of thickness [d] (Angstrom); inner layers are given by
    index, thickness and roughness *)
Definition inner (l : list (C * R * R)) : list layer := map (fun x => mkLayer (snd (fst x)) (Some (fst (fst x))) (snd x)) l.
Definition stack (p : point) (d : R) : list layer :=
  mkLayer 0 (Some (pt_fronting p)) 0 :: inner (pt_pre p ++ (pt_layer p, d, 0) :: pt_post p) ++
  [mkLayer 0 (Some (pt_backing p)) 0].

(** the calculated psi and delta of a thickness (Angstrom) of the layer *)
Definition predicted (off : R) (refl : bool) (p : point) (d : R) :=
  fst (Delta_Psi_TMM [pt_aoi p] (stack p d) (pt_w p) off refl).
Definition fits (off : R) (refl : bool) (p : point) (d : R) : Prop :=
  predicted off refl p d = Ok [(Some (pt_psi p), Some (pt_delta p))].

(** at most [c] thicknesses within one interference order fit the point *)
Definition at_most (c : nat) (off : R) (refl : bool) (p : point) : Prop :=
  forall l, NoDup l -> Forall (fun d => 0 <= d < order_of p) l -> Forall (fits off refl p) l -> (List.length l <= c)%nat.

(** a single film, of another index than its neighbours *)
Definition lone_film (p : point) : Prop :=
  pt_pre p = [] /\ pt_post p = [] /\ 0 < Re (pt_fronting p) /\ 0 < pt_aoi p < 90 /\ passive (pt_backing p) /\
  pt_layer p <> RtoC (Re (pt_fronting p)) /\ pt_layer p <> pt_backing p.

(** whole numbers of orders of the two points are never equal, or only beyond the length [L] *)
Definition coincide_beyond (D1 D2 L : R) : Prop :=
  forall k m : Z, IZR k * D1 = IZR m * D2 -> k <> 0%Z -> L <= Rabs (IZR k * D1).
Definition incommensurable (D1 D2 : R) : Prop := forall k m : Z, IZR k * D1 = IZR m * D2 -> k = 0%Z.

Definition within (L : R) (l : list R) : Prop := forall d d', In d l -> In d' l -> Rabs (d - d') < L.
