(** * Specification: how many thicknesses of a layer fit one measured point *)

Require Import Reals List.
From Coquelicot Require Import Complex.
From Verif Require Import Cplx Spec_optics Spec_ident.
Import ListNotations.
Open Scope R_scope.

(** waves decay in a medium of index [n]: it absorbs or light is totally reflected at it *)
Definition decaying (s : R) (n : C) : Prop := Im n <> 0 \/ Re n < Rabs s.

(** crossing the layer (thickness in Angstrom) attenuates a wave by at most e^35 *)
Definition uncut (s w : R) (n : C) (d : R) : Prop :=
  forall m, layer_ok (RtoC s) w (n, d / 10) m -> Im (phase m) <= 35.

(** the thicknesses [l] (Angstrom) of a layer of index [n] are different for the light *)
Definition distinguishable (s w : R) (n : C) (l : list R) : Prop :=
  NoDup l /\
  ((transparent n /\ Rabs s < Re n /\ exists d0, Forall (fun d => d0 <= d < d0 + 10 * order_thickness (Re n) s w) l) \/
   (decaying s n /\ Forall (uncut s w n) l)).
