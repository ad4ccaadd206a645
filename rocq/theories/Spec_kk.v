(** * Specification: Kramers-Kronig relation between the parts of a dielectric function *)

Require Import Reals.
From Coquelicot Require Import Coquelicot.
Open Scope R_scope.

(** [re] is 2/pi times the principal value of the integral over xi from 0 to infinity of
    xi * im(xi) / (xi^2 - e^2): the part from 0 to e - d plus the part from e + d to b, both
    of which exist, come arbitrarily close to it as d goes to 0 and b to infinity *)
Definition kramers_kronig (im : R -> R) (e re : R) : Prop :=
  forall eps : R, 0 < eps ->
  exists d0 b0 : R, 0 < d0 /\ 0 < b0 /\
  forall d b : R, 0 < d < d0 -> b0 < b ->
  exists below above : R,
    is_RInt (fun xi => xi * im xi / (xi ^ 2 - e ^ 2)) 0 (e - d) below /\
    is_RInt (fun xi => xi * im xi / (xi ^ 2 - e ^ 2)) (e + d) b above /\
    Rabs (2 / PI * (below + above) - re) < eps.
