(** * Which thicknesses of a layer fit two measured points (reflect_modelSE.py:170-322)

    [point], [clear], [order_of], [predicted], [fits], [at_most], [lone_film], [coincide_beyond],
    [incommensurable], [within]: Spec_points. *)

Require Import Reals.
From Coquelicot Require Import Rcomplements Complex.
Require Import List Bool Arith ZArith Lra Lia.
From Verif Require Import Base Cplx M_tmm Spec_optics P_cont3 Spec_points P_points.
Import ListNotations.
Open Scope R_scope.

(** ** C144.  A layer anywhere in a stack, at two points (the wavelengths, angles, indices and the other
    layers may all differ): thicknesses closer together than the first common multiple of the two
    interference orders are at most as many as the product of the numbers that fit within one order each *)
Theorem C144_product : forall off refl p1 p2 c1 c2 L l,
  clear p1 -> clear p2 -> at_most c1 off refl p1 -> at_most c2 off refl p2 ->
  coincide_beyond (order_of p1) (order_of p2) L ->
  NoDup l -> within L l -> Forall (fits off refl p1) l -> Forall (fits off refl p2) l ->
  (List.length l <= c1 * c2)%nat.
Proof. exact product. Qed.
Print Assumptions C144_product.

(** ** a single film: at most four thicknesses fit both points (sixteen if delta is folded) *)
Theorem C144_film : forall off refl p1 p2 L l,
  clear p1 -> clear p2 -> lone_film p1 -> lone_film p2 -> coincide_beyond (order_of p1) (order_of p2) L ->
  NoDup l -> within L l -> Forall (fits off refl p1) l -> Forall (fits off refl p2) l ->
  (List.length l <= if refl then 16 else 4)%nat.
Proof. exact lone_two. Qed.
Print Assumptions C144_film.

(** ** whatever the range, if the orders have no common multiple *)
Theorem C144_incommensurable : forall off refl p1 p2 l,
  clear p1 -> clear p2 -> lone_film p1 -> lone_film p2 -> incommensurable (order_of p1) (order_of p2) ->
  NoDup l -> Forall (fits off refl p1) l -> Forall (fits off refl p2) l ->
  (List.length l <= if refl then 16 else 4)%nat.
Proof. exact lone_all. Qed.
Print Assumptions C144_incommensurable.

(** ** a common multiple of the two orders may be added to the thickness: the range is needed *)
Theorem C144_ambiguous : forall off refl p1 p2 d k m,
  clear p1 -> clear p2 -> IZR k * order_of p1 = IZR m * order_of p2 ->
  predicted off refl p1 (d + IZR k * order_of p1) = predicted off refl p1 d /\
  predicted off refl p2 (d + IZR k * order_of p1) = predicted off refl p2 d.
Proof. exact ambiguous. Qed.
Print Assumptions C144_ambiguous.

(** a film of index 1.6 at sin = 0.96, 211 nm and 126.6 nm: the orders are 824 A and 495 A, the first common
    multiple 2473 A; 1236 A fits *)
Example C144_example : exists psi delta,
  let p1 := ex_point 3 psi delta in let p2 := ex_point 5 psi delta in
  clear p1 /\ clear p2 /\ lone_film p1 /\ lone_film p2 /\
  coincide_beyond (order_of p1) (order_of p2) (6330 / (2 * (32 / 25))) /\
  IZR 3 * order_of p1 = IZR 5 * order_of p2 /\
  fits 0 false p1 (quarter_plus 0) /\ fits 0 false p2 (quarter_plus 0).
Proof.
  destruct ex_point_fits as (psi & delta & A & B). exists psi, delta. cbv zeta.
  split; [apply ex_point_clear; lra|]. split; [apply ex_point_clear; lra|]. split; [apply ex_point_lone|]. split; [apply ex_point_lone|].
  split; [apply ex_point_beyond|]. split; [rewrite !ex_point_order by lra; field|]. split; [exact A|exact B].
Qed.

(** wavelengths with incommensurable orders: 211 nm and 633 / sqrt 2 nm *)
Example C144_incommensurable_example : forall a b c d,
  incommensurable (order_of (ex_point 3 a b)) (order_of (ex_point (sqrt 2) c d)).
Proof. exact ex_point_incommensurable. Qed.
