(** * Specification: coatings of quarter-wave layers, and readings where light is not reflected.

    Independent of the model.  A layer is (index, thickness in Angstrom, roughness), transparent. *)

Require Import Reals List.
From Coquelicot Require Import Complex.
Require Import List.
From Verif Require Import Cplx Spec_optics Spec_admit.
Import ListNotations.
Open Scope R_scope.

(** the layer is transparent, light passes it without total reflection, and it is an odd number of
    quarter waves thick for the tangential component [s] (wavelength [w] in nm) *)
Definition quarter_layer (s w : R) (l : R * R * R) : Prop :=
  let '(n, d, _) := l in
  0 < n /\ s * s < n * n /\ exists j, 4 * normal s n * (d / 10) = (2 * INR j + 1) * w.

Definition quarter_coating (n0 : R) (layers : list (R * R * R)) (nB aoi w : R) : Prop :=
  let s := n0 * sin (rad aoi) in
  0 < n0 /\ 0 < nB /\ 0 < w /\ cos (rad aoi) <> 0 /\ s * s < nB * nB /\ Forall (quarter_layer s w) layers.

(** admittance of the coated backing: each layer transforms Y into y^2 / Y *)
Definition coated (p : pol) (s : R) (layers : list (R * R * R)) (nB : R) : R :=
  fold_right (fun l Y => tilted p s (fst (fst l)) * tilted p s (fst (fst l)) / Y) (tilted p s nB) layers.

(** the reflection of the coated backing *)
Definition coating_r (p : pol) (n0 : R) (layers : list (R * R * R)) (nB aoi : R) : R :=
  let s := n0 * sin (rad aoi) in mismatch (tilted p s n0) (coated p s layers nB).

(** the rows of the layer table *)
Definition coat_rows (layers : list (R * R * R)) : list (C * R * R) :=
  map (fun l => (RtoC (fst (fst l)), snd (fst l), snd l)) layers.

(** what is read from real amplitudes: psi 0 or 90 degrees where only one of the two
    polarisations is reflected, nothing where neither is; no delta in both cases *)
Inductive reading (off rs rp : R) : option R -> option R -> Prop :=
| Reading_both : rs <> 0 -> rp <> 0 ->
    reading off rs rp (Some (atan (Rabs (rp / rs)) * (180 / PI))) (Some (off + (if Rlt_dec (rp * rs) 0 then 180 else 360)))
| Reading_s : rs <> 0 -> rp = 0 -> reading off rs rp (Some 0) None
| Reading_p : rs = 0 -> rp <> 0 -> reading off rs rp (Some 90) None
| Reading_none : rs = 0 -> rp = 0 -> reading off rs rp None None.
