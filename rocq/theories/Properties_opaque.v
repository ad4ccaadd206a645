(** * What an opaque film hides (reflect_modelSE.py:99-226, 283-294)

    [opaque_film s lam K (n, d)]: Spec_opaque; [film_layer], [passive], [layer_ok]: Spec_optics. *)

Require Import Reals List.
From Coquelicot Require Import Complex.
From Verif Require Import Base Cplx M_tmm Spec_optics Spec_opaque P_tmm2 P_flux3 P_opaque P_opaque2.
Import ListNotations.
Open Scope R_scope.
Open Scope C_scope.

(** ** C142.  The amplitudes are those of the bulk material of the film, whatever is beneath *)
Theorem C142_bulk : forall p (n0 : R) nF d inner nN dA dB dA' dB' th0 lam a r t ab rb tb (K : R),
  (0 < n0)%R -> (0 < lam)%R ->
  Forall (film_layer (n0 * sin th0) lam) ((nF, d) :: inner) -> passive nN ->
  opaque_film (n0 * sin th0) lam K (nF, d) ->
  coh_tmm (ns (RtoC n0) ((nF, d) :: inner) nN) (ds dA ((nF, d) :: inner) dB) [(th0, lam)] = Ok [a] ->
  amp p a = Some (r, t) ->
  coh_tmm (ns (RtoC n0) [] nF) (ds dA' [] dB') [(th0, lam)] = Ok [ab] ->
  amp p ab = Some (rb, tb) ->
  (Cmod (r - rb)%C <= 2 * (2 * K + 1) * exp (-70))%R.
Proof. exact opaque_film_bulk. Qed.
Print Assumptions C142_bulk.

(** two stacks beneath the same opaque film cannot be told apart *)
Theorem C142_hidden : forall p (n0 : R) nF d inner nN dA dB inner' nN' dA' dB' th0 lam a r t a' r' t' (K : R),
  (0 < n0)%R -> (0 < lam)%R ->
  Forall (film_layer (n0 * sin th0) lam) ((nF, d) :: inner) -> passive nN ->
  Forall (film_layer (n0 * sin th0) lam) ((nF, d) :: inner') -> passive nN' ->
  opaque_film (n0 * sin th0) lam K (nF, d) ->
  coh_tmm (ns (RtoC n0) ((nF, d) :: inner) nN) (ds dA ((nF, d) :: inner) dB) [(th0, lam)] = Ok [a] ->
  amp p a = Some (r, t) ->
  coh_tmm (ns (RtoC n0) ((nF, d) :: inner') nN') (ds dA' ((nF, d) :: inner') dB') [(th0, lam)] = Ok [a'] ->
  amp p a' = Some (r', t') ->
  (Cmod (r - r')%C <= 4 * (2 * K + 1) * exp (-70))%R.
Proof. exact opaque_hidden. Qed.
Print Assumptions C142_hidden.

(** without a constant K: every film the numerical scheme can handle *)
Theorem C142_hidden_any : forall p (n0 : R) nF d inner nN dA dB inner' nN' dA' dB' th0 lam a r t a' r' t' film,
  (0 < n0)%R -> (0 < lam)%R ->
  Forall (film_layer (n0 * sin th0) lam) ((nF, d) :: inner) -> passive nN ->
  Forall (film_layer (n0 * sin th0) lam) ((nF, d) :: inner') -> passive nN' ->
  layer_ok (RtoC (n0 * sin th0)) lam (nF, d) film -> (0 <= Re (cosine film))%R -> (35 < Im (phase film))%R ->
  coh_tmm (ns (RtoC n0) ((nF, d) :: inner) nN) (ds dA ((nF, d) :: inner) dB) [(th0, lam)] = Ok [a] ->
  amp p a = Some (r, t) ->
  coh_tmm (ns (RtoC n0) ((nF, d) :: inner') nN') (ds dA' ((nF, d) :: inner') dB') [(th0, lam)] = Ok [a'] ->
  amp p a' = Some (r', t') ->
  (Cmod (r - r')%C <= 4 * exp (-35))%R.
Proof. exact opaque_hidden_any. Qed.
Print Assumptions C142_hidden_any.

(** nor by psi, in degrees *)
Theorem C142_psi : forall (n0 : R) nF d inner nN dA dB inner' nN' dA' dB' th0 lam a rs ts rp tp a' rs' ts' rp' tp' (K m : R)
    refl off psi psi',
  (0 < n0)%R -> (0 < lam)%R ->
  Forall (film_layer (n0 * sin th0) lam) ((nF, d) :: inner) -> passive nN ->
  Forall (film_layer (n0 * sin th0) lam) ((nF, d) :: inner') -> passive nN' ->
  opaque_film (n0 * sin th0) lam K (nF, d) ->
  coh_tmm (ns (RtoC n0) ((nF, d) :: inner) nN) (ds dA ((nF, d) :: inner) dB) [(th0, lam)] = Ok [a] ->
  amp pS a = Some (rs, ts) -> amp pP a = Some (rp, tp) ->
  coh_tmm (ns (RtoC n0) ((nF, d) :: inner') nN') (ds dA' ((nF, d) :: inner') dB') [(th0, lam)] = Ok [a'] ->
  amp pS a' = Some (rs', ts') -> amp pP a' = Some (rp', tp') ->
  (0 < m)%R -> (m <= Cmod rs)%R -> (m <= Cmod rs')%R ->
  fst (psi_delta refl off a) = Some psi -> fst (psi_delta refl off a') = Some psi' ->
  (Rabs (psi - psi') <= 8 * (2 * K + 1) * exp (-70) / (m * m) * (180 / PI))%R.
Proof. exact opaque_psi. Qed.
Print Assumptions C142_psi.

(** six micrometres of index 1 + i on glass, and on a layer of index 3 on a metal *)
Example C142_example : exists a rs ts rp tp a' rs' ts' rp' tp' psi psi',
  Forall (film_layer (1 * sin 0) 600) [(exF, 6000%R)] /\ passive (RtoC 2) /\
  Forall (film_layer (1 * sin 0) 600) ((exF, 6000%R) :: exI) /\ passive (3, 4)%R /\
  opaque_film (1 * sin 0) 600 1 (exF, 6000%R) /\
  coh_tmm (ns (RtoC 1) [(exF, 6000%R)] (RtoC 2)) (ds PInf [(exF, 6000%R)] PInf) [(0%R, 600%R)] = Ok [a] /\
  amp pS a = Some (rs, ts) /\ amp pP a = Some (rp, tp) /\
  coh_tmm (ns (RtoC 1) ((exF, 6000%R) :: exI) (3, 4)%R) (ds PInf ((exF, 6000%R) :: exI) PInf) [(0%R, 600%R)] = Ok [a'] /\
  amp pS a' = Some (rs', ts') /\ amp pP a' = Some (rp', tp') /\
  (1 / 4 <= Cmod rs)%R /\ (1 / 4 <= Cmod rs')%R /\
  fst (psi_delta true 0 a) = Some psi /\ fst (psi_delta true 0 a') = Some psi'.
Proof. exact ex_hidden. Qed.
