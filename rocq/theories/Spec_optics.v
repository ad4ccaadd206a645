(** * Specification: plane waves in a stratified medium.

    Independent of the model.  A medium is given by its (complex) refractive index,
    the cosine of its (complex) propagation angle and the phase accumulated on
    crossing it.  In every medium there is a forward wave and a backward wave; their
    amplitudes are counted in the convention of Byrnes (arXiv:1603.02720), in which a
    p-polarised backward wave has its in-plane electric field reversed. *)

Require Import Reals List.
From Coquelicot Require Import Complex.
From Verif Require Import Cplx.
Import ListNotations.
Open Scope R_scope.
Open Scope C_scope.

Inductive pol := pS | pP.

Record medium := mkMedium { idx : C; cosine : C; phase : C }.

(** tangential fields produced by forward amplitude [f] and backward amplitude [b]:
    s: E_y = f + b and H_x ~ n cos (f - b);  p: H_y ~ n (f + b) and E_x = cos (f - b) *)
Definition tangential_1 (p : pol) (m : medium) (f b : C) : C :=
  match p with pS => f + b | pP => idx m * (f + b) end.
Definition tangential_2 (p : pol) (m : medium) (f b : C) : C :=
  match p with pS => idx m * cosine m * (f - b) | pP => cosine m * (f - b) end.

(** both tangential fields are continuous across the boundary m | m' *)
Definition continuity (p : pol) (m : medium) (f b : C) (m' : medium) (f' b' : C) : Prop :=
  tangential_1 p m f b = tangential_1 p m' f' b' /\
  tangential_2 p m f b = tangential_2 p m' f' b'.

(** [waves p m f b rest t]: amplitudes [f], [b] at the far boundary of medium [m] can
    be extended to amplitudes in all media of [rest] such that all boundary
    conditions hold, the last medium carries the amplitude [t] away and no wave comes
    in from it. *)
Fixpoint waves (p : pol) (m : medium) (f b : C) (rest : list medium) (t : C) : Prop :=
  match rest with
  | [] => False
  | m' :: rest' =>
      match rest' with
      | [] => continuity p m f b m' t 0
      | _ => exists f' b',
          continuity p m f b m' f' b' /\
          waves p m' (f' * cexp (Ci * phase m')) (b' * cexp (- (Ci * phase m'))) rest' t
      end
  end.

(** the reflection problem: unit incident amplitude *)
Definition reflection_problem (p : pol) (front : medium) (rest : list medium) (r t : C) : Prop :=
  waves p front 1 r rest t.

(** Snell's law in the form sin^2 + cos^2 = 1 with n sin(theta) common to all media *)
Definition snell (n0_sin0 : C) (m : medium) : Prop :=
  idx m <> 0 /\ cosine m * cosine m = 1 - (n0_sin0 / idx m) * (n0_sin0 / idx m).

(** ** A physical stack.
    [n0] fronting index, [inner] the layers (index, thickness), [nN] backing index,
    [s] = n0 sin(theta0), [lam] the vacuum wavelength (same unit as the thicknesses).
    Any sign of the cosines compatible with Snell's law is allowed. *)
Definition layer_ok (s : C) (lam : R) (nd : C * R) (m : medium) : Prop :=
  idx m = fst nd /\ snell s m /\
  phase m = 2 * PI * fst nd * cosine m * snd nd / lam.

Definition physical_stack (n0 : C) (inner : list (C * R)) (nN : C) (s : C) (lam : R)
    (front : medium) (ms : list medium) (back : medium) : Prop :=
  idx front = n0 /\ snell s front /\
  Forall2 (layer_ok s lam) inner ms /\
  idx back = nN /\ snell s back.

(** ** Energy.  Time-averaged Poynting flux through a plane, up to a positive constant
    common to all media: Re (conj(T1) T2). *)
Definition flux (p : pol) (m : medium) (f b : C) : R :=
  Re (Cconj (tangential_1 p m f b) * tangential_2 p m f b).

(** a passive material: n > 0, k >= 0 *)
Definition passive (n : C) : Prop := (0 < Re n)%R /\ (0 <= Im n)%R.
Definition transparent (n : C) : Prop := (0 < Re n)%R /\ Im n = 0%R.

(** ** Ellipsometric angles (degrees), refellips' sign convention:
    r_p / r_s = tan(psi) exp(-i delta) *)
Definition rad (x : R) : R := (x * (PI / 180))%R.
Definition ellipsometric (rs rp : C) (psi delta : R) : Prop :=
  rp / rs = RtoC (tan (rad psi)) * cexp (- (Ci * RtoC (rad delta))).

(** A film layer the numerical scheme can handle: passive, of non-negative thickness,
    and either crossing it attenuates the wave by less than e^35, or the layer is not
    absurdly evanescent (Im kz <= 1e14 Re kz). *)
Definition film_layer (s lam : R) (nd : C * R) : Prop :=
  passive (fst nd) /\ (0 <= snd nd)%R /\
  forall m, layer_ok (RtoC s) lam nd m -> (0 <= Re (cosine m))%R ->
    (Im (phase m) <= 35)%R \/ (Im (idx m * cosine m)%C <= 10 ^ 14 * Re (idx m * cosine m)%C)%R.

(** not exactly at the critical angle *)
Definition not_critical (s : R) (n : C) : Prop := n * n <> RtoC s * RtoC s.

Definition passive_film (s lam : R) (inner : list (C * R)) (nN : C) : Prop :=
  Forall (film_layer s lam) inner /\
  Forall (fun nd => not_critical s (fst nd)) inner /\ passive nN.

(** total internal reflection at a medium of index n *)
Definition total_reflection (s n : C) : Prop := Im (s / n) = 0%R /\ (1 < Rabs (Re (s / n)%C))%R.
