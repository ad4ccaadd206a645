(** * Specification: an opaque film.

    Independent of the model.  Crossing the film attenuates the wave by more than
    e^35, and the vertical wave number has an imaginary part of at most K times its
    real part. *)

Require Import Reals.
From Coquelicot Require Import Complex.
From Verif Require Import Cplx Spec_optics.
Open Scope R_scope.

Definition opaque_film (s lam K : R) (nd : C * R) : Prop :=
  exists film, layer_ok (RtoC s) lam nd film /\ 0 <= Re (cosine film) /\
    35 < Im (phase film) /\ Im (fst nd * cosine film)%C <= K * Re (fst nd * cosine film)%C.
