(** * Double precision models of Cauchy.complex (dispersion.py:197-220) and of
    Sellmeier.epsilon and Sellmeier.complex (dispersion.py:276-321) for one wavelength.

    x**2 and x**4 are computed by the platform (np.square, np.power or pow of the C library,
    depending on the type of x), so the two powers are arguments [sq] and [p4].  The imaginary
    part, 0, is left out. *)

Require Import ZArith Bool.
From Flocq Require Import Core.
From Flocq.IEEE754 Require Import BinarySingleNaN.
From Verif Require Import M_float.

(** np.sqrt *)
Definition fsqrt : f64 -> f64 := @Bsqrt 53 1024 prec_ok emax_ok mode_NE.

(** dispersion.py:215-219; 1000**2 and 1000**4 are Python integers, exact as doubles *)
Definition fl_cauchy (sq p4 : f64 -> f64) (A B C wav : f64) : f64 :=
  fadd (fadd A (fdiv (fmul B (fZ (1000 ^ 2))) (sq wav)))
       (fdiv (fmul C (fZ (1000 ^ 4))) (p4 wav)).

(** dispersion.py:295, 313: the literal 1e-3 is the double nearest to it, as is the quotient *)
Definition milli : f64 := fdiv (fZ 1) (fZ 1000).

(** dispersion.py:313-319 *)
Definition fl_sellmeier_epsilon (sq : f64 -> f64) (Am En P Einf wav : f64) : f64 :=
  let wav_um := fmul wav milli in
  fsub (fadd Einf (fdiv (fmul Am (sq wav_um)) (fsub (sq wav_um) (sq En))))
       (fmul P (sq wav_um)).

(** dispersion.py:295-301 *)
Definition fl_sellmeier (sq : f64 -> f64) (Am En P Einf wav : f64) : f64 :=
  fsqrt (fl_sellmeier_epsilon sq Am En P Einf wav).
