(** * Specification of effective media, in terms of permittivities.
    [e_h] host, [e_i] inclusion, [f] volume fraction of the inclusion, [L] depolarisation
    factor of the inclusions, [e] effective permittivity. *)

Require Import Reals.
From Coquelicot Require Import Complex.
Open Scope R_scope.
Open Scope C_scope.

(** linear rule: volume average *)
Definition volume_average (e_h e_i : C) (f : R) (e : C) : Prop :=
  e = RtoC (1 - f) * e_h + RtoC f * e_i.

(** Maxwell-Garnett, (e - e_h)/(e_h + L (e - e_h)) = f (e_i - e_h)/(e_h + L (e_i - e_h)),
    with the denominators cleared *)
Definition maxwell_garnett (e_h e_i : C) (f L : R) (e : C) : Prop :=
  (e - e_h) * (e_h + RtoC L * (e_i - e_h)) =
  RtoC f * (e_i - e_h) * (e_h + RtoC L * (e - e_h)).

(** Bruggeman, (1-f)(e_h - e)/(e + L (e_h - e)) + f (e_i - e)/(e + L (e_i - e)) = 0,
    with the denominators cleared *)
Definition bruggeman (e_h e_i : C) (f L : R) (e : C) : Prop :=
  RtoC (1 - f) * (e_h - e) * (e + RtoC L * (e_i - e)) +
  RtoC f * (e_i - e) * (e + RtoC L * (e_h - e)) = 0.

(** refractive indices of the form the library stores: n > 0, or n = 0 and k >= 0 *)
Definition right_half (n : C) : Prop := (0 < Re n \/ Re n = 0 /\ 0 <= Im n)%R.

(** a passive medium in the n + i k convention *)
Definition passive_index (n : C) : Prop := (0 <= Re n /\ 0 <= Im n)%R.

(** coefficient of [e] in the Maxwell-Garnett relation; the relation has exactly one
    solution when it is non-zero *)
Definition mg_bottom (e_h e_i : C) (f L : R) : C := e_h + RtoC (L * (1 - f)) * (e_i - e_h).

(** the permittivity average that decides which root of the Bruggeman equation the
    principal square root selects at zero volume fraction *)
Definition weighted (e_h e_i : C) (L : R) : C := RtoC (1 - L) * e_h + RtoC L * e_i.
