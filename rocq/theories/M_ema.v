(** * Model of refellips/structureSE.py lines 858-934: overall_ri and nm_eV_conversion. *)

Require Import Reals String.
From Coquelicot Require Import Complex.
From Verif Require Import Base Cplx.
Open Scope string_scope.
Open Scope R_scope.
Open Scope C_scope.

(** structureSE.py:894: a quotient in which inf/nan is replaced by 0
    ([np.where(np.isfinite(v), v, 0)], lines 894-895 and 908-917).  With exact arithmetic the
    quotient is non-finite exactly when the denominator is zero. *)
Definition cdiv0 (a b : C) : C := if Ceq_dec b 0 then RtoC 0 else a / b.

(** structureSE.py:886: E_avg for 'linear' *)
Definition E_linear (E_a E_b : C) (vf : R) : C := RtoC (1 - vf) * E_a + RtoC vf * E_b.

(** structureSE.py:889-896: E_avg for 'maxwell-garnett' *)
Definition E_mg (E_a E_b : C) (vf d : R) : C :=
  let top := E_a + RtoC (d * (1 - vf) + vf) * (E_b - E_a) in
  let bottom := E_a + RtoC (d * (1 - vf)) * (E_b - E_a) in
  E_a * cdiv0 top bottom.

(** structureSE.py:902-917: E_avg for 'bruggeman' *)
Definition E_bruggeman (E_a E_b : C) (vf d : R) : C :=
  let b := E_a * RtoC ((1 - vf) - d) + E_b * RtoC (vf - d) in
  cdiv0 (b + csqrt (b * b - RtoC (4 * (d - 1)) * (E_a * E_b * RtoC d))) (RtoC (2 * (1 - d))).

(** structureSE.py:858-922: overall_ri for complex scalar indices (arrays are mapped
    entry by entry by numpy).  [np.sqrt] of a complex number is the principal root. *)
Definition overall_ri (ri_A ri_B : C) (vf_B : R) (ema : string) (d : R) : result C :=
  let E_a := ri_A * ri_A in
  let E_b := ri_B * ri_B in
  if ema =? "linear" then Ok (csqrt (E_linear E_a E_b vf_B))
  else if ema =? "maxwell-garnett" then Ok (csqrt (E_mg E_a E_b vf_B d))
  else if ema =? "bruggeman" then Ok (csqrt (E_bruggeman E_a E_b vf_B d))
  else Raise RuntimeError.

(** structureSE.py:925-934: nm_eV_conversion; 1239.841984055 / val, inf for 0 *)
Definition nm_eV_conversion (val : R) : option R :=
  if Req_EM_T val 0 then None else Some (1239841984055 / 1000000000 / val)%R.
