(** * Single precision in the FilmSense loader (dataSE.py 807-819, 878-887).

    N, C and S are stored as float32 before psi and delta are calculated.  Only this conversion is
    modelled (numbers below 2^128, where it does not overflow); the accuracy of arccos, angle and
    rad2deg in float32 is not. *)

Require Import Reals ZArith List.
From Flocq Require Import Core.
From Verif Require Import Base M_model M_data M_ep4 M_instr.
Open Scope R_scope.

(** np.array(column, dtype=np.float32): to the nearest single, ties to even *)
Definition single (x : R) : R := round radix2 (FLT_exp (-149) 24) ZnearestE x.

(** dataSE.py:808, 810 and 879, 881 *)
Definition fs32_psi (N : num) : num := fs_psi (omap single N).
(** dataSE.py:807-809, 813-819 and 878-880, 882-887 *)
Definition fs32_delta (N Cc S : num) : num := fs_delta (omap single N) (omap single Cc) (omap single S).

(** dataSE.py:807-824 and 878-893, with the columns of N, C and S in single precision *)
Definition fs32_loaded (wavs : list num) (aoi : num) (ncs : list (list num)) : loaded :=
  fs_loaded wavs aoi (map (map (omap single)) ncs).
