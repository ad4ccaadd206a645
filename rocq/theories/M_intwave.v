(** * Model of Cauchy.complex at arrays of integers (refellips/dispersion.py 211-220).

    wav**2 and wav**4 of an integer array are computed in the integer type of the array, where a
    product that does not fit keeps its last bits.  Dividing by the result converts it to a float.  The other
    scatterers multiply or divide the wavelength by a float before anything else. *)

Require Import Reals ZArith List.
From Coquelicot Require Import Complex.
From Verif Require Import Base Cplx M_disp.
Import ListNotations.
Open Scope Z_scope.

(** an integer type of numpy: its least number and its width in bits *)
Record int_type := IntType { it_least : Z; it_bits : Z }.
Definition signed (bits : Z) : int_type := IntType (- 2 ^ (bits - 1)) bits.
Definition unsigned (bits : Z) : int_type := IntType 0 bits.

(** the last bits of a number *)
Definition wrap (t : int_type) (z : Z) : Z := (z - it_least t) mod 2 ^ it_bits t + it_least t.
Definition mul (t : int_type) (x y : Z) : Z := wrap t (x * y).

(** x**2 is np.square; other powers square and multiply, from the last bit of the exponent *)
Fixpoint power_loop (t : int_type) (out x : Z) (k : positive) : Z :=
  match k with
  | xH => mul t out x
  | xO k => power_loop t out (mul t x x) k
  | xI k => power_loop t (mul t out x) (mul t x x) k
  end.
Definition int_power (t : int_type) (x : Z) (k : positive) : Z :=
  if Pos.eqb k 2 then mul t x x else power_loop t 1 x k.

(** dispersion.py:211-220 for one entry of an array; division by zero gives inf or nan *)
Definition cauchy_int (t : int_type) (A B Cc : R) (wav : Z) : option C :=
  obind (odiv (B * 1000 ^ 2)%R (IZR (int_power t wav 2))) (fun b =>
  obind (odiv (Cc * 1000 ^ 4)%R (IZR (int_power t wav 4))) (fun c =>
  Some (RtoC (A + b + c)%R))).
(** all entries *)
Definition cauchy_ints (t : int_type) (A B Cc : R) (wavs : list Z) : list (option C) := map (cauchy_int t A B Cc) wavs.
