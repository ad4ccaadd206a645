(** * Double precision model of overall_ri (structureSE.py:858-922) for one pair of
    materials.

    numpy's complex numbers are pairs of doubles.  A real operand is converted to a complex
    number with imaginary part 0 first.  Sums and products use the textbook formulas; the
    quotient uses Smith's method, as numpy does; np.power(z, 2) is z * z.  The complex square
    root is the C library's: for a number on the real axis that is not negative it is the real
    square root (glibc); elsewhere it is the argument [csqrt]. *)

Require Import ZArith Bool.
From Flocq Require Import Core.
From Flocq.IEEE754 Require Import BinarySingleNaN.
From Verif Require Import M_float M_float2.

Definition fc : Set := (f64 * f64)%type.
Definition fzero : f64 := B754_zero false.
Definition fc_real (x : f64) : fc := (x, fzero).
Definition fc_add (z w : fc) : fc := (fadd (fst z) (fst w), fadd (snd z) (snd w)).
Definition fc_sub (z w : fc) : fc := (fsub (fst z) (fst w), fsub (snd z) (snd w)).
Definition fc_mul (z w : fc) : fc :=
  (fsub (fmul (fst z) (fst w)) (fmul (snd z) (snd w)),
   fadd (fmul (fst z) (snd w)) (fmul (snd z) (fst w))).

Definition is_zero (x : f64) : bool := match x with B754_zero _ => true | _ => false end.

(** numpy's complex division; both parts of the divisor zero: divide by the zero *)
Definition fc_div (z w : fc) : fc :=
  if Bleb (fabs (snd w)) (fabs (fst w)) then
    if (is_zero (fst w) && is_zero (snd w))%bool
    then (fdiv (fst z) (fabs (fst w)), fdiv (snd z) (fabs (fst w)))
    else
      let rat := fdiv (snd w) (fst w) in
      let scl := fdiv (fZ 1) (fadd (fst w) (fmul (snd w) rat)) in
      (fmul (fadd (fst z) (fmul (snd z) rat)) scl, fmul (fsub (snd z) (fmul (fst z) rat)) scl)
  else
    let rat := fdiv (fst w) (snd w) in
    let scl := fdiv (fZ 1) (fadd (snd w) (fmul (fst w) rat)) in
    (fmul (fadd (fmul (fst z) rat) (snd z)) scl, fmul (fsub (fmul (snd z) rat) (fst z)) scl).

Definition fc_sqrt (csqrt : fc -> fc) (z : fc) : fc :=
  if (is_zero (snd z) && Bleb fzero (fst z))%bool then (fsqrt (fst z), snd z) else csqrt z.

Definition fc_finite (z : fc) : bool := (is_finite (fst z) && is_finite (snd z))%bool.

(** structureSE.py:882-886 *)
Definition fl_linear_epsilon (ri_A ri_B : fc) (vf_B : f64) : fc :=
  let E_a := fc_mul ri_A ri_A in
  let E_b := fc_mul ri_B ri_B in
  fc_add (fc_mul (fc_real (fsub (fZ 1) vf_B)) E_a) (fc_mul (fc_real vf_B) E_b).

(** structureSE.py:889-896 *)
Definition fl_maxwell_epsilon (ri_A ri_B : fc) (vf_B dp : f64) : fc :=
  let E_a := fc_mul ri_A ri_A in
  let E_b := fc_mul ri_B ri_B in
  let top := fc_add E_a (fc_mul (fc_real (fadd (fmul dp (fsub (fZ 1) vf_B)) vf_B)) (fc_sub E_b E_a)) in
  let bottom := fc_add E_a (fc_mul (fc_real (fmul dp (fsub (fZ 1) vf_B))) (fc_sub E_b E_a)) in
  let v := fc_div top bottom in
  let v := if fc_finite v then v else fc_real fzero in
  fc_mul E_a v.

(** structureSE.py:902-917; 4 * (dp - 1) is computed on real numbers *)
Definition fl_bruggeman_epsilon csqrt (ri_A ri_B : fc) (vf_B dp : f64) : fc :=
  let E_a := fc_mul ri_A ri_A in
  let E_b := fc_mul ri_B ri_B in
  let b := fc_add (fc_mul E_a (fc_real (fsub (fsub (fZ 1) vf_B) dp))) (fc_mul E_b (fc_real (fsub vf_B dp))) in
  let q := fc_mul (fc_real (fmul (fZ 4) (fsub dp (fZ 1)))) (fc_mul (fc_mul E_a E_b) (fc_real dp)) in
  let v := fc_div (fc_add b (fc_sqrt csqrt (fc_sub (fc_mul b b) q))) (fc_real (fmul (fZ 2) (fsub (fZ 1) dp))) in
  if fc_finite v then v else fc_real fzero.

(** structureSE.py:921-922 *)
Definition fl_linear csqrt (ri_A ri_B : fc) (vf_B : f64) : fc :=
  fc_sqrt csqrt (fl_linear_epsilon ri_A ri_B vf_B).
Definition fl_maxwell csqrt (ri_A ri_B : fc) (vf_B dp : f64) : fc :=
  fc_sqrt csqrt (fl_maxwell_epsilon ri_A ri_B vf_B dp).
Definition fl_bruggeman csqrt (ri_A ri_B : fc) (vf_B dp : f64) : fc :=
  fc_sqrt csqrt (fl_bruggeman_epsilon csqrt ri_A ri_B vf_B dp).
