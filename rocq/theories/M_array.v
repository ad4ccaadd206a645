(** * Model of scatterer.complex for arrays of wavelengths (dispersion.py:103-130, 193-220,
    289-302, 387-401, 453-481, 549-645; structureSE.py:90-116)

    [sc_complex] of M_disp is the same method for None and for single numbers.  An array is a numpy
    array of one or two dimensions without nan or inf. *)

Require Import Reals List Bool Arith String.
From Coquelicot Require Import Complex.
From Verif Require Import Base Cplx M_ema M_disp.
Import ListNotations.
Open Scope list_scope.
Open Scope R_scope.

(** the argument and the result *)
Inductive wavs := W_none | W_num (w : R) | W_arr (l : list R) | W_arr2 (rows : list (list R)).
Inductive index :=
| V_num (v : option C)
| V_arr (l : list (option C))
| V_arr2 (rows : list (list (option C))).

(** nm_eV_conversion of a zero is an infinite energy ([None]).  A / (E**2 - e**2 - 1j*B*e) is nan
    there, and so is the contribution of a Tauc-Lorentz oscillator (inf / inf). *)
Definition at_energy (f : R -> osc -> option C) (e : option R) (o : osc) : option C :=
  match e with Some e => f e o | None => None end.

(** Gauss interpolates in _e_pad (dispersion.py:473-474), which ends at 20 *)
Definition gauss_energy (e : option R) : R := match e with Some e => e | None => 20 end.

(** np.sqrt(sum + Einf) of the oscillators of one entry *)
Definition root_of_sum (terms : list (option C)) (Einf : R) : option C :=
  omap csqrt (omap (fun s => s + RtoC Einf)%C (osum terms)).

(** one entry of an array that is not all zero: it is taken as it is, the default is not used *)
Definition at_entry (kd : scatterer_kind) (w : R) : result (option C) :=
  let e := nm_eV_conversion w in
  match kd with
  | K_RI d => ri_complex d w
  | K_Cauchy A B Cc => Ok (cauchy_complex A B Cc w)
  | K_Sellmeier Am En P Einf => Ok (sellmeier_complex Am En P Einf w)
  | K_Lorentz os Einf => Ok (root_of_sum (map (at_energy lorentz_term e) os) Einf)
  | K_Gauss h os Einf => rmap (omap csqrt) (gauss_epsilon h os Einf (gauss_energy e))
  | K_TaucLorentz os Eg Einf => Ok (root_of_sum (map (at_energy (tl_term Eg) e) os) Einf)
  | K_Epsilon eps =>                      (* a user class: assumed to work entry by entry *)
      match e with Some e => Ok (omap csqrt (eps e)) | None => Raise OtherError end
  | K_Abstract => Raise NotImplementedError
  end.

(** numpy broadcasting of the oscillators, of shape (k, 1), with energies of shape (p, q): the number of
    rows, or an error *)
Definition broadcast (k p : nat) : option nat :=
  if Nat.eqb k p then Some k else if Nat.eqb k 1 then Some p else if Nat.eqb p 1 then Some k else None.
Definition row_of {A} (d : A) (l : list A) (i : nat) : A :=
  match l with [a] => a | _ => nth i l d end.

(** Lorentz.epsilon and TaucLorentz.epsilon at energies of shape (p, q): np.sum(., axis=0) runs over the
    first axis of the (n, q) array of all contributions *)
Definition osc_arr2 (f : R -> osc -> option C) (os : list osc) (Einf : R) (rows : list (list R))
  : result index :=
  let q := List.length (hd [] rows) in
  match broadcast (List.length os) (List.length rows) with
  | None => Raise ValueError
  | Some n =>
      Ok (V_arr (map (fun j =>
            root_of_sum (map (fun i => at_energy f (nm_eV_conversion (nth j (row_of [] rows i) 0))
                                                 (row_of (0, 0, 0) os i)) (seq 0 n)) Einf) (seq 0 q)))
  end.

Definition is_constant (kd : scatterer_kind) : bool :=
  match kd with
  | K_RI (RI_const _ _) => true
  | K_RI (RI_row w _ _) => if Req_EM_T w 0 then true else false
  | _ => false
  end.

(** scatterer.complex(wavelength).  A constant RI returns _RI + 1j * _EC whatever the shape
    (dispersion.py:129-130). *)
Definition complex_at (s : scatterer) (w : wavs) : result index :=
  let number w := rmap V_num (sc_complex s w) in
  match w with
  | W_none => number None
  | W_num w => number (Some w)
  | W_arr l =>
      if np_any l then
        if is_constant (sc_kind s) then number None
        else
        rmap V_arr (mapR (at_entry (sc_kind s)) l)
      else number None
  | W_arr2 rows =>
      if np_any (List.concat rows) then
        if is_constant (sc_kind s) then number None
        else
        match sc_kind s with
        | K_Lorentz os Einf => osc_arr2 lorentz_term os Einf rows
        | K_TaucLorentz os Eg Einf => osc_arr2 (tl_term Eg) os Einf rows
        | kd => rmap V_arr2 (mapR (mapR (at_entry kd)) rows)
        end
      else number None
  end.
