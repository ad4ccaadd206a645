(** * Model of refellips/dispersion.py and of ScattererSE (structureSE.py 67-141).

    A scatterer is its class with the current values of its parameters.  A wavelength
    argument is [None] (Python None) or a number; arrays of wavelengths are mapped entry by
    entry by numpy and are not modelled here.  Results: [Raise e], or a float which is
    [Some z] or non-finite, [None]. *)

Require Import Reals List Bool ZArith String.
From Coquelicot Require Import Complex.
From Verif Require Import Base Cplx M_ema.
Import ListNotations.
Open Scope R_scope.

(** ** float operations with their non-finite cases *)
Definition odiv (x y : R) : option R := if Req_EM_T y 0 then None else Some (x / y).
(** np.sqrt of a real: nan below 0 *)
Definition osqrt (x : R) : option R := if Rle_dec 0 x then Some (sqrt x) else None.
(** np.log of a real: -inf at 0, nan below *)
Definition oln (x : R) : option R := if Rlt_dec 0 x then Some (ln x) else None.
(** np.arctan(x / y): an infinite quotient is harmless, 0/0 is not *)
Definition oatan_div (x y : R) : option R :=
  if Req_EM_T y 0 then
    if Rlt_dec 0 x then Some (PI / 2) else if Rlt_dec x 0 then Some (- (PI / 2)) else None
  else Some (atan (x / y)).
Definition cdivo (a b : C) : option C := if Ceq_dec b 0 then None else Some (a / b)%C.

(** ** np.interp (numpy, compiled_base.c arr_interp), for xp sorted in non-decreasing order:
    left of the first and right of the last node the end values, otherwise the last j
    with xp[j] <= x; [slope*(x - xp[j]) + fp[j]]. *)
Fixpoint interp_from (x0 y0 : R) (rest : list (R * R)) (x : R) : R :=
  match rest with
  | [] => y0
  | (x1, y1) :: rest' =>
      if Rle_dec x1 x then interp_from x1 y1 rest' x
      else if Req_EM_T x0 x then y0
      else (y1 - y0) / (x1 - x0) * (x - x0) + y0
  end.

(** ValueError: "array of sample points is empty" / "fp and xp are not of the same length" *)
Definition np_interp (x : R) (xp fp : list R) : result R :=
  match combine xp fp with
  | (x0, y0) :: rest =>
      if Nat.eqb (List.length xp) (List.length fp) then
        if Rlt_dec x x0 then Ok y0
        else if Rlt_dec (List.last xp 0) x then Ok (List.last fp 0)
        else Ok (interp_from x0 y0 rest x)
      else Raise ValueError
  | [] => Raise ValueError
  end.

(** ** RI (dispersion.py 23-130): what [complex] sees *)
Inductive ri_data :=
| RI_const (n k : R)                     (* _wav is None *)
| RI_table (wav n k : list R)            (* _wav in nm *)
| RI_row (wav n k : R).                  (* three numbers, from a file without a second row *)

(** np.any(arr) *)
Definition np_any (l : list R) : bool :=
  existsb (fun x => if Req_EM_T x 0 then false else true) l.

(** dispersion.py:116-130, after the choice of the wavelength.  When no tabulated
    wavelength is non-zero the code returns the whole table as an array; the model
    stops with [OtherError] there.  np.interp refuses a number in place of the array of
    tabulated wavelengths. *)
Definition ri_complex (d : ri_data) (wav : R) : result (option C) :=
  match d with
  | RI_const n k => Ok (Some (n, k))
  | RI_table w n k =>
      if np_any w then
        rbind (np_interp wav w n) (fun re =>
        rbind (np_interp wav w k) (fun im => Ok (Some (re, im))))
      else Raise OtherError
  | RI_row w n k => if Req_EM_T w 0 then Ok (Some (n, k)) else Raise ValueError
  end.

(** ** Cauchy (dispersion.py:211-220) *)
Definition cauchy_complex (A B Cc wav : R) : option C :=
  obind (odiv (B * 1000 ^ 2) (wav ^ 2)) (fun b =>
  obind (odiv (Cc * 1000 ^ 4) (wav ^ 4)) (fun c =>
  Some (A + b + c, 0))).

(** ** Sellmeier: epsilon (dispersion.py:304-321) and complex (dispersion.py:289-302) *)
Definition sellmeier_real (Am En P Einf wav : R) : option R :=
  let w := wav / 1000 in
  obind (odiv (Am * w ^ 2) (w ^ 2 - En ^ 2)) (fun q => Some (Einf + q - P * w ^ 2)).
Definition sellmeier_epsilon (Am En P Einf wav : R) : option C :=
  omap RtoC (sellmeier_real Am En P Einf wav).
Definition sellmeier_complex (Am En P Einf wav : R) : option C :=
  omap RtoC (obind (sellmeier_real Am En P Einf wav) osqrt).

(** ** Oscillators: one triple of parameters each *)
Definition osc := (R * R * R)%type.

(** Sum of the contributions; a non-finite one spoils the sum. *)
Fixpoint osum (l : list (option C)) : option C :=
  match l with
  | [] => Some (RtoC 0)
  | x :: l' => olift2 Cplus x (osum l')
  end.

(** *** Lorentz (dispersion.py:387-401): v = A / (E**2 - e**2 - 1j*B*e) *)
Definition lorentz_term (e : R) (o : osc) : option C :=
  let '(A, B, E) := o in cdivo (RtoC A) (RtoC (E ^ 2 - e ^ 2) - Ci * RtoC (B * e))%C.
Definition lorentz_epsilon (os : list osc) (Einf e : R) : option C :=
  omap (fun s => s + RtoC Einf)%C (osum (map (lorentz_term e) os)).

(** *** Gauss (dispersion.py:453-481) *)

(** np.linspace(-20, 20, 2048) *)
Definition e_pad : list R := map (fun j => -20 + 40 * INR j / 2047) (seq 0 2048).

(** np.exp(-(((x - E) / sigma)**2)), sigma = B/2/sqrt(log 2); sigma = 0 gives exp(-inf) = 0
    except at x = E (0/0) *)
Definition gauss_bell (B E x : R) : option R :=
  let sigma := B / 2 / sqrt (ln 2) in
  if Req_EM_T sigma 0 then (if Req_EM_T x E then None else Some 0)
  else Some (exp (- ((x - E) / sigma) ^ 2)).

(** dispersion.py:464-466: e2 of one oscillator at one grid point *)
Definition gauss_e2 (o : osc) (x : R) : option R :=
  let '(A, B, E) := o in
  obind (gauss_bell B E x) (fun p => obind (gauss_bell B (- E) x) (fun m => Some (A * p - A * m))).

(** entry-wise sum of arrays of length n (np.sum(., axis=0)) *)
Definition vsum (n : nat) (rows : list (list R)) : list R :=
  fold_right (map2 Rplus) (repeat 0 n) rows.

(** The whole function.  [hilbert] stands for scipy.fftpack.hilbert, an arbitrary function
    on arrays.  A non-finite grid value spoils the array (its transform and, through
    interpolation, possibly results elsewhere): the model gives [None]. *)
Definition gauss_epsilon (hilbert : list R -> list R) (os : list osc) (Einf e : R)
  : result (option C) :=
  match os with
  | [] => Raise ValueError   (* np.interp of a 0-d array *)
  | _ =>
  match mapM (fun o => mapM (gauss_e2 o) e_pad) os with
  | None => Ok None
  | Some e2s =>
      let e1 := map (fun v => v + Einf) (vsum 2048 (map hilbert e2s)) in
      let e2 := vsum 2048 e2s in
      rbind (np_interp e e_pad e1) (fun re =>
      rbind (np_interp e e_pad e2) (fun im => Ok (Some (re, im))))
  end
  end.

(** *** Tauc-Lorentz (dispersion.py:549-641); an oscillator is (A, C, Ei) *)

(** lines 559-567 *)
Definition tl_a_ln (Eg e Cc Ei : R) : R :=
    (Eg ^ 2 - Ei ^ 2) * e ^ 2 + Eg ^ 2 * Cc ^ 2 - Ei ^ 2 * (Ei ^ 2 + 3 * Eg ^ 2).
Definition tl_a_atan (Eg e Cc Ei : R) : R := (e ^ 2 - Ei ^ 2) * (Ei ^ 2 + Eg ^ 2) + Eg ^ 2 * Cc ^ 2.
Definition tl_zeta4 (e Cc al ga : R) : R := (e ^ 2 - ga ^ 2) ^ 2 + 1 / 4 * al ^ 2 * Cc ^ 2.

(** lines 569-629: real part of one oscillator *)
Definition tl_e1 (Eg e : R) (o : osc) : option R :=
    let '(A, Cc, Ei) := o in
    obind (osqrt (4 * Ei ^ 2 - Cc ^ 2)) (fun al =>
    obind (osqrt (Ei ^ 2 - Cc ^ 2 / 2)) (fun ga =>
    let z4 := tl_zeta4 e Cc al ga in
    obind (odiv (A * Cc * tl_a_ln Eg e Cc Ei / 2 / PI) z4) (fun u1 =>
    obind (odiv u1 al) (fun u2 =>
    obind (odiv u2 Ei) (fun u3 =>
    obind (odiv (Ei ^ 2 + Eg ^ 2 + al * Eg) (Ei ^ 2 + Eg ^ 2 - al * Eg)) (fun q1 =>
    obind (oln q1) (fun l1 =>
    obind (odiv (A / PI * tl_a_atan Eg e Cc Ei) z4) (fun v1 =>
    obind (odiv v1 Ei) (fun v2 =>
    obind (oatan_div (2 * Eg + al) Cc) (fun t1 =>
    obind (oatan_div (al - 2 * Eg) Cc) (fun t2 =>
    obind (odiv (2 * A * Ei * Eg * (e ^ 2 - ga ^ 2) / PI) z4) (fun w1 =>
    obind (odiv w1 al) (fun w2 =>
    obind (odiv (2 * (ga ^ 2 - Eg ^ 2)) al) (fun r =>
    obind (oatan_div r Cc) (fun t3 =>
    obind (odiv (A * Ei * Cc * (e ^ 2 + Eg ^ 2) / PI) z4) (fun x1 =>
    obind (odiv x1 e) (fun x2 =>
    obind (odiv (Rabs (e - Eg)) (e + Eg)) (fun q2 =>
    obind (oln q2) (fun l2 =>
    obind (odiv (2 * A * Ei * Eg * Cc / PI) z4) (fun y1 =>
    obind (odiv (Rabs (e - Eg) * (e + Eg)) (sqrt ((Ei ^ 2 - Eg ^ 2) ^ 2 + Eg ^ 2 * Cc ^ 2))) (fun q3 =>
    obind (oln q3) (fun l3 =>
    Some (u3 * l1 - v2 * (PI - t1 + t2) + w2 * (PI + 2 * t3) - x2 * l2 + y1 * l3)))))))))))))))))))))))
    .

(** lines 633-636: imaginary part of one oscillator; np.heaviside(x, 0) is 1 for x > 0,
      else 0; 0 * inf is nan *)
Definition tl_e2 (Eg e : R) (o : osc) : option R :=
    let '(A, Cc, Ei) := o in
    omap (fun v => v * (if Rlt_dec 0 (e - Eg) then 1 else 0))
      (odiv (A * Ei * Cc * (e - Eg) ^ 2) (e * ((e ^ 2 - Ei ^ 2) ^ 2 + (Cc * e) ^ 2))).

Definition tl_term (Eg e : R) (o : osc) : option C :=
    obind (tl_e1 Eg e o) (fun re => obind (tl_e2 Eg e o) (fun im => Some (re, im))).

Definition tl_epsilon (os : list osc) (Eg Einf e : R) : option C :=
  omap (fun s => s + RtoC Einf)%C (osum (map (tl_term Eg e) os)).

(** ** Scatterers *)
Inductive scatterer_kind :=
| K_RI (d : ri_data)
| K_Cauchy (A B Cc : R)
| K_Sellmeier (Am En P Einf : R)
| K_Lorentz (os : list osc) (Einf : R)
| K_Gauss (hilbert : list R -> list R) (os : list osc) (Einf : R)
| K_TaucLorentz (os : list osc) (Eg Einf : R)
| K_Epsilon (eps : R -> option C)      (* a user class that only defines epsilon *)
| K_Abstract.                          (* ScattererSE itself *)

(** [sc_wavelength] is the default wavelength, [sc_name] the name *)
Record scatterer := Scatterer { sc_kind : scatterer_kind; sc_wavelength : R; sc_name : string }.

(** [wav = self.wavelength; if np.any(wavelength): wav = wavelength] (structureSE.py:108-110,
    dispersion.py:116-118, 211-213, 289-291) *)
Definition choose_wav (dflt : R) (w : option R) : R :=
  match w with
  | None => dflt
  | Some x => if Req_EM_T x 0 then dflt else x
  end.

(** structureSE.py:107-116: np.sqrt(self.epsilon(nm_eV_conversion(wav))) *)
Definition complex_of_epsilon (eps : R -> result (option C)) (wav : R) : result (option C) :=
  match nm_eV_conversion wav with
  | None => Ok None
  | Some en => rmap (omap csqrt) (eps en)
  end.

(** scatterer.complex(wavelength) *)
Definition sc_complex (s : scatterer) (w : option R) : result (option C) :=
  let wav := choose_wav (sc_wavelength s) w in
  match sc_kind s with
  | K_RI d => ri_complex d wav
  | K_Cauchy A B Cc => Ok (cauchy_complex A B Cc wav)
  | K_Sellmeier Am En P Einf => Ok (sellmeier_complex Am En P Einf wav)
  | K_Lorentz os Einf => complex_of_epsilon (fun e => Ok (lorentz_epsilon os Einf e)) wav
  | K_Gauss h os Einf => complex_of_epsilon (gauss_epsilon h os Einf) wav
  | K_TaucLorentz os Eg Einf => complex_of_epsilon (fun e => Ok (tl_epsilon os Eg Einf e)) wav
  | K_Epsilon eps => complex_of_epsilon (fun e => Ok (eps e)) wav
  | K_Abstract => Raise NotImplementedError
  end.

(** ** Constructors of the oscillator classes (dispersion.py:363-381, 431-447, 525-543) *)

(** an argument: a number (or Parameter), or a (nested) sequence of them;
    refnx's sequence_to_parameters flattens it *)
Inductive pyarg := Num (x : R) | Seq (l : list pyarg).
Fixpoint flatten (a : pyarg) : list R :=
  match a with
  | Num x => [x]
  | Seq l => flat_map flatten l
  end.

(** the three sequences, or ValueError; numpy pairs the entries by position *)
Definition make_oscillators (a b c : pyarg) : result (list osc) :=
  let A := flatten a in let B := flatten b in let E := flatten c in
  if Nat.eqb (List.length A) (List.length B) && Nat.eqb (List.length B) (List.length E)
  then Ok (combine (combine A B) E)
  else Raise ValueError.

Definition Lorentz (am br en : pyarg) (Einf wl : R) (name : string) : result scatterer :=
  rmap (fun os => Scatterer (K_Lorentz os Einf) wl name) (make_oscillators am br en).
Definition Gauss (h : list R -> list R) (am br en : pyarg) (Einf wl : R) (name : string) : result scatterer :=
  rmap (fun os => Scatterer (K_Gauss h os Einf) wl name) (make_oscillators am br en).
Definition TaucLorentz (am c en : pyarg) (Eg Einf wl : R) (name : string) : result scatterer :=
  rmap (fun os => Scatterer (K_TaucLorentz os Eg Einf) wl name) (make_oscillators am c en).

(** ** Construction of an RI (dispersion.py:60-97).
    The object stores references to the arrays it is given, so the arrays live in a heap:
    address = position.  [PyList] is a Python list: [lst *= 1000] repeats it. *)
Inductive cell := Arr (l : list R) | PyList (l : list R).
Definition heap := list cell.
Definition cell_values (c : cell) : list R := match c with Arr l => l | PyList l => l end.

(** [x *= 1000] in place (dispersion.py:95) *)
Definition times1000 (c : cell) : cell :=
  match c with
  | Arr l => Arr (map (fun x => x * 1000) l)
  | PyList l => PyList (List.concat (repeat l 1000))
  end.

Fixpoint update {A} (l : list A) (i : nat) (f : A -> A) : list A :=
  match l, i with
  | [], _ => []
  | a :: l', O => f a :: l'
  | a :: l', S i' => a :: update l' i' f
  end.

(** the attributes _wav, _RI, _EC *)
Inductive ri_attrs :=
| A_const (n k : R)
| A_table (wav n k : nat)    (* heap addresses *)
| A_row (wav n k : R).

Record ri_object := RIObj { ri_attr : ri_attrs; ri_wavelength : R; ri_name : string }.

(** the argument [dispersion] *)
Inductive dispersion_arg :=
| D_None
| D_file (path : string) (rows : list (list R))  (* columns of the file, as numpy reads them *)
| D_pair (n k : R)
| D_triple (wav n k : nat)
| D_other.                                       (* any other sequence *)

(** np.loadtxt(...).T has one dimension if the file has one row or one column (ndmin is 0), none if
    it has one entry: the entries of the vector, or None for a table *)
Definition squeeze (cols : list (list R)) : option (list R) :=
  match cols with
  | [c] => Some c
  | _ => if forallb (fun c => Nat.leb (List.length c) 1) cols then Some (List.concat cols) else None
  end.

(** dispersion.py:60-97.  The name derived from the path (line 76) is assigned to the
    local variable [name] after the base class has stored the original one, and is lost. *)
Definition RI_init (h : heap) (d : dispersion_arg) (wl : R) (name : string) : result ri_object * heap :=
  match d with
  | D_None => (Raise RuntimeError, h)
  | D_file path cols =>
      match squeeze cols with
      | Some (w :: n :: rest) =>
          (Ok (RIObj (A_row (w * 1000) n (match rest with [k] => k | _ => 0 end)) wl name), h)
      | Some _ => (Raise IndexError, h)
      | None =>
      match cols with
      | w :: n :: rest =>
          let k := match rest with [k] => k | _ => repeat 0 (List.length w) end in
          let a := List.length h in
          (Ok (RIObj (A_table a (a + 1) (a + 2)) wl name),
           app h [Arr (map (fun x => x * 1000) w); Arr n; Arr k])
      | _ => (Raise IndexError, h)
      end
      end
  | D_pair n k => (Ok (RIObj (A_const n k) wl name), h)
  | D_triple w n k => (Ok (RIObj (A_table w n k) wl name), update h w times1000)
  | D_other => (Raise TypeError, h)
  end.

(** the scatterer that an RI object is, in the present state of the heap *)
Definition ri_view (h : heap) (o : ri_object) : scatterer :=
  Scatterer (K_RI match ri_attr o with
                  | A_const n k => RI_const n k
                  | A_table w n k =>
                      RI_table (cell_values (nth w h (Arr [])))
                               (cell_values (nth n h (Arr [])))
                               (cell_values (nth k h (Arr [])))
                  | A_row w n k => RI_row w n k
                  end) (ri_wavelength o) (ri_name o).
