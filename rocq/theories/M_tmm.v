(** * Model of refellips/reflect_modelSE.py lines 81-294:
    Fresnel coefficients, coh_tmm and Delta_Psi_TMM. *)

Require Import Reals List Bool Arith.
From Coquelicot Require Import Complex.
From Verif Require Import Base Cplx.
Import ListNotations.
Open Scope R_scope.
Open Scope C_scope.

(** Division of finite complex floats (numpy [/]).  Division by zero produces inf/nan
    entries, modelled by [None]. *)
Definition cdiv (a b : C) : option C := if Ceq_dec b 0 then None else Some (a / b).

(** A thickness as passed to coh_tmm: finite, or np.inf. *)
Inductive xR := Fin (x : R) | PInf.

(** reflect_modelSE.py:81-84 *)
Definition interface_r_s (n_i n_f th_i th_f : C) : option C :=
  cdiv (n_i * ccos th_i - n_f * ccos th_f) (n_i * ccos th_i + n_f * ccos th_f).

(** reflect_modelSE.py:87-90 *)
Definition interface_r_p (n_i n_f th_i th_f : C) : option C :=
  cdiv (n_f * ccos th_i - n_i * ccos th_f) (n_f * ccos th_i + n_i * ccos th_f).

(** reflect_modelSE.py:93-94 *)
Definition interface_t_s (n_i n_f th_i th_f : C) : option C :=
  cdiv (2 * n_i * ccos th_i) (n_i * ccos th_i + n_f * ccos th_f).

(** reflect_modelSE.py:97-98 *)
Definition interface_t_p (n_i n_f th_i th_f : C) : option C :=
  cdiv (2 * n_i * ccos th_i) (n_f * ccos th_i + n_i * ccos th_f).

(** reflect_modelSE.py:143: th_list for one measurement point; [carcsin] is
    numpy.lib.scimath.arcsin.  [None] if some index is zero. *)
Definition th_list (n_list : list C) (th_0 : R) : option (list C) :=
  mapM (fun n => omap carcsin (cdiv (hd (RtoC 0) n_list * RtoC (sin th_0)) n)) n_list.

(** reflect_modelSE.py:148: kz_list, one entry *)
Definition kz (lam_vac : R) (n th : C) : option C :=
  cdiv (2 * PI * n * ccos th) lam_vac.

(** reflect_modelSE.py:154: kz * d; an infinite inner thickness gives inf/nan. *)
Definition kzd (k : C) (d : xR) : option C :=
  match d with Fin x => Some (k * RtoC x) | PInf => None end.

(** reflect_modelSE.py:150-154: delta for the inner layers (before clipping).  The code
    computes kz for the end media too but never uses it. *)
Definition deltas (n_list th : list C) (d_list : list xR) (lam_vac : R) : option (list C) :=
  mapM (fun '(n, (t, d)) => obind (kz lam_vac n t) (fun k => kzd k d))
       (combine (inner n_list) (combine (inner th) (inner d_list))).

(** reflect_modelSE.py:160: the test of one entry *)
Definition opaque (z : C) : bool := if Rlt_dec 35 (Im z) then true else false.

(** reflect_modelSE.py:161: np.clip(delta.imag, -inf, 35) *)
Definition clip35 (z : C) : C := (Re z, Rmin (Im z) 35).

Definition mat : Type := (C * C * C * C)%type.  (* 00, 01, 10, 11 *)

(** reflect_modelSE.py:193-201: characteristic matrix of one inner layer with phase
    [delta], [r], [t] being the coefficients of the interface behind the layer *)
Definition char_mat (delta r t : C) : option mat :=
  let beta := cexp (Ci * delta) in
  let beta_inv := 1 / beta in
  obind (cdiv beta_inv t) (fun m00 =>
  obind (cdiv (r * beta_inv) t) (fun m01 =>
  obind (cdiv (r * beta) t) (fun m10 =>
  obind (cdiv beta t) (fun m11 => Some (m00, m01, m10, m11))))).

(** reflect_modelSE.py:205-208 *)
Definition init_mat (r t : C) : option mat :=
  obind (cdiv 1 t) (fun m00 => obind (cdiv r t) (fun m01 => Some (m00, m01, m01, m00))).

(** reflect_modelSE.py:213-216 *)
Definition mmul (M N : mat) : mat :=
  let '(a00, a01, a10, a11) := M in
  let '(b00, b01, b10, b11) := N in
  (a00 * b00 + a01 * b10, a00 * b01 + a01 * b11,
   a10 * b00 + a11 * b10, a10 * b01 + a11 * b11).

(** reflect_modelSE.py:176-181: coefficients of all interfaces of one point *)
Definition interfaces (f : C -> C -> C -> C -> option C) (n_list th : list C)
  : option (list C) :=
  let nt := combine n_list th in
  mapM (fun '((n_i, th_i), (n_f, th_f)) => f n_i n_f th_i th_f)
       (combine (removelast nt) (tl nt)).

(** reflect_modelSE.py:172-225 for one polarisation and one point: (r, t).
    Division by a zero t makes inf/nan matrix entries; numpy then returns nan for r
    (and nan or 0 for t); the model returns [None] for both. *)
Definition tmm_pol (f_r f_t : C -> C -> C -> C -> option C)
    (n_list th delta : list C) : option (C * C) :=
  obind (interfaces f_r n_list th) (fun r_list =>
  obind (interfaces f_t n_list th) (fun t_list =>
  obind (mapM (fun '(d, (r, t)) => char_mat d r t)
              (combine delta (combine (tl r_list) (tl t_list)))) (fun M_list =>
  obind (init_mat (hd (RtoC 0) r_list) (hd (RtoC 0) t_list)) (fun M0 =>
  let '(m00, m01, m10, m11) := fold_left mmul M_list M0 in
  obind (cdiv m10 m00) (fun r =>
  obind (cdiv 1 m00) (fun t => Some (r, t))))))).

(** what coh_tmm returns for one point *)
Record amplitudes := mkAmp {
  amp_s : option (C * C);   (* r_s, t_s *)
  amp_p : option (C * C) }. (* r_p, t_p *)

(** reflect_modelSE.py:143-225 for one point; [clip] says whether the clipping branch
    (line 160-161) is taken. *)
Definition tmm_point (n_list : list C) (d_list : list xR) (clip : bool)
    (th_0 lam_vac : R) : amplitudes :=
  let go f_r f_t :=
    obind (th_list n_list th_0) (fun th =>
    obind (deltas n_list th d_list lam_vac) (fun delta =>
    tmm_pol f_r f_t n_list th (if clip then map clip35 delta else delta))) in
  mkAmp (go interface_r_s interface_t_s) (go interface_r_p interface_t_p).

(** reflect_modelSE.py:160: does this point contain an opaque layer?  (a layer with
    nan phase compares False; the model then looks at none of the layers, which
    makes no difference since the whole point is nan.) *)
Definition point_opaque (n_list : list C) (d_list : list xR) (th_0 lam_vac : R) : bool :=
  match obind (th_list n_list th_0) (fun th => deltas n_list th d_list lam_vac) with
  | Some delta => existsb opaque delta
  | None => false
  end.

(** np.finfo(np.float64).eps *)
Definition EPSILON : R := / 2 ^ 52.

(** reflect_modelSE.py:132-134, one point *)
Definition n0_ok (n0 : C) (th_0 : R) : bool :=
  if Rlt_dec (Rabs (Im (n0 * RtoC (sin th_0)))) (100 * EPSILON) then true else false.

(** reflect_modelSE.py:150-154 and 209: kz_list[1:-1] * d_list[1:-1, None], where numpy broadcasts a single
    inner thickness over the layers, and a single inner layer over the thicknesses, of which the loop
    uses the first (IndexError if there is none).  With two media d_list is not looked at.  The thicknesses of the
    ends are never used. *)
Definition thickness_list (layers : nat) (d_list : list xR) : result (list xR) :=
  if ((layers =? length d_list) || (layers =? 2))%nat then Ok d_list
  else
    match inner d_list with
    | [] => if (layers =? 3)%nat then Raise IndexError else Raise ValueError
    | [d] => Ok (PInf :: repeat d (layers - 2) ++ [PInf])
    | d :: _ => if (layers =? 3)%nat then Ok [PInf; d; PInf] else Raise ValueError
    end.

(** reflect_modelSE.py:101-225.  [points] are the broadcast and ravelled (th_0,
    lam_vac). *)
Definition coh_tmm (n_list : list C) (d_list : list xR) (points : list (R * R))
  : result (list amplitudes) :=
  match n_list with
  | [] => Raise IndexError
  | n0 :: _ =>
    if negb (forallb (fun p => n0_ok n0 (fst p)) points) then Raise AssertionError
    else if (length n_list <? 2)%nat then Raise IndexError
    else
      match thickness_list (length n_list) d_list with
      | Raise e => Raise e
      | Ok d_list =>
          let clip := existsb (fun p => point_opaque n_list d_list (fst p) (snd p)) points in
          Ok (map (fun p => tmm_point n_list d_list clip (fst p) (snd p)) points)
      end
  end.

(** A row of the layer table handed to Delta_Psi_TMM (structureSE.py:269-292,
    columns thickness, index, extinction, roughness).  A non-finite index (nan) is
    [None]. *)
Record layer := mkLayer {
  l_thick : R;
  l_ri : option C;   (* columns 1 and 2 *)
  l_rough : R }.

(** reflect_modelSE.py:275: layers[0, 2] = 0 *)
Definition drop_k (l : layer) : layer :=
  mkLayer (l_thick l) (omap (fun z => RtoC (Re z)) (l_ri l)) (l_rough l).

(** reflect_modelSE.py:277-279: thickness column in nm, ends infinite *)
Definition thicks (layers : list layer) : list xR :=
  match layers with
  | [] => []
  | [_] => [PInf]
  | _ :: rest => PInf :: map (fun l => Fin (l_thick l / 10)) (removelast rest) ++ [PInf]
  end.

(** reflect_modelSE.py:286, 294: psi in degrees.  With r_s = 0 and r_p <> 0 numpy gets
    abs(inf) and arctan(inf) = pi/2. *)
Definition psi_of (rs rp : C) : option R :=
  if Ceq_dec rs 0 then (if Ceq_dec rp 0 then None else Some (PI / 2 * (180 / PI))%R)
  else Some (atan (Cmod (rp / rs)%C) * (180 / PI))%R.

(** reflect_modelSE.py:287-294: delta in degrees. *)
Definition delta_of (reflect : bool) (delta_offset : R) (rs rp : C) : option R :=
  obind (cdiv (- rp) rs) (fun q => obind (cdiv 1 q) (fun z =>
  let d := (carg z + PI)%R in
  let d := if reflect then (if Rlt_dec PI d then 2 * PI - d else d)%R else d in
  Some (d * (180 / PI) + delta_offset)%R)).

Definition psi_delta (reflect : bool) (delta_offset : R) (a : amplitudes)
  : option R * option R :=
  match amp_s a, amp_p a with
  | Some (rs, _), Some (rp, _) => (psi_of rs rp, delta_of reflect delta_offset rs rp)
  | _, _ => (None, None)
  end.

(** reflect_modelSE.py:228-294.  Returns the values (or the exception) and the layer
    table as it is left behind: line 275 modifies the caller's array.
    If some index is nan the fronting test fails (when it is the first one and there
    is a point to calculate), otherwise every value is nan. *)
Definition Delta_Psi_TMM (AOI : list R) (layers : list layer) (wavelength delta_offset : R)
    (reflect_delta : bool) : result (list (option R * option R)) * list layer :=
  match layers with
  | [] => (Raise IndexError, [])
  | l0 :: rest =>
    let layers' := drop_k l0 :: rest in
    let points := map (fun a => (a * (PI / 180), wavelength)%R) AOI in
    let out :=
      match mapM l_ri layers' with
      | Some RIs =>
          rmap (map (psi_delta reflect_delta delta_offset))
               (coh_tmm RIs (thicks layers') points)
      | None =>
          match l_ri l0, AOI with
          | None, _ :: _ => Raise AssertionError
          | _, _ => if (length layers <? 2)%nat then Raise IndexError
                    else Ok (map (fun _ => (None, None)) AOI)
          end
      end in
    (out, layers')
  end.
