(** * Model of refellips/objectiveSE.py (circular_distance, ObjectiveSE) with the Parameter
    objects of the fitting system.

    A Parameter is an address ([pid]); scatterers, components and structures hold addresses
    ("templates", suffix _t) and are instantiated with the current values before the model of
    M_struct / M_model is run.  refnx Parameter, Parameters, bounds and flatten/unique are
    external; their contracts are written down here. *)

Require Import Reals List Bool ZArith String.
From Coquelicot Require Import Complex.
From Verif Require Import Base M_disp M_struct M_model M_data.
Import ListNotations.
Open Scope list_scope.
Open Scope R_scope.

(** ** circular_distance (objectiveSE.py:21-40); nan propagates *)
Definition circular_distance (angle1 angle2 period : R) : R :=
  let diff := Rabs (angle1 - angle2) in Rmin diff (period - diff).

(** ** Parameters (refnx.analysis.Parameter, contract).
    [value] is the stored number unless the parameter has a constraint, which computes it from
    the numbers stored in other parameters.  logp of a value: [None] = not finite. *)
Definition pid := nat.

Inductive bounds :=
| Interval (lb ub : R)
| OtherBounds (logp : R -> option R) (invcdf : R -> R).
Definition bounds_logp (b : bounds) (x : R) : option R :=
  match b with
  | Interval lb ub => if Rle_dec lb x then if Rle_dec x ub then omap Ropp (oln (ub - lb)) else None else None
  | OtherBounds f _ => f x
  end.
Definition bounds_invcdf (b : bounds) (q : R) : R :=
  match b with
  | Interval lb ub => q * (ub - lb) + lb
  | OtherBounds _ g => g q
  end.

Record param := Param {
  p_vary : bool;
  p_constraint : option ((pid -> R) -> R);
  p_bounds : bounds }.

Definition read (ps : pid -> param) (store : pid -> R) (p : pid) : R :=
  match p_constraint (ps p) with Some f => f store | None => store p end.
Definition write (store : pid -> R) (p : pid) (x : R) : pid -> R :=
  fun q => if Nat.eqb q p then x else store q.

(** ** Scatterers, components and structures with Parameters *)

(** dispersion.py:184-191, 257-270, 363-381, 431-447, 525-543 *)
Inductive scat_kind_t :=
| T_RI (d : ri_data)
| T_Cauchy (A B Cc : pid)
| T_Sellmeier (Am En P Einf : pid)
| T_Lorentz (Am Br En : list pid) (Einf : pid)
| T_Gauss (hilbert : list R -> list R) (Am Br En : list pid) (Einf : pid)
| T_TaucLorentz (Am Cc En : list pid) (Eg Einf : pid)
| T_User (ps : list pid) (eps : list R -> R -> option C)   (* a user class defining epsilon *)
| T_Abstract.
Record scatterer_t := ScattererT { sct_kind : scat_kind_t; sct_wavelength : R; sct_name : string }.
Record material_t := MaterialT { mt_scat : scatterer_t; mt_dispersive : bool }.

(** the order of [parameters]: dispersion.py:99-101, 190-191, 269-270, 377-381, 446-447, 543 *)
Definition scat_params (s : scatterer_t) : list pid :=
  match sct_kind s with
  | T_RI _ => []
  | T_Cauchy A B Cc => [A; B; Cc]
  | T_Sellmeier Am En P Einf => [Am; En; P; Einf]
  | T_Lorentz Am Br En Einf => Am ++ Br ++ En ++ [Einf]
  | T_Gauss _ Am Br En Einf => Am ++ Br ++ En ++ [Einf]
  | T_TaucLorentz Am Cc En Eg Einf => Am ++ Cc ++ En ++ [Einf; Eg]
  | T_User ps _ => ps
  | T_Abstract => []
  end.

Definition oscillators (v : pid -> R) (a b c : list pid) : list osc :=
  combine (combine (map v a) (map v b)) (map v c).
Definition inst_scat (v : pid -> R) (s : scatterer_t) : scatterer :=
  Scatterer
    match sct_kind s with
    | T_RI d => K_RI d
    | T_Cauchy A B Cc => K_Cauchy (v A) (v B) (v Cc)
    | T_Sellmeier Am En P Einf => K_Sellmeier (v Am) (v En) (v P) (v Einf)
    | T_Lorentz Am Br En Einf => K_Lorentz (oscillators v Am Br En) (v Einf)
    | T_Gauss h Am Br En Einf => K_Gauss h (oscillators v Am Br En) (v Einf)
    | T_TaucLorentz Am Cc En Eg Einf => K_TaucLorentz (oscillators v Am Cc En) (v Eg) (v Einf)
    | T_User ps eps => K_Epsilon (eps (map v ps))
    | T_Abstract => K_Abstract
    end (sct_wavelength s) (sct_name s).
Definition inst_material (v : pid -> R) (m : material_t) : material :=
  Material (inst_scat v (mt_scat m)) (mt_dispersive m).

(** structureSE.py:232-252, 330-351 *)
Inductive component_kind_t :=
| SlabT (thick : pid) (ri : material_t) (rough vfsolv : pid)
| MixedSlabT (thick : pid) (ri_A ri_B : material_t) (vf_B rough : pid)
| CustomT (ps : list pid) (f : list R -> settings -> result (option (list slab))).
Record component_t := ComponentT { ct_kind : component_kind_t; ct_default_interface : bool }.

Definition component_params (c : component_t) : list pid :=
  match ct_kind c with
  | SlabT t m r v => [t] ++ scat_params (mt_scat m) ++ [r; v]
  | MixedSlabT t mA mB v r => [t] ++ scat_params (mt_scat mA) ++ scat_params (mt_scat mB) ++ [v; r]
  | CustomT ps _ => ps
  end.
Definition inst_component (v : pid -> R) (c : component_t) : component :=
  Component
    match ct_kind c with
    | SlabT t m r f => Slab (v t) (inst_material v m) (v r) (v f)
    | MixedSlabT t mA mB f r => MixedSlab (v t) (inst_material v mA) (inst_material v mB) (v f) (v r)
    | CustomT ps f => Custom (f (map v ps))
    end (ct_default_interface c).

(** a structure without its wavelength attribute, which changes during evaluation *)
Record structure_t := StructureT {
  stt_data : list component_t; stt_name : string; stt_solvent : option scatterer_t;
  stt_reverse : bool; stt_contract : R; stt_ema : string; stt_dep : R }.

(** refnx Structure.parameters: those of the components, then those of the solvent *)
Definition structure_params (s : structure_t) : list pid :=
  flat_map component_params (stt_data s) ++
  match stt_solvent s with Some sc => scat_params sc | None => [] end.
Definition inst_structure (v : pid -> R) (w : option R) (s : structure_t) : structure :=
  Structure (map (inst_component v) (stt_data s)) (stt_name s)
    (match stt_solvent s with Some sc => Some (inst_scat v sc) | None => None end)
    (stt_reverse s) (stt_contract s) w (stt_ema s) (stt_dep s).

(** ** ReflectModelSE objects: structure (by reference) and delta_offset.  parameters
    (reflect_modelSE.py:413-442): delta_offset, then those of the structure *)
Record model_t := ModelT { mo_structure : nat; mo_offset : pid }.

(** what does not change during a fit; the arrays of the datasets are in [sy_heap] *)
Record system := System {
  sy_params : pid -> param;
  sy_ext : externals;
  sy_structures : list structure_t;
  sy_models : list model_t;
  sy_heap : heap }.

(** what changes: numbers in the parameters, wavelength of each structure, _flip_delta of
    each model *)
Record state := State {
  st_store : pid -> R;
  st_wavelengths : list (option R);
  st_flips : list bool }.

Definition the_structure (sy : system) (a : nat) : structure_t :=
  nth a (sy_structures sy) (StructureT [] EmptyString None false 0 "linear" (1 / 3)).
Definition the_model (sy : system) (m : nat) : model_t := nth m (sy_models sy) (ModelT 0%nat 0%nat).
Definition model_params (sy : system) (m : nat) : list pid :=
  mo_offset (the_model sy m) :: structure_params (the_structure sy (mo_structure (the_model sy m))).

(** a call: its outcome and the state it leaves *)
Definition call (A : Type) := state -> result A * state.
Definition ret {A} (a : A) : call A := fun st => (Ok a, st).
Definition raise {A} (e : exn) : call A := fun st => (Raise e, st).
Definition bind {A B} (x : call A) (f : A -> call B) : call B := fun st =>
  match x st with (Ok a, st') => f a st' | (Raise e, st') => (Raise e, st') end.

Definition value (sy : system) (st : state) : pid -> R := read (sy_params sy) (st_store st).

(** the structure of a model, as it is now *)
Definition current (sy : system) (st : state) (m : nat) : structure :=
  let a := mo_structure (the_model sy m) in
  inst_structure (value sy st) (nth a (st_wavelengths st) None) (the_structure sy a).

(** self.model(wavelength_aoi) ; float columns *)
Definition call_model (sy : system) (m : nat) (X : list (R * R)) : call (list num * list num) := fun st =>
  let '(r, s) := model (sy_ext sy) DFloat (current sy st m) (value sy st (mo_offset (the_model sy m)))
                       (nth m (st_flips st) false) X in
  (r, State (st_store st)
            (update (st_wavelengths st) (mo_structure (the_model sy m)) (fun _ => st_wavelength s))
            (st_flips st)).

(** ** ObjectiveSE.  [ob_logp_extra] is stored and nothing else (objectiveSE.py:111).
    [transform] is stored too and left out. *)
Record objective := Objective {
  ob_model : nat;
  ob_data : dataset;
  ob_lnsigma : option pid;
  ob_use_weights : bool;
  ob_logp_extra : option (system -> state -> R) }.

(** __init__ (objectiveSE.py:89-118) with a DataSE *)
Definition new_objective (m : nat) (d : dataset) (lnsigma : option pid) (use_weights : bool)
    (logp_extra : option (system -> state -> R)) (st : state) : objective * state :=
  (Objective m d lnsigma use_weights logp_extra,
   State (st_store st) (st_wavelengths st) (update (st_flips st) m (fun _ => ds_flipped d))).

(** objectiveSE.py:149-160 *)
Definition weighted (o : objective) : bool := ds_weighted (ob_data o) && ob_use_weights o.

(** parameters, flattened (objectiveSE.py:228-237) *)
Definition parameters (sy : system) (o : objective) : list pid :=
  match ob_lnsigma o with Some p => [p] | None => [] end ++ model_params sy (ob_model o).

(** refnx unique: the first occurrence of each *)
Fixpoint unique (l : list pid) : list pid :=
  match l with
  | [] => []
  | p :: l' => p :: filter (fun q => negb (Nat.eqb q p)) (unique l')
  end.

(** varying_parameters (objectiveSE.py:169-181) *)
Definition varying_parameters (sy : system) (o : objective) : list pid :=
  unique (filter (fun p => p_vary (sy_params sy p)) (parameters sy o)).

(** for idx, param in enumerate(ps): param.value = pvals[idx] *)
Definition write_all (store : pid -> R) (ps : list pid) (pvals : list R) : pid -> R :=
  fold_left (fun s px => write s (fst px) (snd px)) (combine ps pvals) store.
Definition set_store (st : state) (s : pid -> R) : state := State s (st_wavelengths st) (st_flips st).

(** setp (objectiveSE.py:239-274) *)
Definition setp (sy : system) (o : objective) (pvals : option (list R)) : call unit := fun st =>
  match pvals with
  | None => (Ok tt, st)
  | Some v =>
      if Nat.eqb (List.length v) (List.length (varying_parameters sy o)) then
        (Ok tt, set_store st (write_all (st_store st) (varying_parameters sy o) v))
      else if Nat.eqb (List.length v) (List.length (parameters sy o)) then
        (Ok tt, set_store st (write_all (st_store st) (parameters sy o) v))
      else (Raise ValueError, st)
  end.

(** np.c_[wavelength, aoi] of 1-d columns; a nan in it, or 2-d columns (mask None), is outside
    the model (OtherError) *)
Definition wavelength_aoi (w a : ndarray) : result (list (R * R)) :=
  match w, a with
  | A1 w, A1 a =>
      if Nat.eqb (List.length w) (List.length a) then
        match mapM (fun x : num * num => olift2 pair (fst x) (snd x)) (combine w a) with
        | Some X => Ok X
        | None => Raise OtherError
        end
      else Raise ValueError
  | _, _ => Raise OtherError
  end.
Definition column (a : ndarray) : result (list num) :=
  match a with A1 l => Ok l | A2 _ => Raise OtherError end.

Definition lift {A} (r : result A) : call A := fun st => (r, st).

(** element-wise operation of two columns of equal length (anything else is outside) *)
Definition zip_columns (f : R -> R -> R) (a b : list num) : result (list num) :=
  if Nat.eqb (List.length a) (List.length b) then Ok (map2 (olift2 f) a b) else Raise OtherError.

(** the data and the calculated psi, delta: the common part of residuals and logl *)
Definition evaluate (sy : system) (o : objective) : call (list num * list num * list num * list num) :=
  bind (lift (get_data (sy_heap sy) (ob_data o))) (fun '(w, a, p, x) =>
  bind (lift (wavelength_aoi w a)) (fun X =>
  bind (call_model sy (ob_model o) X) (fun '(psi, delta) =>
  bind (lift (column p)) (fun psi_d =>
  bind (lift (column x)) (fun delta_d => ret (psi, delta, psi_d, delta_d)))))).

(** residuals (objectiveSE.py:183-205) *)
Definition residuals (sy : system) (o : objective) (pvals : option (list R)) : call (list num) :=
  bind (setp sy o pvals) (fun _ =>
  bind (evaluate sy o) (fun '(psi, delta, psi_d, delta_d) =>
  bind (lift (zip_columns (fun x y => circular_distance x y 360) delta delta_d)) (fun delta_err =>
  bind (lift (zip_columns Rminus psi psi_d)) (fun psi_err => ret (psi_err ++ delta_err))))).

(** sum of numbers, nan if one is nan *)
Definition nsum (l : list num) : num := fold_right (olift2 Rplus) (Some 0) l.

(** chisqr (objectiveSE.py:207-226) *)
Definition chisqr (sy : system) (o : objective) (pvals : option (list R)) : call num :=
  bind (setp sy o pvals) (fun _ =>
  bind (residuals sy o None) (fun res => ret (nsum (map (omap (fun x => x * x)) res)))).

(** prior_transform (objectiveSE.py:276-311) *)
Definition prior_transform (sy : system) (o : objective) (u : list R) : result (list R) :=
  let ps := varying_parameters sy o in
  if Nat.leb (List.length ps) (List.length u) then
    Ok (map2 (fun p q => bounds_invcdf (p_bounds (sy_params sy p)) q) ps u)
  else Raise IndexError.

(** logp (objectiveSE.py:313-351); [None] = -inf *)
Definition logp (sy : system) (o : objective) (pvals : option (list R)) : call (option R) :=
  bind (setp sy o pvals) (fun _ st =>
  (Ok (nsum (map (fun p => bounds_logp (p_bounds (sy_params sy p)) (value sy st p))
                 (varying_parameters sy o))), st)).

(** logl (objectiveSE.py:353-419) *)
Definition variances (sy : system) (st : state) (o : objective) (psi delta : list num) : list num :=
  match ob_lnsigma o with
  | Some p => map (omap (fun m => 1 * 1 + exp (2 * value sy st p) * m * m)) (psi ++ delta)
  | None => map (fun _ => Some 1) (psi ++ delta)
  end.
Definition logl_term (w : bool) (var res : num) : num :=
  olift2 (fun v r => (if w then ln (2 * PI * v) else 0) + r ^ 2 / v) var res.
Definition all_some (l : list num) : option (list R) := mapM (fun x => x) l.
Definition Rsum (l : list R) : R := fold_right Rplus 0 l.
Definition logl (sy : system) (o : objective) (pvals : option (list R)) : call R :=
  bind (setp sy o pvals) (fun _ =>
  bind (evaluate sy o) (fun '(psi, delta, _, _) st0 =>
  let var_y := variances sy st0 o psi delta in
  bind (residuals sy o None) (fun res =>
  match all_some (map2 (logl_term (weighted o)) var_y res) with
  | Some l => ret (- (1 / 2) * Rsum l)
  | None => raise RuntimeError
  end) st0)).

(** logpost (objectiveSE.py:421-451) *)
Definition logpost (sy : system) (o : objective) (pvals : option (list R)) : call (option R) :=
  bind (setp sy o pvals) (fun _ =>
  bind (logp sy o None) (fun lp =>
  match lp with
  | None => ret None
  | Some x => bind (logl sy o None) (fun y => ret (Some (x + y)))
  end)).

(** ** covar (objectiveSE.py:453-525).  scipy's approx_derivative is any procedure that
    evaluates the given function at points of its choice and then returns a matrix or lets an
    exception through; the linear algebra after it is a parameter, too. *)
Inductive differentiator :=
| Probe (v : list R) (k : result (list num) -> differentiator)
| Return (jac : list (list R))
| Throw (e : exn).

Fixpoint run_diff (f : list R -> call (list num)) (d : differentiator) : call (list (list R)) :=
  match d with
  | Probe v k => fun st => let '(r, st') := f v st in run_diff f (k r) st'
  | Return jac => ret jac
  | Throw e => raise e
  end.

(** the try/except of covar (objectiveSE.py:463-486): the matrix, whether the scaled residuals
    were used, and the state *)
Definition jacobian (sy : system) (o : objective) (pvals : list R)
    (approx1 approx2 : list R -> differentiator) (st : state) : result (list (list R)) * bool * state :=
  let scaled (vals : list R) := residuals sy o (Some (map2 Rmult pvals vals)) in
  let plain (vals : list R) := residuals sy o (Some vals) in
  match (if existsb (fun x => if Req_EM_T x 0 then true else false) pvals
         then (Raise FloatingPointError, st)
         else run_diff scaled (approx1 (map (fun _ => 1) pvals)) st) with
  | (Raise FloatingPointError, st1) =>
      let '(r, st2) := run_diff plain (approx2 pvals) st1 in (r, false, st2)
  | (r, st1) => (r, true, st1)
  end.

Definition covar (sy : system) (o : objective)
    (approx1 approx2 : list R -> differentiator)
    (algebra : list (list R) -> bool -> list R -> result (list (list R)))
  : call (list (list R)) := fun st =>
  let pvals := map (value sy st) (varying_parameters sy o) in
  let '(jac, used, st1) := jacobian sy o pvals approx1 approx2 st in
  match setp sy o (Some pvals) st1 with          (* finally *)
  | (Raise e, st2) => (Raise e, st2)
  | (Ok _, st2) =>
      (bind (lift jac) (fun j =>
       bind (lift (algebra j used pvals)) (fun cov =>
       if weighted o then ret cov
       else bind (chisqr sy o None) (fun c2 =>
            match obind c2 (fun c2 => odiv c2 (INR (List.length j) - INR (List.length pvals))) with
            | Some scale => ret (map (map (Rmult scale)) cov)
            | None => raise OtherError      (* a matrix of inf or nan *)
            end)))) st2
  end.
