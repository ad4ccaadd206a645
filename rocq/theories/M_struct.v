(** * Model of refellips/structureSE.py 144-855: components and structures.

    Parameters enter with their current values.  Structures are mutable and shared by
    reference; they live in a [world] (address = position).  Components are never changed
    by the code modelled here and are values. *)

Require Import Reals List Bool ZArith String.
From Coquelicot Require Import Complex.
From Verif Require Import Base Cplx M_ema M_disp.
Import ListNotations.
Open Scope list_scope.
Open Scope R_scope.

(** a scatterer with its attribute [dispersive] (structureSE.py:73-78: True by default) *)
Record material := Material { m_scat : scatterer; m_dispersive : bool }.

(** one row of a slab table (structureSE.py:282-292): thickness, index (columns 1 and 2;
    [None] = nan), roughness towards the previous row, solvent fraction *)
Record slab := mkSlab { s_thick : R; s_ri : option C; s_rough : R; s_vf : R }.

(** what a component can see of a structure (getattr(structure, ...)) *)
Record settings := Settings { g_wavelength : option R; g_ema : string; g_dep : R }.

(** ComponentSE: SlabSE, MixedSlabSE, or a user class with its own [slabs] (None or rows) *)
Inductive component_kind :=
| Slab (thick : R) (ri : material) (rough vfsolv : R)
| MixedSlab (thick : R) (ri_A ri_B : material) (vf_B rough : R)
| Custom (f : settings -> result (option (list slab))).

(** [c_interface] is True when the interfaces property of the component is None *)
Record component := Component { c_kind : component_kind; c_default_interface : bool }.

(** [ri.complex(wavelength)] for a dispersive scatterer, else [complex(ri)] = complex(None)
    (structureSE.py:274-279, 376-385) *)
Definition m_complex (m : material) (w : option R) : result (option C) :=
  sc_complex (m_scat m) (if m_dispersive m then w else None).

(** structureSE.py:858-922 with nan arguments: nan spoils the linear rule; the other rules
    replace a non-finite quotient by 0 (lines 895, 917) *)
Definition overall_ri_nan (a b : option C) (vf : R) (ema : string) (d : R) : result (option C) :=
  match a, b with
  | Some x, Some y => rmap (@Some C) (overall_ri x y vf ema d)
  | _, _ =>
      if String.eqb ema "linear" then Ok None
      else if String.eqb ema "maxwell-garnett" then
        Ok (match a with Some _ => Some (RtoC 0) | None => None end)
      else if String.eqb ema "bruggeman" then Ok (Some (RtoC 0))
      else Raise RuntimeError
  end.

(** slabs of a component: structureSE.py:269-292, 372-398 *)
Definition component_slabs (g : settings) (c : component) : result (option (list slab)) :=
  match c_kind c with
  | Slab t m r v =>
      rmap (fun n => Some [mkSlab t n r v]) (m_complex m (g_wavelength g))
  | MixedSlab t mA mB v r =>
      rbind (m_complex mA (g_wavelength g)) (fun a =>
      rbind (m_complex mB (g_wavelength g)) (fun b =>
      rmap (fun n => Some [mkSlab t n r 0]) (overall_ri_nan a b v (g_ema g) (g_dep g))))
  | Custom f => f g
  end.

Definition is_slab (c : component) : bool :=
  match c_kind c with Slab _ _ _ _ => true | _ => false end.

(** ScattererSE.__call__ (structureSE.py:118-141) *)
Definition call_scatterer (m : material) (thick rough vf : R) : component :=
  Component (Slab thick m rough vf) true.

(** ** StructureSE: attributes (structureSE.py:441-473) *)
Record structure := Structure {
  st_data : list component;
  st_name : string;
  st_solvent : option scatterer;
  st_reverse : bool;
  st_contract : R;
  st_wavelength : option R;
  st_ema : string;
  st_dep : R }.

Definition view (s : structure) : settings := Settings (st_wavelength s) (st_ema s) (st_dep s).
Definition set_data (s : structure) d := Structure d (st_name s) (st_solvent s) (st_reverse s) (st_contract s) (st_wavelength s) (st_ema s) (st_dep s).
Definition set_wavelength (s : structure) w := Structure (st_data s) (st_name s) (st_solvent s) (st_reverse s) (st_contract s) w (st_ema s) (st_dep s).
Definition set_reverse (s : structure) r := Structure (st_data s) (st_name s) (st_solvent s) r (st_contract s) (st_wavelength s) (st_ema s) (st_dep s).
Definition set_dep_raw (s : structure) d := Structure (st_data s) (st_name s) (st_solvent s) (st_reverse s) (st_contract s) (st_wavelength s) (st_ema s) d.

(** A Python object handed to a structure *)
Inductive pyobj :=
| PComp (c : component)
| PScat (m : material)
| PStruct (a : nat)      (* a StructureSE, by reference *)
| POther.                (* anything else *)

Definition components_in (l : list pyobj) : list component :=
  flat_map (fun o => match o with PComp c => [c] | _ => [] end) l.

(** structureSE.py:441-473 for a solvent that is None or a scatterer: the other arguments are
    stored as they are, [components] is filtered by class (line 467) *)
Definition new_structure (components : list pyobj) (name : string) (solvent : option scatterer)
    (reverse : bool) (contract : R) (wavelength : option R) (ema : string) (dep : R) : structure :=
  Structure (components_in components) name solvent reverse contract wavelength ema dep.

(** StructureSE() *)
Definition empty_structure : structure :=
  new_structure [] EmptyString None false 0 None "linear" (1 / 3).

(** the constructor's solvent argument goes through the setter (structureSE.py:486-494) *)
Definition check_solvent (o : option pyobj) : result (option scatterer) :=
  match o with
  | None => Ok None
  | Some (PScat m) => Ok (Some (m_scat m))
  | Some _ => Raise ValueError
  end.

(** a value assigned to depolarisation_factor *)
Inductive pyval := VNum (x : R) | VNan | VBad (e : exn).   (* float(value) raises e *)

(** structureSE.py:501-508 *)
Definition set_depolarisation (s : structure) (v : pyval) : result unit * structure :=
  match v with
  | VNum x => if Rle_dec 0 x then if Rle_dec x 1 then (Ok tt, set_dep_raw s x)
              else (Raise ValueError, s) else (Raise ValueError, s)
  | VNan => (Raise ValueError, s)
  | VBad e => (Raise e, s)
  end.

(** ** Building structures *)
Definition world := list structure.
Definition get (w : world) (a : nat) : structure := nth a w empty_structure.

(** append (structureSE.py:510-527) *)
Definition append (w : world) (a : nat) (o : pyobj) : result unit * world :=
  match o with
  | PScat m => (Ok tt, update w a (fun s => set_data s (st_data s ++ [call_scatterer m 0 0 0])))
  | PComp c => (Ok tt, update w a (fun s => set_data s (st_data s ++ [c])))
  | _ => (Raise ValueError, w)
  end.

(** __ior__ (structureSE.py:772-792); [self.extend(other.data)] is list.extend, which reads
    the whole of [other.data] first *)
Definition ior (w : world) (a : nat) (o : pyobj) : result unit * world :=
  match o with
  | PComp _ => append w a o
  | PStruct b => (Ok tt, update w a (fun s => set_data s (st_data s ++ st_data (get w b))))
  | PScat m => append w a (PComp (call_scatterer m 0 0 0))
  | POther => (Raise ValueError, w)
  end.

(** __or__ of components and structures (structureSE.py:160-179, 794-816): a fresh
    StructureSE(), then two in-place ors.  Returns its address.  On an exception the fresh
    structure is garbage and dropped here. *)
Definition or_ (w : world) (x y : pyobj) : result nat * world :=
  match x with
  | POther => (Raise TypeError, w)          (* not our operator *)
  | PScat m =>
      (* refnx Scatterer.__or__: self() | other *)
      match ior (w ++ [empty_structure]) (List.length w) (PComp (call_scatterer m 0 0 0)) with
      | (Ok _, w1) => match ior w1 (List.length w) y with
                      | (Ok _, w2) => (Ok (List.length w), w2)
                      | (Raise e, _) => (Raise e, w)
                      end
      | (Raise e, _) => (Raise e, w)
      end
  | _ =>
      match ior (w ++ [empty_structure]) (List.length w) x with
      | (Ok _, w1) => match ior w1 (List.length w) y with
                      | (Ok _, w2) => (Ok (List.length w), w2)
                      | (Raise e, _) => (Raise e, w)
                      end
      | (Raise e, _) => (Raise e, w)
      end
  end.

(** x0 | x1 | x2 | ... , from left to right *)
Fixpoint or_chain (w : world) (x : pyobj) (ys : list pyobj) : result pyobj * world :=
  match ys with
  | [] => (Ok x, w)
  | y :: ys' => match or_ w x y with
                | (Ok a, w') => or_chain w' (PStruct a) ys'
                | (Raise e, w') => (Raise e, w')
                end
  end.

(** component * n (structureSE.py:181-204): the component itself or a fresh structure *)
Definition mul_component (w : world) (c : component) (n : Z) : pyobj * world :=
  if (n <? 1)%Z then (PStruct (List.length w), w ++ [empty_structure])
  else if (n =? 1)%Z then (PComp c, w)
  else (PStruct (List.length w), w ++ [set_data empty_structure (repeat c (Z.to_nat n))]).

(** copy.copy (structureSE.py:477-480) *)
Definition copy_structure (s : structure) : structure :=
  set_data (new_structure [] (st_name s) (st_solvent s) false 0 None "linear" (1 / 3)) (st_data s).

(** ** The slab table (structureSE.py:535-651) *)

(** refnx: _micro_slabs (non-default interfaces), contract_by_area and sld_profile *)
Record externals := Externals {
  x_micro : structure -> result (list slab);
  x_contract : list slab -> R -> list slab;
  x_profile : list slab -> option (list R) -> list R * list (option C) }.

(** lines 608-615: the tables of the components, one after the other; None is skipped *)
Definition concat_slabs (s : structure) : result (list slab) :=
  rmap (fun sl => List.concat (map (fun o => match o with Some r => r | None => [] end) sl))
       (mapR (component_slabs (view s)) (st_data s)).

Definition set_rough (r : slab) (x : R) : slab := mkSlab (s_thick r) (s_ri r) x (s_vf r).

(** lines 622-627.  [roughnesses], [np.flipud] are views of one array; numpy buffers the
    overlapping assignment of line 626, which therefore reads the old values *)
Definition reverse_slabs (rows : list slab) : list slab :=
  let roughnesses := map s_rough (tl rows) in
  match rev rows with
  | [] => []
  | r0 :: rest => set_rough r0 0 :: map2 set_rough rest (rev roughnesses)
  end.

(** rows[1:-1] = new *)
Definition set_inner (rows new : list slab) : list slab :=
  match rows with
  | r0 :: (_ :: _) as rest => r0 :: new ++ [List.last rows r0]
  | _ => rows
  end.

(** overall_ri method (structureSE.py:818-855) *)
Definition mix_slab (ema : string) (d : R) (solv : option C) (r : slab) : result slab :=
  rmap (fun n => mkSlab (s_thick r) n (s_rough r) (s_vf r))
       (overall_ri_nan (s_ri r) solv (s_vf r) ema d).
Definition known_ema (ema : string) : bool :=
  String.eqb ema "linear" || String.eqb ema "maxwell-garnett" || String.eqb ema "bruggeman".
Definition mix_slabs (s : structure) (rows : list slab) (solv : option C) : result (list slab) :=
  if known_ema (st_ema s) then mapR (mix_slab (st_ema s) (st_dep s) solv) rows
  else Raise RuntimeError.

(** lines 629-643 *)
Definition solvate (s : structure) (rows : list slab) : result (list slab) :=
  if existsb (fun r => if Rlt_dec 0 (s_vf r) then true else false) rows then
    rbind (match st_solvent s with
           | Some sc => sc_complex sc (st_wavelength s)
           | None => Ok (s_ri (List.last rows (mkSlab 0 None 0 0)))
           end) (fun solv =>
    rmap (set_inner rows) (mix_slabs s (inner rows) solv))
  else Ok rows.

(** slabs(wavelength=...) ; the structure may keep a new wavelength *)
Definition structure_slabs (ext : externals) (s : structure) (kw : option R)
  : result (option (list slab)) * structure :=
  match st_data s with
  | [] => (Ok None, s)
  | c0 :: _ =>
      if negb (is_slab (List.last (st_data s) c0) && is_slab c0) then (Raise ValueError, s)
      else
        let s := match kw with Some w => set_wavelength s (Some w) | None => s end in
        let rows := if forallb c_default_interface (st_data s) then concat_slabs s
                    else x_micro ext s in
        (rbind rows (fun rows =>
         let rows := if st_reverse s then reverse_slabs rows else rows in
         rmap (fun rows => Some (if Rlt_dec 0 (st_contract s)
                                 then x_contract ext rows (st_contract s) else rows))
              (solvate s rows)), s)
  end.

(** ** ri_profile (structureSE.py:653-709): z values and indices *)

(** slabs[0, 0] = slabs[-1, 0] = 0 (line 700), thickness column *)
Definition inner_thicknesses (rows : list slab) : list R :=
  match map s_thick rows with
  | [] => []
  | [_] => [0]
  | _ :: rest => 0 :: removelast rest ++ [0]
  end.

Definition Rsum (l : list R) : R := fold_right Rplus 0 l.

(** np.sum(slabs[:align + 1, 0]) or np.sum(slabs[:align, 0]) (lines 701-704); a negative
    upper end counts from the end *)
Definition profile_offset (rows : list slab) (align : Z) : R :=
  let t := inner_thicknesses rows in
  if (0 <=? align)%Z then Rsum (firstn (Z.to_nat (align + 1)) t)
  else Rsum (firstn (Z.to_nat (Z.of_nat (List.length t) + align)) t).

Definition ri_profile (ext : externals) (s : structure) (z : option (list R)) (align : Z)
  : result (list R * list (option C)) :=
  match fst (structure_slabs ext s None) with
  | Raise e => Raise e
  | Ok None => Raise ValueError
  | Ok (Some rows) =>
      if (List.length rows <? 2)%nat then Raise ValueError
      else
        let '(zed, ri) := x_profile ext rows z in
        if (align =? 0)%Z then Ok (zed, ri)
        else if ((Z.of_nat (List.length rows) - 1 <=? align) || (align <? - Z.of_nat (List.length rows)))%Z
        then Raise RuntimeError
        else Ok (map (fun x => x - profile_offset rows align) zed, ri)
  end.
