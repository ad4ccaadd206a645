(** * Model of a session: objects that are built, edited and evaluated one statement at a time.

    Scatterers, components, structures and models are objects with an address; attributes hold
    addresses.  Scatterers and components list their parameters once, in the constructor
    ([_parameters]: dispersion.py:190-191, 269-270, 377-381, 446-447, 543; structureSE.py:247-252,
    344-350); the list is kept when an attribute is replaced later.  Structures and models list
    theirs anew at every access (refnx Structure.parameters; reflect_modelSE.py:421-442).

    A number given where a Parameter is expected becomes a new Parameter
    (possibly_create_parameter): here [New_param] comes first.  Addresses of objects that do not
    exist cannot be written in Python: OtherError. *)

Require Import Reals List Bool ZArith String.
From Coquelicot Require Import Complex.
From Verif Require Import Base M_disp M_struct M_model M_data M_objective.
Import ListNotations.
Open Scope list_scope.
Open Scope R_scope.

(** a scatterer: its attributes, and [_parameters] (RI has none: dispersion.py:99-101) *)
Record scat_obj := ScatObj { so_material : material_t; so_listed : list pid }.

(** attributes of SlabSE and MixedSlabSE; a user component with its own parameters *)
Inductive comp_attrs :=
| A_Slab (thick : pid) (ri : nat) (rough vfsolv : pid)
| A_Mixed (thick : pid) (ri_A ri_B : nat) (vf_B rough : pid)
| A_Custom (ps : list pid) (f : list R -> settings -> result (option (list slab))).
Record comp_obj := CompObj { co_attrs : comp_attrs; co_default_interface : bool; co_listed : list pid }.

Record struct_obj := StructObj {
  so_data : list nat; so_name : string; so_solvent : option nat; so_reverse : bool; so_contract : R;
  so_wavelength : option R; so_ema : string; so_dep : R }.

(** reflect_modelSE.py:307-328 *)
Record model_obj := ModelObj { mo_struct : nat; mo_delta_offset : pid; mo_flip : bool }.

Record session := Session {
  se_params : list (param * R);     (* refnx Parameters: settings and number *)
  se_scats : list scat_obj;
  se_comps : list comp_obj;
  se_structs : list struct_obj;
  se_models : list model_obj }.

Definition nothing : session := Session [] [] [] [] [].

(** an object handed to a structure or a model *)
Inductive object := O_comp (a : nat) | O_scat (a : nat) | O_struct (a : nat) | O_other.

Inductive statement :=
| New_param (q : param) (x : R)
| New_scat (m : material_t)
| New_comp (a : comp_attrs) (default_interface : bool)
| New_struct (data : list object) (name : string) (solvent : option object) (reverse : bool)
    (contract : R) (wavelength : option R) (ema : string) (dep : R)
| New_model (s : object) (delta_offset : pid)
(* parameters *)
| Set_value (p : pid) (x : R)
| Set_param (p : pid) (q : param)           (* vary, bounds, constraint *)
(* structures *)
| Append (a : nat) (o : object)
| Ior (a : nat) (o : object)
| Set_data (a : nat) (l : list nat)         (* insert, pop, del, s[i] = c, ...: list operations on components *)
| Set_solvent (a : nat) (o : option object)
| Set_reverse (a : nat) (b : bool)
| Set_contract (a : nat) (x : R)
| Set_ema (a : nat) (e : string)
| Set_dep (a : nat) (v : pyval)
(* models *)
| Set_structure (m : nat) (o : object)
| Set_offset (m : nat) (p : pid)
| Set_flip (m : nat) (b : bool)             (* a new objective (objectiveSE.py:118) *)
| Evaluate (m : nat) (X : list (R * R))
(* attributes of components and scatterers are replaced *)
| Set_comp_attrs (c : nat) (a : comp_attrs)
| Set_scat_attrs (s : nat) (m : material_t).

Definition with_params w x := Session x (se_scats w) (se_comps w) (se_structs w) (se_models w).
Definition with_scats w x := Session (se_params w) x (se_comps w) (se_structs w) (se_models w).
Definition with_comps w x := Session (se_params w) (se_scats w) x (se_structs w) (se_models w).
Definition with_structs w x := Session (se_params w) (se_scats w) (se_comps w) x (se_models w).
Definition with_models w x := Session (se_params w) (se_scats w) (se_comps w) (se_structs w) x.

(** ** reading *)
Definition settings_of (w : session) (p : pid) : param := fst (nth p (se_params w) (Param false None (Interval 0 0), 0)).
Definition numbers (w : session) (p : pid) : R := snd (nth p (se_params w) (Param false None (Interval 0 0), 0)).
(** Parameter.value *)
Definition value_of (w : session) : pid -> R := read (settings_of w) (numbers w).

Definition no_material : material_t := MaterialT (ScattererT T_Abstract 0 EmptyString) true.
Definition no_comp : comp_obj := CompObj (A_Custom [] (fun _ _ => Ok None)) true [].
Definition no_struct : struct_obj := StructObj [] EmptyString None false 0 None "linear" (1 / 3).
Definition no_model : model_obj := ModelObj 0%nat 0%nat false.
Definition scat_at (w : session) (a : nat) : scat_obj := nth a (se_scats w) (ScatObj no_material []).
Definition comp_at (w : session) (a : nat) : comp_obj := nth a (se_comps w) no_comp.
Definition struct_at (w : session) (a : nat) : struct_obj := nth a (se_structs w) no_struct.
Definition model_at (w : session) (a : nat) : model_obj := nth a (se_models w) no_model.

(** refnx Structure.parameters, flattened; ReflectModelSE.parameters (reflect_modelSE.py:421-442) *)
Definition listed_struct (w : session) (s : struct_obj) : list pid :=
  flat_map (fun c => co_listed (comp_at w c)) (so_data s) ++
  match so_solvent s with Some a => so_listed (scat_at w a) | None => [] end.
Definition listed (w : session) (m : nat) : list pid :=
  mo_delta_offset (model_at w m) :: listed_struct w (struct_at w (mo_struct (model_at w m))).

(** what a component or a structure is when it is evaluated: attributes followed *)
Definition comp_now (w : session) (c : comp_obj) : component_t :=
  ComponentT
    match co_attrs c with
    | A_Slab t s r v => SlabT t (so_material (scat_at w s)) r v
    | A_Mixed t a b v r => MixedSlabT t (so_material (scat_at w a)) (so_material (scat_at w b)) v r
    | A_Custom ps f => CustomT ps f
    end (co_default_interface c).
Definition struct_now (w : session) (s : struct_obj) : structure_t :=
  StructureT (map (fun c => comp_now w (comp_at w c)) (so_data s)) (so_name s)
    (match so_solvent s with Some a => Some (mt_scat (so_material (scat_at w a))) | None => None end)
    (so_reverse s) (so_contract s) (so_ema s) (so_dep s).

(** model(X) with p=None (reflect_modelSE.py:355-396) *)
Definition evaluation (ext : externals) (w : session) (m : nat) (X : list (R * R))
  : result (list num * list num) * option R :=
  let o := model_at w m in
  let s := struct_at w (mo_struct o) in
  let '(r, s') := model ext DFloat (inst_structure (value_of w) (so_wavelength s) (struct_now w s))
                        (value_of w (mo_delta_offset o)) (mo_flip o) X in
  (r, st_wavelength s').

(** ** writing *)
Definition exists_scat w a := Nat.ltb a (List.length (se_scats w)).
Definition exists_comp w a := Nat.ltb a (List.length (se_comps w)).
Definition exists_struct w a := Nat.ltb a (List.length (se_structs w)).
Definition exists_object w o :=
  match o with
  | O_comp a => exists_comp w a | O_scat a => exists_scat w a | O_struct a => exists_struct w a | O_other => true
  end.
Definition attrs_exist w (a : comp_attrs) : bool :=
  match a with
  | A_Slab _ s _ _ => exists_scat w s
  | A_Mixed _ a b _ _ => exists_scat w a && exists_scat w b
  | A_Custom _ _ => true
  end.

(** the constructors (structureSE.py:247-252, 344-350): the scatterer's own list is copied *)
Definition list_attrs (w : session) (a : comp_attrs) : list pid :=
  match a with
  | A_Slab t s r v => [t] ++ so_listed (scat_at w s) ++ [r; v]
  | A_Mixed t a b v r => [t] ++ so_listed (scat_at w a) ++ so_listed (scat_at w b) ++ [v; r]
  | A_Custom ps _ => ps
  end.
Definition new_comp (a : comp_attrs) (d : bool) (w : session) : session :=
  with_comps w (se_comps w ++ [CompObj a d (list_attrs w a)]).

(** ScattererSE.__call__() (structureSE.py:118-141): SlabSE(0, self, 0, vfsolv=0), three new
    Parameters (vfsolv with bounds 0, 1; refnx: not varying, without bounds by default) *)
Definition fresh (b : bounds) : param * R := (Param false None b, 0).
Definition unbounded : bounds := OtherBounds (fun _ => Some 0) (fun x => x).
Definition slab_of (s : nat) (w : session) : session :=
  let n := List.length (se_params w) in
  new_comp (A_Slab n s (n + 1)%nat (n + 2)%nat) true
    (with_params w (se_params w ++ [fresh unbounded; fresh unbounded; fresh (Interval 0 1)])).

Definition edit (w : session) (a : nat) (f : struct_obj -> struct_obj) : session :=
  with_structs w (update (se_structs w) a f).
Definition data_map f s := StructObj (f (so_data s)) (so_name s) (so_solvent s) (so_reverse s) (so_contract s) (so_wavelength s) (so_ema s) (so_dep s).
Definition solvent_to x s := StructObj (so_data s) (so_name s) x (so_reverse s) (so_contract s) (so_wavelength s) (so_ema s) (so_dep s).
Definition reverse_to x s := StructObj (so_data s) (so_name s) (so_solvent s) x (so_contract s) (so_wavelength s) (so_ema s) (so_dep s).
Definition contract_to x s := StructObj (so_data s) (so_name s) (so_solvent s) (so_reverse s) x (so_wavelength s) (so_ema s) (so_dep s).
Definition wavelength_to x s := StructObj (so_data s) (so_name s) (so_solvent s) (so_reverse s) (so_contract s) x (so_ema s) (so_dep s).
Definition ema_to x s := StructObj (so_data s) (so_name s) (so_solvent s) (so_reverse s) (so_contract s) (so_wavelength s) x (so_dep s).
Definition dep_to x s := StructObj (so_data s) (so_name s) (so_solvent s) (so_reverse s) (so_contract s) (so_wavelength s) (so_ema s) x.

(** the components among the objects (structureSE.py:467) *)
Definition comps_among (l : list object) : list nat := flat_map (fun o => match o with O_comp c => [c] | _ => [] end) l.
(** the solvent setter (structureSE.py:486-494) *)
Definition solvent_arg (o : option object) : result (option nat) :=
  match o with None => Ok None | Some (O_scat a) => Ok (Some a) | Some _ => Raise ValueError end.

(** append (structureSE.py:510-527) *)
Definition append_to (w : session) (a : nat) (o : object) : result unit * session :=
  match o with
  | O_scat s => let c := List.length (se_comps w) in
                (Ok tt, edit (slab_of s w) a (data_map (fun l => l ++ [c])))
  | O_comp c => (Ok tt, edit w a (data_map (fun l => l ++ [c])))
  | _ => (Raise ValueError, w)
  end.

Definition execute (ext : externals) (w : session) (x : statement) : result unit * session :=
  match x with
  | New_param q v => (Ok tt, with_params w (se_params w ++ [(q, v)]))
  | New_scat m => (Ok tt, with_scats w (se_scats w ++ [ScatObj m (scat_params (mt_scat m))]))
  | New_comp a d => if attrs_exist w a then (Ok tt, new_comp a d w) else (Raise OtherError, w)
  | New_struct data name solvent reverse contract wavelength ema dep =>
      if forallb (exists_object w) data && match solvent with Some o => exists_object w o | None => true end then
        match solvent_arg solvent with
        | Raise e => (Raise e, w)
        | Ok sv => (Ok tt, with_structs w (se_structs w ++
                      [StructObj (comps_among data) name sv reverse contract wavelength ema dep]))
        end
      else (Raise OtherError, w)
  | New_model o p =>                                  (* reflect_modelSE.py:307-328 *)
      if exists_object w o then
        match o with
        | O_struct a => (Ok tt, with_models w (se_models w ++ [ModelObj a p false]))
        | _ => (Raise ValueError, w)
        end
      else (Raise OtherError, w)
  | Set_value p v => (Ok tt, with_params w (update (se_params w) p (fun q => (fst q, v))))
  | Set_param p q => (Ok tt, with_params w (update (se_params w) p (fun q' => (q, snd q'))))
  | Append a o => if exists_object w o then append_to w a o else (Raise OtherError, w)
  | Ior a o =>                                        (* structureSE.py:772-792 *)
      if exists_object w o then
        match o with
        | O_struct b => (Ok tt, edit w a (data_map (fun l => l ++ so_data (struct_at w b))))
        | _ => append_to w a o
        end
      else (Raise OtherError, w)
  | Set_data a l => if forallb (exists_comp w) l then (Ok tt, edit w a (data_map (fun _ => l))) else (Raise OtherError, w)
  | Set_solvent a o =>
      if match o with Some o => exists_object w o | None => true end then
        match solvent_arg o with
        | Raise e => (Raise e, w)
        | Ok sv => (Ok tt, edit w a (solvent_to sv))
        end
      else (Raise OtherError, w)
  | Set_reverse a b => (Ok tt, edit w a (reverse_to b))
  | Set_contract a v => (Ok tt, edit w a (contract_to v))
  | Set_ema a e => (Ok tt, edit w a (ema_to e))
  | Set_dep a v =>                                    (* structureSE.py:501-508 *)
      match v with
      | VNum y => if Rle_dec 0 y then if Rle_dec y 1 then (Ok tt, edit w a (dep_to y))
                  else (Raise ValueError, w) else (Raise ValueError, w)
      | VNan => (Raise ValueError, w)
      | VBad e => (Raise e, w)
      end
  | Set_structure m o =>                              (* reflect_modelSE.py:421-433 *)
      if exists_object w o then
        match o with
        | O_struct a => (Ok tt, with_models w (update (se_models w) m (fun x => ModelObj a (mo_delta_offset x) (mo_flip x))))
        | _ => (Raise ValueError, w)
        end
      else (Raise OtherError, w)
  | Set_offset m p => (Ok tt, with_models w (update (se_models w) m (fun x => ModelObj (mo_struct x) p (mo_flip x))))
  | Set_flip m b => (Ok tt, with_models w (update (se_models w) m (fun x => ModelObj (mo_struct x) (mo_delta_offset x) b)))
  | Evaluate m X =>
      let '(r, lam) := evaluation ext w m X in
      (rmap (fun _ => tt) r, edit w (mo_struct (model_at w m)) (wavelength_to lam))
  | Set_comp_attrs c a =>
      if attrs_exist w a then (Ok tt, with_comps w (update (se_comps w) c (fun x => CompObj a (co_default_interface x) (co_listed x))))
      else (Raise OtherError, w)
  | Set_scat_attrs s m => (Ok tt, with_scats w (update (se_scats w) s (fun x => ScatObj m (so_listed x))))
  end.

(** statements one after the other; an exception is caught and the session goes on *)
Definition run (ext : externals) (w : session) (l : list statement) : session :=
  fold_left (fun w x => snd (execute ext w x)) l w.
