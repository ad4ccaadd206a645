(** * Model of a fitting session: parameters, scatterers, structures, models (M_session), datasets
    (M_life) and objectives, all of them shared and edited one statement at a time
    (objectiveSE.py 89-118, 162-451).

    Objectives hold references to a model and to a dataset.  Left out: covar and plots (M_views),
    [transform], [logp_extra] (nothing reads them: C07) and data that are not a DataSE. *)

Require Import Reals List Bool ZArith String.
From Verif Require Import Base M_disp M_struct M_model M_data M_objective M_session M_life.
Import ListNotations.
Open Scope list_scope.
Open Scope R_scope.

(** the attributes of an ObjectiveSE (objectiveSE.py:99-116) *)
Record obj_obj := ObjObj { oo_model : nat; oo_data : nat; oo_lnsigma : option pid; oo_use_weights : bool }.
Record world := World { wo_session : session; wo_life : life; wo_objs : list obj_obj }.
Definition start : world := World nothing empty_life [].

Inductive world_statement :=
| W_session (x : statement)
| W_data (x : op)
| W_objective (m d : nat) (lnsigma : option pid) (use_weights : bool)   (* ObjectiveSE(model, data, ...) *)
| W_model (o m : nat)                      (* o.model = m *)
| W_dataset (o d : nat)                    (* o.data = d *)
| W_lnsigma (o : nat) (p : option pid)     (* o.lnsigma = p *)
| W_weighted (o : nat) (b : bool)          (* o.weighted = b (objectiveSE.py:158-160) *)
| W_setp (o : nat) (v : option (list R))
| W_residuals (o : nat) (v : option (list R))
| W_chisqr (o : nat) (v : option (list R))
| W_logp (o : nat) (v : option (list R))
| W_logl (o : nat) (v : option (list R))
| W_logpost (o : nat) (v : option (list R)).

Definition with_session (w : world) (s : session) : world := World s (wo_life w) (wo_objs w).
Definition with_life (w : world) (l : life) : world := World (wo_session w) l (wo_objs w).
Definition with_objs (w : world) (l : list obj_obj) : world := World (wo_session w) (wo_life w) l.
Definition no_obj : obj_obj := ObjObj 0 0 None true.
Definition obj_at (w : world) (o : nat) : obj_obj := nth o (wo_objs w) no_obj.
Definition exists_model (w : world) (m : nat) : bool := Nat.ltb m (List.length (se_models (wo_session w))).
Definition exists_set (w : world) (d : nat) : bool := Nat.ltb d (List.length (lf_sets (wo_life w))).
Definition exists_obj (w : world) (o : nat) : bool := Nat.ltb o (List.length (wo_objs w)).

(** what an evaluation finds: the objects as they are now *)
Definition system_now (ext : externals) (w : world) : system :=
  let s := wo_session w in
  System (settings_of s) ext (map (struct_now s) (se_structs s))
    (map (fun m => ModelT (mo_struct m) (mo_delta_offset m)) (se_models s)) (lf_heap (wo_life w)).
Definition state_now (w : world) : state :=
  let s := wo_session w in State (numbers s) (map so_wavelength (se_structs s)) (map mo_flip (se_models s)).
Definition objective_now (w : world) (o : nat) : objective :=
  let b := obj_at w o in
  Objective (oo_model b) (set_at (wo_life w) (oo_data b)) (oo_lnsigma b) (oo_use_weights b) None.

(** what a call on objective [o] leaves: structure.wavelength *)
Definition absorb (w : world) (o : nat) (st : state) : world :=
  let a := mo_struct (model_at (wo_session w) (oo_model (obj_at w o))) in
  with_session w (edit (wo_session w) a (wavelength_to (nth a (st_wavelengths st) None))).
Definition calling {A} (w : world) (o : nat) (f : call A) : result A * world :=
  let '(r, st) := f (state_now w) in (r, absorb w o st).

(** parameters and varying_parameters (objectiveSE.py:169-181, 228-237): the lists the objects keep *)
Definition parameters_now (w : world) (o : nat) : list pid :=
  match oo_lnsigma (obj_at w o) with Some p => [p] | None => [] end ++ listed (wo_session w) (oo_model (obj_at w o)).
Definition varying_now (w : world) (o : nat) : list pid :=
  unique (filter (fun p => p_vary (settings_of (wo_session w) p)) (parameters_now w o)).

(** setp (objectiveSE.py:239-274) *)
Definition put_value (s : session) (p : pid) (x : R) : session :=
  with_params s (update (se_params s) p (fun q => (fst q, x))).
Definition put_values (s : session) (ps : list pid) (v : list R) : session :=
  fold_left (fun s px => put_value s (fst px) (snd px)) (combine ps v) s.
Definition w_setp (w : world) (o : nat) (v : option (list R)) : result unit * world :=
  match v with
  | None => (Ok tt, w)
  | Some v =>
      if Nat.eqb (List.length v) (List.length (varying_now w o)) then
        (Ok tt, with_session w (put_values (wo_session w) (varying_now w o) v))
      else if Nat.eqb (List.length v) (List.length (parameters_now w o)) then
        (Ok tt, with_session w (put_values (wo_session w) (parameters_now w o) v))
      else (Raise ValueError, w)
  end.
(** self.setp(pvals), then the rest *)
Definition setting {A} (w : world) (o : nat) (v : option (list R)) (f : world -> result A * world) : result A * world :=
  match w_setp w o v with (Ok _, w') => f w' | (Raise e, w') => (Raise e, w') end.

(** residuals, chisqr, logl (objectiveSE.py:183-226, 353-419) *)
Definition w_residuals (ext : externals) (w : world) (o : nat) (v : option (list R)) : result (list num) * world :=
  setting w o v (fun w => calling w o (residuals (system_now ext w) (objective_now w o) None)).
Definition w_chisqr (ext : externals) (w : world) (o : nat) (v : option (list R)) : result num * world :=
  setting w o v (fun w => calling w o (chisqr (system_now ext w) (objective_now w o) None)).
Definition w_logl (ext : externals) (w : world) (o : nat) (v : option (list R)) : result R * world :=
  setting w o v (fun w => calling w o (logl (system_now ext w) (objective_now w o) None)).
(** logp (objectiveSE.py:313-351) *)
Definition w_logp (w : world) (o : nat) (v : option (list R)) : result (option R) * world :=
  setting w o v (fun w =>
    (Ok (nsum (map (fun p => bounds_logp (p_bounds (settings_of (wo_session w) p)) (value_of (wo_session w) p)) (varying_now w o))), w)).
(** logpost (objectiveSE.py:421-451) *)
Definition w_logpost (ext : externals) (w : world) (o : nat) (v : option (list R)) : result (option R) * world :=
  setting w o v (fun w =>
    match w_logp w o None with
    | (Raise e, w) => (Raise e, w)
    | (Ok None, w) => (Ok None, w)
    | (Ok (Some x), w) => let '(r, w) := w_logl ext w o None in (rmap (fun y => Some (x + y)) r, w)
    end).

Definition drop {A} (r : result A * world) : result unit * world := (rmap (fun _ => tt) (fst r), snd r).
(** a statement on objective [o], which must exist *)
Definition on_obj (w : world) (o : nat) (r : result unit * world) : result unit * world :=
  if exists_obj w o then r else (Raise OtherError, w).

Definition perform (ext : externals) (pf : string -> option num) (w : world) (x : world_statement) : result unit * world :=
  match x with
  | W_session x => let '(r, s) := execute ext (wo_session w) x in (r, with_session w s)
  | W_data x => let '(r, l) := act pf (wo_life w) x in (r, with_life w l)
  | W_objective m d lns uw =>                     (* objectiveSE.py:89-118; model._flip_delta is set last *)
      if exists_model w m && exists_set w d then
        (Ok tt, with_session (with_objs w (wo_objs w ++ [ObjObj m d lns uw]))
                  (snd (execute ext (wo_session w) (Set_flip m (ds_flipped (set_at (wo_life w) d))))))
      else (Raise OtherError, w)
  | W_model o m =>
      on_obj w o (if exists_model w m
                  then (Ok tt, with_objs w (update (wo_objs w) o (fun b => ObjObj m (oo_data b) (oo_lnsigma b) (oo_use_weights b))))
                  else (Raise OtherError, w))
  | W_dataset o d =>
      on_obj w o (if exists_set w d
                  then (Ok tt, with_objs w (update (wo_objs w) o (fun b => ObjObj (oo_model b) d (oo_lnsigma b) (oo_use_weights b))))
                  else (Raise OtherError, w))
  | W_lnsigma o p => on_obj w o (Ok tt, with_objs w (update (wo_objs w) o (fun b => ObjObj (oo_model b) (oo_data b) p (oo_use_weights b))))
  | W_weighted o u => on_obj w o (Ok tt, with_objs w (update (wo_objs w) o (fun b => ObjObj (oo_model b) (oo_data b) (oo_lnsigma b) u)))
  | W_setp o v => on_obj w o (w_setp w o v)
  | W_residuals o v => on_obj w o (drop (w_residuals ext w o v))
  | W_chisqr o v => on_obj w o (drop (w_chisqr ext w o v))
  | W_logp o v => on_obj w o (drop (w_logp w o v))
  | W_logl o v => on_obj w o (drop (w_logl ext w o v))
  | W_logpost o v => on_obj w o (drop (w_logpost ext w o v))
  end.

(** statements one after the other; an exception is caught *)
Definition session_of (ext : externals) (pf : string -> option num) (w : world) (l : list world_statement) : world :=
  fold_left (fun w x => snd (perform ext pf w x)) l w.
