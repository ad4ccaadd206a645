(** * Model of fitting sessions with every call that looks at the objects: model(x, p), the plots and covar
    (reflect_modelSE.py 330-396, objectiveSE.py 453-525 and 550-625, structureSE.py 711-770,
    tools/plottools.py).

    Extends M_fit.  What the plots show: M_plot, M_model.plot_structure.  approx_derivative, svd and
    pgen are arguments, as there. *)

Require Import Reals List Bool ZArith String.
From Coquelicot Require Import Complex.
From Verif Require Import Base M_disp M_struct M_model M_data M_objective M_session M_life M_fit M_plot M_covar.
Import ListNotations.
Open Scope list_scope.
Open Scope R_scope.

(** Parameters.pvals = v (refnx, contract: see M_plot.set_pvals), [ps]: the parameters the objects list *)
Definition varying_among (s : session) (ps : list pid) : list pid :=
  unique (filter (fun p => p_vary (settings_of s p)) ps).
Definition w_pvals (w : world) (ps : list pid) (v : list R) : result unit * world :=
  let s := wo_session w in
  if Nat.eqb (List.length v) (List.length (varying_among s ps)) then
    (Ok tt, with_session w (put_values s (varying_among s ps) v))
  else if Nat.eqb (List.length v) (List.length ps) then (Ok tt, with_session w (put_values s ps v))
  else (Raise ValueError, w).
Definition w_pvals_opt (w : world) (ps : list pid) (v : option (list R)) : result unit * world :=
  match v with Some v => w_pvals w ps v | None => (Ok tt, w) end.

(** model(X, p) (reflect_modelSE.py:330-396) *)
Definition w_model (ext : externals) (w : world) (m : nat) (X : list (R * R)) (p : option (list R))
  : result (list num * list num) * world :=
  match w_pvals_opt w (listed (wo_session w) m) p with
  | (Raise e, w) => (Raise e, w)
  | (Ok _, w) =>
      let '(r, lam) := evaluation ext (wo_session w) m X in
      (r, with_session w (edit (wo_session w) (mo_struct (model_at (wo_session w) m)) (wavelength_to lam)))
  end.

(** structure.wavelength of model [m], if any, after a call that evaluates it *)
Definition absorb_model (w : world) (m : option nat) (st : state) : world :=
  match m with
  | None => w
  | Some m =>
      let a := mo_struct (model_at (wo_session w) m) in
      with_session w (edit (wo_session w) a (wavelength_to (nth a (st_wavelengths st) None)))
  end.

(** ObjectiveSE.plot (objectiveSE.py:550-625) *)
Definition w_plot (ext : externals) (w : world) (o : nat) (xaxis : option string) : result figure * world :=
  calling w o (plot_objective (system_now ext w) (objective_now w o) xaxis).

(** plot_ellipsdata (tools/plottools.py:7-143) with dataset [d], model [m], objective [o] *)
Definition w_ellips (ext : externals) (w : world) (d m o : option nat) (xaxis : string) (resax : bool)
  : result (figure * option panel) * world :=
  let '(r, st) := plot_ellipsdata (system_now ext w) (option_map (set_at (wo_life w)) d) m
                    (option_map (objective_now w) o) xaxis resax (state_now w) in
  (r, absorb_model w (match o with Some o => Some (oo_model (obj_at w o)) | None => m end) st).

(** plot_structure (tools/plottools.py:146-217) with objective [o] or structure [a] *)
Definition show_structure (ext : externals) (w : world) (a : nat) (ws : option (list R)) (reverse : bool)
  : result (list (list R * list (option C))) * world :=
  let s := wo_session w in
  let x := struct_at s a in
  let '(r, s') := plot_structure ext (inst_structure (value_of s) (so_wavelength x) (struct_now s x)) ws reverse in
  (r, with_session w (edit s a (fun x => reverse_to (st_reverse s') (wavelength_to (st_wavelength s') x)))).
Definition w_view (ext : externals) (w : world) (o a : option nat) (reverse : bool)
  : result (list (list R * list (option C))) * world :=
  match o, a with
  | Some o, None =>
      match wavelengths_of (system_now ext w) (set_at (wo_life w) (oo_data (obj_at w o))) with
      | Raise e => (Raise e, w)
      | Ok ws => show_structure ext w (mo_struct (model_at (wo_session w) (oo_model (obj_at w o)))) (Some ws) reverse
      end
  | None, Some a => show_structure ext w a None reverse
  | _, _ => (Raise AssertionError, w)
  end.

(** StructureSE.plot (structureSE.py:711-770); [chain]: what pgen yields *)
Definition w_profile (ext : externals) (w : world) (a : nat) (align : Z) : result (list R * list (option C)) :=
  let s := wo_session w in
  ri_profile ext (inst_structure (value_of s) (so_wavelength (struct_at s a)) (struct_now s (struct_at s a))) None align.
Fixpoint w_samples (ext : externals) (w : world) (a : nat) (align : Z) (ps : list pid) (chain : list (list R))
  : result (list (list R * list (option C))) * world :=
  match chain with
  | [] => (Ok [], w)
  | v :: chain' =>
      match w_pvals w ps v with
      | (Raise e, w) => (Raise e, w)
      | (Ok _, w) =>
          match w_profile ext w a align with
          | Raise e => (Raise e, w)
          | Ok c => let '(r, w) := w_samples ext w a align ps chain' in (rmap (cons c) r, w)
          end
      end
  end.
Definition w_draw (ext : externals) (w : world) (a : nat) (pvals : option (list R)) (samples : Z)
    (chain : result (list (list R))) (align : Z) : result (list (list R * list (option C))) * world :=
  let ps := listed_struct (wo_session w) (struct_at (wo_session w) a) in
  match w_pvals_opt w ps pvals with
  | (Raise e, w) => (Raise e, w)
  | (Ok _, w) =>
      let last w cs := (rmap (fun c => cs ++ [c]) (w_profile ext w a align), w) in
      if (0 <? samples)%Z then
        let saved := map (value_of (wo_session w)) ps in
        match chain with
        | Raise e => (Raise e, w)
        | Ok vs =>
            match w_samples ext w a align ps vs with
            | (Raise e, w) => (Raise e, w)
            | (Ok cs, w) =>
                match w_pvals w ps saved with
                | (Raise e, w) => (Raise e, w)
                | (Ok _, w) => last w cs
                end
            end
        end
      else last w []
  end.

(** covar (objectiveSE.py:453-525), as M_objective.covar *)
Fixpoint w_diff (f : world -> list R -> result (list num) * world) (d : differentiator) (w : world)
  : result (list (list R)) * world :=
  match d with
  | Probe v k => let '(r, w) := f w v in w_diff f (k r) w
  | Return jac => (Ok jac, w)
  | Throw e => (Raise e, w)
  end.
Definition w_jacobian (ext : externals) (w : world) (o : nat) (pvals : list R) (approx1 approx2 : list R -> differentiator)
  : result (list (list R)) * bool * world :=
  let scaled w vals := w_residuals ext w o (Some (map2 Rmult pvals vals)) in
  let plain w vals := w_residuals ext w o (Some vals) in
  match (if existsb (fun x => if Req_EM_T x 0 then true else false) pvals
         then (Raise FloatingPointError, w)
         else w_diff scaled (approx1 (map (fun _ => 1) pvals)) w) with
  | (Raise FloatingPointError, w) => let '(r, w) := w_diff plain (approx2 pvals) w in (r, false, w)
  | (r, w) => (r, true, w)
  end.
Definition w_covar (ext : externals) (w : world) (o : nat) (approx1 approx2 : list R -> differentiator) (svd : svd_fun)
  : result (list (list R)) * world :=
  let pvals := map (value_of (wo_session w)) (varying_now w o) in
  let '(jac, used, w1) := w_jacobian ext w o pvals approx1 approx2 in
  match w_setp w1 o (Some pvals) with
  | (Raise e, w2) => (Raise e, w2)
  | (Ok _, w2) =>
      match rbind jac (fun j => rmap (fun cov => (j, cov)) (algebra svd j used pvals)) with
      | Raise e => (Raise e, w2)
      | Ok (j, cov) =>
          if weighted (objective_now w2 o) then (Ok cov, w2)
          else
            match w_chisqr ext w2 o None with
            | (Raise e, w3) => (Raise e, w3)
            | (Ok c2, w3) =>
                match obind c2 (fun c2 => odiv c2 (INR (List.length j) - INR (List.length pvals))) with
                | Some scale => (Ok (map (map (Rmult scale)) cov), w3)
                | None => (Raise OtherError, w3)
                end
            end
      end
  end.

Inductive full_statement :=
| V_do (x : world_statement)
| V_model (m : nat) (X : list (R * R)) (p : option (list R))
| V_plot (o : nat) (xaxis : option string)
| V_ellips (d m o : option nat) (xaxis : string) (resax : bool)
| V_structure (o a : option nat) (reverse : bool)
| V_profile (a : nat) (pvals : option (list R)) (samples : Z) (chain : result (list (list R))) (align : Z)
| V_covar (o : nat) (approx1 approx2 : list R -> differentiator) (svd : svd_fun).

(** objects that do not exist cannot be named: OtherError *)
Definition exists_all (w : world) (x : full_statement) : bool :=
  let opt f (a : option nat) := match a with Some a => f a | None => true end in
  match x with
  | V_do _ => true
  | V_model m _ _ => exists_model w m
  | V_plot o _ => exists_obj w o
  | V_ellips d m o _ _ => opt (exists_set w) d && opt (exists_model w) m && opt (exists_obj w) o
  | V_structure o a _ => opt (exists_obj w) o && opt (exists_struct (wo_session w)) a
  | V_profile a _ _ _ _ => exists_struct (wo_session w) a
  | V_covar o _ _ _ => exists_obj w o
  end.
Definition perform_all (ext : externals) (pf : string -> option num) (w : world) (x : full_statement) : result unit * world :=
  if exists_all w x then
    match x with
    | V_do x => perform ext pf w x
    | V_model m X p => drop (w_model ext w m X p)
    | V_plot o xaxis => drop (w_plot ext w o xaxis)
    | V_ellips d m o xaxis resax => drop (w_ellips ext w d m o xaxis resax)
    | V_structure o a reverse => drop (w_view ext w o a reverse)
    | V_profile a pvals samples chain align => drop (w_draw ext w a pvals samples chain align)
    | V_covar o a1 a2 svd => drop (w_covar ext w o a1 a2 svd)
    end
  else (Raise OtherError, w).
Definition full_session (ext : externals) (pf : string -> option num) (w : world) (l : list full_statement) : world :=
  fold_left (fun w x => snd (perform_all ext pf w x)) l w.
