(** * Model of the plotting functions: ObjectiveSE.plot (objectiveSE.py:550-625),
    plot_ellipsdata (tools/plottools.py:7-143), StructureSE.plot (structureSE.py:711-770), and
    of ReflectModelSE.model called with parameter values (reflect_modelSE.py:374-375).

    matplotlib is external: a plot is the list of things handed to it.  Columns with nan in
    the wavelengths or angles, and 2-d columns, are outside the model (OtherError). *)

Require Import Reals List Bool ZArith String.
From Coquelicot Require Import Complex.
From Verif Require Import Base M_disp M_struct M_model M_data M_objective.
Import ListNotations.
Open Scope list_scope.
Open Scope R_scope.

(** np.linspace(a, b): 50 points *)
Definition linspace50 (a b : R) : list R := map (fun i => a + INR i * ((b - a) / 49)) (seq 0 50).

(** np.min, np.max: ValueError for an empty array *)
Definition np_min (l : list R) : result R :=
  match l with [] => Raise ValueError | x :: l' => Ok (fold_left Rmin l' x) end.
Definition np_max (l : list R) : result R :=
  match l with [] => Raise ValueError | x :: l' => Ok (fold_left Rmax l' x) end.
Definition grid (l : list R) (margin : R) : result (list R) :=
  rbind (np_min l) (fun a => rmap (fun b => linspace50 (a - margin) (b + margin)) (np_max l)).

Definition real_column (a : ndarray) : result (list R) :=
  match a with
  | A1 l => match all_some l with Some r => Ok r | None => Raise OtherError end
  | A2 _ => Raise OtherError
  end.
Definition wavelengths_of (sy : system) (d : dataset) : result (list R) :=
  rbind (get_wavelength (sy_heap sy) d) real_column.
Definition angles_of (sy : system) (d : dataset) : result (list R) :=
  rbind (get_aoi (sy_heap sy) d) real_column.

(** lines (abscissa, psi, delta) and the data as points *)
Record curve := Curve { cv_x : list R; cv_psi : list num; cv_delta : list num }.
Record figure := Figure { fg_curves : list curve; fg_x : list R; fg_psi : list num; fg_delta : list num }.

(** ax.scatter(x, y): ValueError for different sizes *)
Definition scatter (x : list R) (y : list num) : result unit :=
  if Nat.eqb (List.length x) (List.length y) then Ok tt else Raise ValueError.
Definition draw_data (sy : system) (d : dataset) (x : list R) (cs : list curve) : result figure :=
  rbind (rbind (get_psi (sy_heap sy) d) column) (fun psi =>
  rbind (scatter x psi) (fun _ =>
  rbind (rbind (get_delta (sy_heap sy) d) column) (fun delta =>
  rmap (fun _ => Figure cs x psi delta) (scatter x delta)))).

(** for v in unique values: model(...) on the grid *)
Fixpoint draw_curves (sy : system) (m : nat) (xs : list R) (point : R -> R -> R * R) (vs : list R)
  : call (list curve) :=
  match vs with
  | [] => ret []
  | v :: vs' =>
      bind (call_model sy m (map (point v) xs)) (fun '(psi, delta) =>
      bind (draw_curves sy m xs point vs') (fun cs => ret (Curve xs psi delta :: cs)))
  end.
Definition at_wavelength (wav aoi : R) : R * R := (wav, aoi).
Definition at_angle (aoi wav : R) : R * R := (wav, aoi).

(** ** ObjectiveSE.plot.  An unknown xaxis ends in an UnboundLocalError (OtherError) *)
Definition plot_objective (sy : system) (o : objective) (xaxis : option string) : call figure :=
  bind (lift (wavelengths_of sy (ob_data o))) (fun ws =>
  bind (lift (angles_of sy (ob_data o))) (fun aois =>
  let axis := match xaxis with
              | Some a => a
              | None => if (1 <? List.length (np_unique aois))%nat then "aoi"%string else "wavelength"%string
              end in
  if String.eqb axis "aoi" then
    bind (lift (grid aois 0)) (fun xs =>
    bind (draw_curves sy (ob_model o) xs at_wavelength (np_unique ws)) (fun cs =>
    lift (draw_data sy (ob_data o) aois cs)))
  else if String.eqb axis "wavelength" then
    bind (lift (grid ws 0)) (fun xs =>
    bind (draw_curves sy (ob_model o) xs at_angle (np_unique aois)) (fun cs =>
    lift (draw_data sy (ob_data o) ws cs)))
  else raise OtherError)).

(** ** plot_ellipsdata.  The residual panel: abscissa, psi and delta residuals, and chi^2
    before it is rounded to three decimals *)
Record panel := Panel { pn_x : list R; pn_psi : list num; pn_delta : list num; pn_chisqr : num }.

(** lines 53-67: which data and model *)
Definition choose (data : option dataset) (m : option nat) (ob : option objective)
  : result (dataset * option nat) :=
  match ob with
  | Some o => match data, m with
              | None, None => Ok (ob_data o, Some (ob_model o))
              | _, _ => Raise AssertionError
              end
  | None => match data with
            | Some d => Ok (d, m)
            | None => Raise AssertionError
            end
  end.

(** lines 118-135 *)
Definition residual_panel (sy : system) (ob : option objective) (x : list R) : call panel :=
  match ob with
  | None => raise AssertionError
  | Some o =>
      bind (residuals sy o None) (fun res =>
      let numdp := Nat.div (List.length res) 2 in
      bind (lift (scatter x (firstn numdp res))) (fun _ =>
      bind (lift (scatter x (skipn numdp res))) (fun _ =>
      bind (chisqr sy o None) (fun c => ret (Panel x (firstn numdp res) (skipn numdp res) c)))))
  end.

Definition plot_ellipsdata (sy : system) (data : option dataset) (m : option nat) (ob : option objective)
    (xaxis : string) (resax : bool) : call (figure * option panel) :=
  bind (lift (choose data m ob)) (fun '(d, m) =>
  bind (if String.eqb xaxis "aoi" then
          bind (lift (wavelengths_of sy d)) (fun ws =>
          bind (lift (angles_of sy d)) (fun aois =>
          bind (lift (grid aois 5)) (fun xs =>
          bind (match m with
                | Some m => draw_curves sy m xs at_wavelength (np_unique ws)
                | None => ret []
                end) (fun cs => ret (aois, cs)))))
        else if String.eqb xaxis "wavelength" then
          bind (lift (wavelengths_of sy d)) (fun ws =>
          bind (lift (grid ws 50)) (fun xs =>
          bind (match m with
                | Some m =>
                    bind (lift (angles_of sy d)) (fun aois =>
                    match aois with
                    | [] => raise IndexError
                    | aoi :: _ => draw_curves sy m xs at_angle [aoi]     (* data.aoi[0] *)
                    end)
                | None => ret []
                end) (fun cs => ret (ws, cs))))
        else raise AssertionError) (fun '(x, cs) =>
  bind (lift (draw_data sy d x cs)) (fun fig =>
  if resax then bind (residual_panel sy ob x) (fun p => ret (fig, Some p))
  else ret (fig, None)))).

(** ** Parameters.pvals = v (refnx, contract): as ObjectiveSE.setp, for the parameters [ps] *)
Definition varying_of (sy : system) (ps : list pid) : list pid :=
  unique (filter (fun p => p_vary (sy_params sy p)) ps).
Definition set_pvals (sy : system) (ps : list pid) (v : list R) : call unit := fun st =>
  if Nat.eqb (List.length v) (List.length (varying_of sy ps)) then
    (Ok tt, set_store st (write_all (st_store st) (varying_of sy ps) v))
  else if Nat.eqb (List.length v) (List.length ps) then
    (Ok tt, set_store st (write_all (st_store st) ps v))
  else (Raise ValueError, st).

(** ReflectModelSE.model(wavelength_aoi, p) (reflect_modelSE.py:330-396) *)
Definition call_model_p (sy : system) (m : nat) (X : list (R * R)) (p : option (list R)) : call (list num * list num) :=
  bind (match p with Some v => set_pvals sy (model_params sy m) v | None => ret tt end) (fun _ =>
  call_model sy m X).

(** ** StructureSE.plot: the profiles drawn, the last one in red.  [chain] is what
    Parameters.pgen(ngen=samples) yields, or raises *)
Definition current_structure (sy : system) (st : state) (a : nat) : structure :=
  inst_structure (value sy st) (nth a (st_wavelengths st) None) (the_structure sy a).
Definition profile_now (sy : system) (a : nat) (align : Z) : call (list R * list (option C)) := fun st =>
  (ri_profile (sy_ext sy) (current_structure sy st a) None align, st).

Fixpoint draw_samples (sy : system) (a : nat) (align : Z) (ps : list pid) (chain : list (list R))
  : call (list (list R * list (option C))) :=
  match chain with
  | [] => ret []
  | pvec :: chain' =>
      bind (set_pvals sy ps pvec) (fun _ =>
      bind (profile_now sy a align) (fun c =>
      bind (draw_samples sy a align ps chain') (fun cs => ret (c :: cs))))
  end.

Definition plot_profile (sy : system) (a : nat) (pvals : option (list R)) (samples : Z)
    (chain : result (list (list R))) (align : Z) : call (list (list R * list (option C))) :=
  let ps := structure_params (the_structure sy a) in
  bind (match pvals with Some v => set_pvals sy ps v | None => ret tt end) (fun _ =>
  bind (if (0 <? samples)%Z then fun st =>
          let saved := map (value sy st) ps in
          bind (lift chain) (fun vs =>
          bind (draw_samples sy a align ps vs) (fun cs =>
          bind (set_pvals sy ps saved) (fun _ => ret cs))) st
        else ret []) (fun cs =>
  bind (profile_now sy a align) (fun c => ret (cs ++ [c])))).
