(** * Theorems about the plots: C89-C92 *)

Require Import Reals List Bool ZArith String Sorted.
From Coquelicot Require Import Complex.
From Verif Require Import Base M_disp M_struct M_model M_data Spec_data M_objective Spec_objective M_plot Spec_plot
  P_plot P_plot2 P_plot3 P_objective3 P_plot4.
Import ListNotations.
Open Scope list_scope.
Open Scope R_scope.

(** ** C89: ObjectiveSE.plot shows the data and the model *)
Theorem C89_shows : forall sy o xaxis st fig st' sel X,
  has_points sy (ob_data o) sel X ->
  plot_objective sy o xaxis st = (Ok fig, st') ->
  exists b, axis_rule xaxis X b /\ shows_data b sel X fig /\
  (exists vs lo hi, least (map (abscissa b) X) lo /\ greatest (map (abscissa b) X) hi /\
     StronglySorted Rlt vs /\ (forall v, In v vs <-> In v (map (other b) X)) /\
     Forall2 (fun v c => evenly 50 lo hi (cv_x c) /\ shows sy st (ob_model o) b v c) vs (fg_curves fig)) /\
  st_store st' = st_store st /\ st_flips st' = st_flips st.
Proof. exact plot_shows. Qed.
Print Assumptions C89_shows.

Theorem C89_succeeds : forall sy o xaxis st sel X b,
  has_points sy (ob_data o) sel X -> X <> [] -> axis_rule xaxis X b ->
  (forall w a, (exists w1 w2, In w1 (map fst X) /\ In w2 (map fst X) /\ w1 <= w <= w2) ->
     (exists a1 a2, In a1 (map snd X) /\ In a2 (map snd X) /\ a1 <= a <= a2) ->
     exists p d, predicts sy st (ob_model o) [(w, a)] [p] [d]) ->
  exists fig st', plot_objective sy o xaxis st = (Ok fig, st').
Proof. exact plot_succeeds. Qed.
Print Assumptions C89_succeeds.

(** the curves pass through the values compared with the data at both ends *)
Theorem C89_ends : forall sy o xaxis st fig st' sel X b psi delta k x p d,
  has_points sy (ob_data o) sel X ->
  plot_objective sy o xaxis st = (Ok fig, st') -> axis_rule xaxis X b ->
  predicts sy st (ob_model o) X psi delta ->
  nth_error X k = Some x -> nth_error psi k = Some p -> nth_error delta k = Some d ->
  least (map (abscissa b) X) (abscissa b x) \/ greatest (map (abscissa b) X) (abscissa b x) ->
  exists c i, In c (fg_curves fig) /\ nth_error (cv_x c) i = Some (abscissa b x) /\
    nth_error (cv_psi c) i = Some p /\ nth_error (cv_delta c) i = Some d.
Proof. exact plot_ends. Qed.
Print Assumptions C89_ends.

Theorem C89_errors : forall sy o xaxis st sel X, has_points sy (ob_data o) sel X ->
  (X = [] -> (xaxis = None \/ xaxis = Some (axis_name true) \/ xaxis = Some (axis_name false)) ->
     plot_objective sy o xaxis st = (Raise ValueError, st)) /\
  (forall a, xaxis = Some a -> a <> axis_name true -> a <> axis_name false ->
     plot_objective sy o xaxis st = (Raise OtherError, st)).
Proof. exact plot_errors. Qed.
Print Assumptions C89_errors.

(** whether or not it succeeds, it changes no parameter and no later result *)
Theorem C89_harmless : forall sy o xaxis o' st, let st' := snd (plot_objective sy o xaxis st) in
  (forall p, value sy st' p = value sy st p) /\
  fst (residuals sy o' None st') = fst (residuals sy o' None st) /\
  fst (chisqr sy o' None st') = fst (chisqr sy o' None st) /\
  fst (logl sy o' None st') = fst (logl sy o' None st) /\
  fst (logpost sy o' None st') = fst (logpost sy o' None st).
Proof. exact plot_harmless. Qed.
Print Assumptions C89_harmless.

(** two wavelengths and two angles: a plot against the angle *)
Example C89_example : has_points sys_q (ob_data ob_q) pts_q X_q /\
  exists fig st', plot_objective sys_q ob_q None st_p = (Ok fig, st').
Proof. exact (conj points_q plot_q). Qed.

(** ** C90: plot_ellipsdata *)
Theorem C90_shows : forall sy data m ob xaxis resax st fig pan st' d m' sel X,
  given data m ob d m' -> has_points sy d sel X ->
  plot_ellipsdata sy data m ob xaxis resax st = (Ok (fig, pan), st') ->
  exists b, xaxis = axis_name b /\ shows_data b sel X fig /\ curves_spec sy st X m' b (fg_curves fig) /\
    (if resax then exists o p, ob = Some o /\ pan = Some p /\ panel_spec sy st o X b p else pan = None) /\
    st_store st' = st_store st /\ st_flips st' = st_flips st.
Proof. exact ellips_shows. Qed.
Print Assumptions C90_shows.

Theorem C90_refuses : forall sy data m ob xaxis resax st,
  ((~ exists d m', given data m ob d m') -> plot_ellipsdata sy data m ob xaxis resax st = (Raise AssertionError, st)) /\
  ((forall b, xaxis <> axis_name b) -> plot_ellipsdata sy data m ob xaxis resax st = (Raise AssertionError, st)) /\
  (ob = None -> resax = true -> forall fig st', plot_ellipsdata sy data m ob xaxis false st = (Ok (fig, None), st') ->
     plot_ellipsdata sy data m ob xaxis resax st = (Raise AssertionError, st')).
Proof. exact ellips_refuses. Qed.
Print Assumptions C90_refuses.

(** not every angle of the data gets a curve in a plot against the wavelength *)
Theorem C90_every_angle_refuted : exists sy st d m sel X fig st', has_points sy d sel X /\
  plot_ellipsdata sy (Some d) (Some m) None "wavelength" false st = (Ok (fig, None), st') /\
  exists v, In v (map snd X) /\ forall c, In c (fg_curves fig) -> ~ shows sy st m false v c.
Proof. exact ellips_one_angle. Qed.
Print Assumptions C90_every_angle_refuted.

(** ** C91: StructureSE.plot *)
Theorem C91_restores : forall sy a samples chain align st cs st',
  well_formed sy -> resolved sy ->
  plot_profile sy a None samples chain align st = (Ok cs, st') ->
  (forall p, value sy st' p = value sy st p) /\ st_wavelengths st' = st_wavelengths st /\ st_flips st' = st_flips st /\
  exists grey red vary, cs = grey ++ [red] /\ varying_list sy (structure_params (the_structure sy a)) vary /\
    ri_profile (sy_ext sy) (current_structure sy st a) None align = Ok red /\
    ((samples <= 0)%Z -> grey = []) /\
    forall vs, (0 < samples)%Z -> chain = Ok vs -> Forall (fun v => List.length v = List.length vary) vs ->
      Forall2 (fun v c => exists st1, assigned sy vary v st st1 /\
        ri_profile (sy_ext sy) (current_structure sy st1 a) None align = Ok c) vs grey.
Proof. exact profile_restores'. Qed.
Print Assumptions C91_restores.

Theorem C91_pvals : forall sy a st, well_formed sy ->
  exists vary, varying_list sy (structure_params (the_structure sy a)) vary /\
  forall v samples chain align, List.length v = List.length vary ->
  exists st1, assigned sy vary v st st1 /\
    plot_profile sy a (Some v) samples chain align st = plot_profile sy a None samples chain align st1.
Proof. exact profile_pvals'. Qed.
Print Assumptions C91_pvals.

(** if drawing a sample fails, its values stay in the parameters *)
Theorem C91_restores_after_error_refuted : exists sy a samples chain align st p,
  well_formed sy /\ resolved sy /\ (0 < samples)%Z /\
  (forall vs, chain = Ok vs -> Forall (fun v => List.length v = List.length (varying_of sy (structure_params (the_structure sy a)))) vs) /\
  fst (plot_profile sy a None samples chain align st) = Raise RuntimeError /\
  value sy (snd (plot_profile sy a None samples chain align st)) p <> value sy st p.
Proof. exact not_restored. Qed.
Print Assumptions C91_restores_after_error_refuted.

Example C91_example : well_formed sys_v /\ resolved sys_v /\
  exists cs st', plot_profile sys_v 0%nat None 2 (Ok [[5]; [7]]) 1 (st_v 3) = (Ok cs, st').
Proof. exact (conj (fun p _ => eq_refl) (conj resolved_v plot_v)). Qed.

(** ** C92: ReflectModelSE.model with parameter values *)
Theorem C92_sets : forall sy m X st, well_formed sy ->
  exists vary, varying_list sy (model_params sy m) vary /\
  forall v, List.length v = List.length vary ->
  exists st1, assigned sy vary v st st1 /\ call_model_p sy m X (Some v) st = call_model sy m X st1 /\
    forall i p x, nth_error vary i = Some p -> nth_error v i = Some x ->
      value sy (snd (call_model_p sy m X (Some v) st)) p = x.
Proof. exact model_p_sets'. Qed.
Print Assumptions C92_sets.

Theorem C92_wrong_length : forall sy m X st,
  exists vary, varying_list sy (model_params sy m) vary /\
  forall v, List.length v <> List.length vary -> List.length v <> List.length (model_params sy m) ->
  call_model_p sy m X (Some v) st = (Raise ValueError, st).
Proof. exact model_p_wrong'. Qed.
Print Assumptions C92_wrong_length.

(** offset 1 is the only varying parameter of the model *)
Example C92_example : well_formed sys_g /\ varying_list sys_g (model_params sys_g 0%nat) [1%nat] /\
  call_model_p sys_g 0%nat [(633, 0)] (Some [4; 5]) (st_g 0 0 None) = (Raise ValueError, st_g 0 0 None).
Proof. exact model_p_example. Qed.
