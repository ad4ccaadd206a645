(** * Concrete instances for the plots *)

Require Import Reals List Bool ZArith String Lra Lia Sorted.
From Coquelicot Require Import Complex.
From Verif Require Import Base Cplx M_tmm Spec_optics P_tmm P_tmm2 P_tmm3 P_tmm4 P_flux P_flux2 P_flux3 P_psidelta P_psidelta2 P_film P_examples M_disp P_disp M_struct Spec_struct M_model
  P_struct P_struct2 P_model P_model2 M_data Spec_data P_data M_objective Spec_objective P_objective P_objective2 P_objective3
  M_plot Spec_plot P_plot P_plot2 P_plot3.
Import ListNotations.
Open Scope list_scope.
Open Scope R_scope.

(** a prism measured at normal incidence and beyond the critical angle *)
Definition heap_q : heap := [[Some 633; Some 1023]; [Some 0; Some (th45 * (180 / PI))]; [Some 45; Some 40]; [Some 180; Some 200]].
Definition data_q : dataset := DataSE 0%nat 1%nat 2%nat 3%nat (MBool [true; true]) false true None tab.
Definition sys_q : system := sys_ex (25 / 16) 1 heap_q.
Definition ob_q : objective := Objective 0%nat data_q None true None.
Definition pts_q : list point := [(Some 633, Some 0, Some 45, Some 180); (Some 1023, Some (th45 * (180 / PI)), Some 40, Some 200)].
Definition X_q : list (R * R) := [(633, 0); (1023, th45 * (180 / PI))].

Lemma points_q : has_points sys_q data_q pts_q X_q.
Proof. exists pts_q, [true; true]. split; [repeat split|]. split; [reflexivity|]. split; repeat constructor. Qed.

Definition val_q (w a : R) := DP_one (RtoC (25/16)) [] 1 w 0 false a.
Lemma predicts_q h w a : predicts (sys_ex (25 / 16) 1 h) st_p 0%nat [(w, a)] [fst (val_q w a)] [snd (val_q w a)].
Proof.
  unfold predicts, call_model.
  assert (C0 : current (sys_ex (25 / 16) 1 h) st_p 0%nat = prism) by reflexivity.
  rewrite C0. change (value (sys_ex (25 / 16) 1 h) st_p (mo_offset (the_model (sys_ex (25 / 16) 1 h) 0%nat))) with 0.
  cbn [st_flips nth st_p]. change (sy_ext (sys_ex (25/16) 1 h)) with no_ext.
  assert (O : fst (one_wavelength no_ext prism 0 false w [a]) = Ok [val_q w a]).
  { unfold one_wavelength. rewrite prism_slabs. cbn [fst]. exact (DP_map [a] 0 (RtoC (25/16)) 0 [] 0 1 0 w 0 false). }
  assert (V : val no_ext prism 0 false (w, a) = val_q w a) by (unfold val; cbn [fst snd]; rewrite O; reflexivity).
  assert (F : fine no_ext prism 0 false (w, a)).
  { unfold fine. cbn [fst snd]. rewrite V. exact O. }
  pose proof (model_single _ _ _ _ _ F) as M. rewrite V in M.
  rewrite M. reflexivity.
Qed.

Lemma prism_normal : val_q 633 0 = (Some 45, Some 180).
Proof.
  assert (R0 : rad 0 = 0%R) by (unfold rad; ring).
  assert (PF : passive_film (25/16 * sin 0) 633 [] (RtoC 1)).
  { split; [constructor|split; [constructor|]]. split; simpl; lra. }
  assert (C0 : cos 0 <> 0%R) by (rewrite cos_0; lra).
  destruct (passive_defined' pS (25/16) [] (RtoC 1) PInf PInf 0 633 ltac:(lra) ltac:(lra) C0 PF) as (a & rs & ts & HC & A1).
  destruct (passive_defined' pP (25/16) [] (RtoC 1) PInf PInf 0 633 ltac:(lra) ltac:(lra) C0 PF) as (a' & rp & tp & HC' & A2).
  assert (a' = a) by congruence. subst a'. destruct a as [x y]. cbn [amp amp_s amp_p] in A1, A2. subst x y.
  destruct (normal_incidence _ _ _ _ _ _ _ _ _ _ _ _ sin_0 HC eq_refl eq_refl) as [E _].
  assert (N : rs <> 0%C).
  { intros Z.
    assert (W : forall r' t', reflection_problem pS (mkMedium (RtoC (25/16)) 1 0) [mkMedium (RtoC 1) 1 0] r' t' <-> r' = rs /\ t' = ts).
    { apply (coh_tmm_solves pS (25/16) [] (RtoC 1) PInf PInf 0 633 _ rs ts (mkMedium (RtoC (25/16)) 1 0) [] (mkMedium (RtoC 1) 1 0) HC); auto.
      - split; [reflexivity|]. rewrite sin_0.
        split; [split; cbn [idx cosine]; [intros X; apply RtoC_inj in X; lra|apply C_eq; simpl; field]|].
        split; [constructor|]. split; [reflexivity|].
        split; cbn [idx cosine]; [intros X; apply RtoC_inj in X; lra|apply C_eq; simpl; field].
      - cbn [cosine]. rewrite cos_0, Rabs_R1. reflexivity.
      - simpl. lra.
      - rewrite <- RtoC_mult, sin_0. apply no_TIR; [lra|]. rewrite Rmult_0_r, Rabs_R0. lra. }
    destruct (proj2 (W rs ts) (conj eq_refl eq_refl)) as [X1 X2].
    rewrite Z in X1, X2.
    cbn [tangential_1 tangential_2 idx cosine] in X1, X2. destruct ts as [u v].
    apply (f_equal Re) in X1. apply (f_equal Re) in X2. simpl in X1, X2. lra. }
  assert (N2 : rp <> 0%C) by (intros Z; subst rp; apply N; rewrite E; ring).
  assert (HC2 : coh_tmm (ns (RtoC (Re (RtoC (25/16)))) (nm []) (RtoC 1)) (ds PInf (nm []) PInf) [(rad 0, 633)] =
    Ok [mkAmp (Some (rs, ts)) (Some (rp, tp))]) by (rewrite R0; exact HC).
  assert (S0 : sin (rad 0) = 0) by (rewrite R0; apply sin_0).
  pose proof (table_normal 0 0 0 0 (RtoC (25/16)) (RtoC 1) [] 0 633 0 false rs ts rp tp S0 HC2 N2) as T.
  rewrite (DP_map [0] 0 (RtoC (25/16)) 0 [] 0 1 0 633 0 false : fst (Delta_Psi_TMM [0] _ 633 0 false) = _) in T.
  cbn [map] in T. injection T as T. unfold val_q. rewrite T. f_equal. f_equal. lra.
Qed.

(** ObjectiveSE.plot draws it against the angle *)
Lemma plot_q : exists fig st', plot_objective sys_q ob_q None st_p = (Ok fig, st').
Proof.
  apply (plot_succeeds sys_q ob_q None st_p pts_q X_q true points_q); [discriminate| |].
  - cbn [axis_rule]. split; auto. intros _. exists (633, 0), (1023, th45 * (180 / PI)). split; [left; auto|]. split; [right; left; auto|].
    cbn [snd]. intros E. destruct prism_delta as (psi & delta & B & E1 & _). rewrite <- E in E1.
    pose proof prism_normal as P. unfold val_q in P. rewrite P in E1. injection E1 as _ E1. lra.
  - intros w a _ _. do 2 eexists. apply predicts_q.
Qed.

(** plot_ellipsdata against the wavelength leaves the second angle out *)
Lemma ellips_one_angle : exists sy st d m sel X fig st', has_points sy d sel X /\
  plot_ellipsdata sy (Some d) (Some m) None "wavelength" false st = (Ok (fig, None), st') /\
  exists v, In v (map snd X) /\ forall c, In c (fg_curves fig) -> ~ shows sy st m false v c.
Proof.
  assert (exists r st', plot_ellipsdata sys_q (Some data_q) (Some 0%nat) None "wavelength" false st_p = (Ok r, st')) as (r & st' & E).
  { destruct (read_points _ _ _ _ points_q) as (W & A & D).
    unfold plot_ellipsdata, bind at 1, lift at 1. cbn [choose]. unfold bind at 1. cbn [String.eqb Ascii.eqb Bool.eqb].
    unfold bind at 1, lift at 1. rewrite W. unfold bind at 1, lift at 1.
    destruct (grid_total (map fst X_q) 50) as [xs G]; [discriminate|]. rewrite G.
    unfold bind at 1. unfold bind at 1, lift at 1. rewrite A. cbn [X_q map snd].
    destruct (draw_curves_total sys_q 0%nat xs false [0] st_p) as (cs & s1 & C1).
    { intros v x _ _. do 2 eexists. apply predicts_q. }
    change (draw_curves sys_q 0%nat xs at_angle [0] st_p) with (draw_curves sys_q 0%nat xs (pt false) [0] st_p).
    rewrite C1. unfold ret at 1. unfold bind, lift. rewrite D by reflexivity. do 2 eexists. reflexivity. }
  destruct r as [fig pan].
  assert (G : given (Some data_q) (Some 0%nat) None data_q (Some 0%nat)) by (right; auto).
  destruct (ellips_shows _ _ _ _ _ _ _ _ _ _ _ _ _ _ G points_q E) as (b & Eb & _ & CS & PN & _).
  cbn [negb] in PN. subst pan. destruct b; [discriminate|].
  exists sys_q, st_p, data_q, 0%nat, pts_q, X_q, fig, st'. split; [apply points_q|]. split; [exact E|].
  exists (th45 * (180 / PI)). split; [right; left; auto|]. intros c Ic (L1 & L2 & S).
  destruct CS as (lo & hi & M1 & M2 & x0 & X' & c' & EX & Ecs & EV & (K1 & K2 & S')).
  injection EX as <- <-. rewrite Ecs in Ic. destruct Ic as [<-|[]]. cbn [snd] in S'.
  assert (lo = 633).
  { destruct M1 as [[I1|[I1|[]]] I2]; cbn in I1; [lra|]. specialize (I2 633 (or_introl eq_refl)). lra. }
  assert (hi = 1023).
  { destruct M2 as [[I1|[I1|[]]] I2]; cbn in I1; [|lra]. specialize (I2 1023 (or_intror (or_introl eq_refl))). lra. }
  subst lo hi. destruct EV as [LX EV].
  destruct (nth_error (cv_x c') 5) as [x|] eqn:Ex; [|apply nth_error_None in Ex; lia].
  specialize (EV 5%nat x Ex). cbn [Nat.sub] in EV. simpl INR in EV.
  assert (x = 633) by lra. subst x.
  destruct (nth_error (cv_psi c') 5) as [p|] eqn:Ep; [|apply nth_error_None in Ep; lia].
  destruct (nth_error (cv_delta c') 5) as [de|] eqn:Ed; [|apply nth_error_None in Ed; lia].
  pose proof (S 5%nat _ _ _ Ex Ep Ed) as P1. pose proof (S' 5%nat _ _ _ Ex Ep Ed) as P2.
  cbn [place] in P1, P2. pose proof (predicts_q heap_q 633 (th45 * (180 / PI))) as Q1. pose proof (predicts_q heap_q 633 0) as Q2.
  unfold predicts in *. fold sys_q in Q1, Q2. rewrite P1 in Q1. rewrite P2 in Q2. rewrite prism_normal in Q2. cbn [fst snd] in Q2.
  destruct prism_delta as (psi & delta & B & E1 & _). unfold val_q in Q1. rewrite E1 in Q1. cbn [fst snd] in Q1.
  injection Q1 as -> ->. injection Q2 as _ Q2. lra.
Qed.

(** ** StructureSE.plot: a film whose thickness varies *)
Definition film_t : structure_t := StructureT [slab_t 1; ComponentT (SlabT 1%nat (const_t 2 0) 0%nat 0%nat) true; slab_t (3 / 2)]
  EmptyString None false 0 "linear" (1 / 3).
Definition sys_v : system := System ps_ex no_ext [film_t] [ModelT 0%nat 2%nat] [].
Definition st_v (t : R) : state := State (fun p => if Nat.eqb p 1%nat then t else 0) [Some 633] [false].

Lemma resolved_v : resolved sys_v.
Proof. intros p f E. discriminate. Qed.
Lemma varying_v : varying_of sys_v (structure_params (the_structure sys_v 0%nat)) = [1%nat].
Proof. reflexivity. Qed.
Lemma slabs_v st : st_store st 0%nat = 0 -> fst (structure_slabs no_ext (current_structure sys_v st 0%nat) None) =
  Ok (Some [mkSlab 0 (Some (1, 0)) 0 0; mkSlab (st_store st 1%nat) (Some (2, 0)) 0 0; mkSlab 0 (Some (3/2, 0)) 0 0]).
Proof.
  intros E. unfold current_structure. set (w := nth 0%nat (st_wavelengths st) None).
  assert (C0 : inst_structure (value sys_v st) w (the_structure sys_v 0%nat) =
    set_wavelength (simple [layer_c 0 1 0 0 0; layer_c (st_store st 1%nat) 2 0 0 0; layer_c 0 (3/2) 0 0 0] false "linear") w).
  { unfold inst_structure, set_wavelength, simple, layer_c, const. cbn. unfold inst_component. cbn. unfold value, read. cbn. rewrite E. reflexivity. }
  rewrite C0.
  rewrite (slabs_one_each no_ext _ None [mkSlab 0 (Some (1, 0)) 0 0; mkSlab (st_store st 1%nat) (Some (2, 0)) 0 0; mkSlab 0 (Some (3/2, 0)) 0 0]); try (simpl; lra); auto.
  - do 2 eexists. split; [reflexivity|]. split; [reflexivity|]. split; do 4 eexists; reflexivity.
  - repeat constructor.
  - repeat constructor; eexists; split; reflexivity.
  - intros (r & [<-|[<-|[<-|[]]]] & H); simpl in H; lra.
Qed.

Lemma profile_v st align : st_store st 0%nat = 0 -> (align = 0 \/ align = 1)%Z ->
  exists c, ri_profile no_ext (current_structure sys_v st 0%nat) None align = Ok c.
Proof.
  intros E A. unfold ri_profile. rewrite slabs_v by auto. cbn [List.length Nat.ltb Nat.leb x_profile].
  destruct (x_profile _ _ _) as [z r]. destruct A as [-> | ->]; cbn; eauto.
Qed.
Lemma profile_v_fails st : st_store st 0%nat = 0 ->
  ri_profile no_ext (current_structure sys_v st 0%nat) None 5 = Raise RuntimeError.
Proof.
  intros E. unfold ri_profile. rewrite slabs_v by auto. cbn [List.length Nat.ltb Nat.leb].
  destruct (x_profile _ _ _) as [z r]. reflexivity.
Qed.

Lemma plot_v : exists cs st', plot_profile sys_v 0%nat None 2 (Ok [[5]; [7]]) 1 (st_v 3) = (Ok cs, st').
Proof.
  assert (P : forall st, st_store st 0%nat = 0 -> exists c, profile_now sys_v 0%nat 1 st = (Ok c, st)).
  { intros st E. destruct (profile_v st 1 E) as [c Ec]; auto. exists c. unfold profile_now. change (sy_ext sys_v) with no_ext. rewrite Ec. reflexivity. }
  unfold plot_profile. unfold bind at 1, ret at 1. unfold bind at 1. cbn [Z.ltb Z.compare].
  unfold bind at 1, lift at 1. unfold bind at 1. cbn [draw_samples].
  unfold bind at 1, set_pvals at 1. rewrite varying_v. cbn [List.length Nat.eqb].
  unfold bind at 1. match goal with |- context [profile_now _ _ _ ?s] => destruct (P s) as [c1 E1]; [reflexivity|] end. rewrite E1.
  unfold bind at 1. unfold bind at 1, set_pvals at 1. rewrite varying_v. cbn [List.length Nat.eqb].
  unfold bind at 1. match goal with |- context [profile_now _ _ _ ?s] => destruct (P s) as [c2 E2]; [reflexivity|] end. rewrite E2.
  unfold bind at 1, ret at 1. unfold ret at 1, ret at 1.
  unfold bind at 1.
  match goal with |- context [set_pvals ?sy ?ps ?v ?s] => destruct (put_back sy ps (st_v 3) s resolved_v) as (s3 & E3 & V3 & _) end.
  - split; [|reflexivity]. intros q N. cbn. assert (q <> 1)%nat by (intros ->; apply N; vm_compute; auto).
    unfold write. destruct (Nat.eqb_spec q 1); [contradiction|]. reflexivity.
  - reflexivity.
  - rewrite E3. unfold ret at 1. unfold bind. destruct (P s3) as [c3 Ec3]; [exact (V3 0%nat)|]. rewrite Ec3. do 2 eexists. reflexivity.
Qed.

Lemma not_restored : exists sy a samples chain align st p, well_formed sy /\ resolved sy /\ (0 < samples)%Z /\
  (forall vs, chain = Ok vs -> Forall (fun v => List.length v = List.length (varying_of sy (structure_params (the_structure sy a)))) vs) /\
  fst (plot_profile sy a None samples chain align st) = Raise RuntimeError /\
  value sy (snd (plot_profile sy a None samples chain align st)) p <> value sy st p.
Proof.
  exists sys_v, 0%nat, 1%Z, (Ok [[5]]), 5%Z, (st_v 3), 1%nat.
  split; [intros p _; reflexivity|]. split; [apply resolved_v|]. split; [lia|].
  split; [intros vs E; injection E as <-; repeat constructor|].
  assert (E : plot_profile sys_v 0%nat None 1 (Ok [[5]]) 5 (st_v 3) =
    (Raise RuntimeError, set_store (st_v 3) (write_all (st_store (st_v 3)) [1%nat] [5]))).
  { unfold plot_profile. unfold bind at 1, ret at 1. unfold bind at 1. cbn [Z.ltb Z.compare].
    unfold bind at 1, lift at 1. unfold bind at 1. cbn [draw_samples]. unfold bind at 1, set_pvals at 1.
    rewrite varying_v. cbn [List.length Nat.eqb]. unfold bind at 1, profile_now at 1.
    change (sy_ext sys_v) with no_ext. rewrite profile_v_fails by reflexivity. reflexivity. }
  rewrite E. split; [reflexivity|]. cbn [snd]. unfold value, read. cbn. lra.
Qed.

(** ** forms used in Properties_plot *)
Lemma profile_restores' sy a samples chain align st cs st' :
  well_formed sy -> resolved sy ->
  plot_profile sy a None samples chain align st = (Ok cs, st') ->
  (forall p, value sy st' p = value sy st p) /\ st_wavelengths st' = st_wavelengths st /\ st_flips st' = st_flips st /\
  exists grey red vary, cs = grey ++ [red] /\ varying_list sy (structure_params (the_structure sy a)) vary /\
    ri_profile (sy_ext sy) (current_structure sy st a) None align = Ok red /\
    ((samples <= 0)%Z -> grey = []) /\
    forall vs, (0 < samples)%Z -> chain = Ok vs -> Forall (fun v => List.length v = List.length vary) vs ->
      Forall2 (fun v c => exists st1, assigned sy vary v st st1 /\
        ri_profile (sy_ext sy) (current_structure sy st1 a) None align = Ok c) vs grey.
Proof.
  intros W RS E. destruct (profile_restores _ _ _ _ _ _ _ _ W RS E) as (H1 & H2 & H3 & grey & red & H4 & H5 & H6 & H7).
  split; auto. split; auto. split; auto. exists grey, red, (varying_of sy (structure_params (the_structure sy a))).
  split; auto. split; [apply varying_of_list|]. auto.
Qed.
Lemma profile_pvals' sy a st : well_formed sy ->
  exists vary, varying_list sy (structure_params (the_structure sy a)) vary /\
  forall v samples chain align, List.length v = List.length vary ->
  exists st1, assigned sy vary v st st1 /\
    plot_profile sy a (Some v) samples chain align st = plot_profile sy a None samples chain align st1.
Proof.
  intros W. exists (varying_of sy (structure_params (the_structure sy a))). split; [apply varying_of_list|].
  intros v samples chain align L. destruct (set_pvals_varying sy _ v st W L) as (st1 & E & A). exists st1. split; auto.
  unfold plot_profile. unfold bind at 1. rewrite E. reflexivity.
Qed.
Lemma model_p_sets' sy m X st : well_formed sy ->
  exists vary, varying_list sy (model_params sy m) vary /\
  forall v, List.length v = List.length vary ->
  exists st1, assigned sy vary v st st1 /\ call_model_p sy m X (Some v) st = call_model sy m X st1 /\
    forall i p x, nth_error vary i = Some p -> nth_error v i = Some x ->
      value sy (snd (call_model_p sy m X (Some v) st)) p = x.
Proof.
  intros W. exists (varying_of sy (model_params sy m)). split; [apply varying_of_list|].
  intros v L. apply model_p_sets; auto.
Qed.
Lemma model_p_wrong' sy m X st :
  exists vary, varying_list sy (model_params sy m) vary /\
  forall v, List.length v <> List.length vary -> List.length v <> List.length (model_params sy m) ->
  call_model_p sy m X (Some v) st = (Raise ValueError, st).
Proof.
  exists (varying_of sy (model_params sy m)). split; [apply varying_of_list|]. intros v N1 N2. apply model_p_wrong; auto.
Qed.
Lemma model_p_example : well_formed sys_g /\ varying_list sys_g (model_params sys_g 0%nat) [1%nat] /\
  call_model_p sys_g 0%nat [(633, 0)] (Some [4; 5]) (st_g 0 0 None) = (Raise ValueError, st_g 0 0 None).
Proof.
  split; [intros p _; reflexivity|]. split; [|reflexivity].
  exact (varying_of_list sys_g (model_params sys_g 0%nat)).
Qed.
