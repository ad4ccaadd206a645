(** * Concrete fits for the Jacobian *)

Require Import Reals.
From Coquelicot Require Import Coquelicot.
Require Import List Bool Arith String Lra Lia Psatz.
From Verif Require Import Base Cplx Mat M_ema M_tmm M_disp M_struct M_model M_data Spec_data P_data M_objective Spec_struct Spec_optics Spec_whole Spec_objective Spec_covar Spec_diff Spec_jac
  P_tmm P_tmm2 P_ident2 P_ident3 P_psidelta2 P_tmm3  P_psidelta Spec_disp P_disp P_disp2 P_film P_examples P_identex P_ident2 P_cont P_cont3 P_model P_model2 P_struct P_struct2 P_objective P_objective2 P_objective3 P_plot P_covar P_covar3 P_covar4 P_diff P_diff2 P_diff3 P_jac Spec_smooth P_smooth P_smooth3 P_smooth4 P_jac2.
Import ListNotations.
Open Scope list_scope.
Open Scope R_scope.

(** glass of Cauchy's index A (parameter 2) in air at 36.87 degrees; delta_offset is parameter 1; all
    other numbers are parameter 0 *)
Definition ps_j (p : pid) : param := Param (Nat.eqb p 1%nat || Nat.eqb p 2%nat) None (Interval (-10) 10).
Definition cauchy_t : material_t := MaterialT (ScattererT (T_Cauchy 2%nat 0%nat 0%nat) 658 EmptyString) true.
Definition half_t : structure_t :=
  StructureT [slab_t 1; ComponentT (SlabT 0%nat cauchy_t 0%nat 0%nat) true] EmptyString None false 0 "linear" (1 / 3).
Definition heap_j : heap := [[Some 633]; [Some ex_aoi]; [Some 30]; [Some 170]].
Definition data_j : dataset := DataSE 0%nat 1%nat 2%nat 3%nat (MBool [true]) false true None tab.
Definition sys_j : system := System ps_j no_ext [half_t] [ModelT 0%nat 1%nat] heap_j.
Definition st_j : state := State (write_all (fun _ => 0) [1%nat; 2%nat] [5; 39 / 25]) [None] [false].
Definition ob_j : objective := Objective 0%nat data_j None false None.
Definition pt_j : point := (Some 633, Some ex_aoi, Some 30, Some 170).

Lemma wf_j : well_formed sys_j.
Proof. intros p _. reflexivity. Qed.
Lemma varying_j : varying_parameters sys_j ob_j = [1; 2]%nat.
Proof. reflexivity. Qed.
Lemma data_j_has : has_data sys_j ob_j [pt_j] [(633, ex_aoi)].
Proof. exists [pt_j], [true]. split; [repeat split|]. split; [reflexivity|]. split; [repeat constructor|]. repeat constructor. Qed.

Lemma index_j : index_at (inst_material (value sys_j st_j) cauchy_t) (Some 633) (Some (RtoC (39 / 25))).
Proof.
  unfold index_at. etransitivity; [exact (cauchy_formula (39 / 25) 0 0 658 EmptyString 633 ltac:(lra))|]. unfold RtoC. do 3 f_equal. field.
Qed.
Lemma rows_j : rows_at (current sys_j st_j 0%nat) 633 [mkSlab 0 (Some (RtoC 1)) 0 0; mkSlab 0 (Some (RtoC (39 / 25))) 0 0].
Proof.
  exists [[mkSlab 0 (Some (RtoC 1)) 0 0]; [mkSlab 0 (Some (RtoC (39 / 25))) 0 0]]. eexists. split; [|split; [|left; split; [|reflexivity]]].
  - constructor; [|constructor; [|constructor]].
    + cbn [rows_of inst_component slab_t ct_kind c_kind]. eexists. split; [reflexivity|]. reflexivity.
    + eexists. split; [reflexivity|]. exact index_j.
  - reflexivity.
  - intros (r & [<-|[<-|[]]] & H); cbn in H; lra.
Qed.

Lemma value_j off : exists p, DP_one (RtoC 1) (film_of [] 0) (RtoC (39 / 25)) 633 off false ex_aoi = (Some p, Some (180 + off)).
Proof.
  assert (CC : code_cos (RtoC 1 * RtoC (sin (rad ex_aoi)))%C (RtoC (39 / 25)) = RtoC (12 / 13)).
  { rewrite rad_ex, sin35, <- RtoC_mult. symmetry. apply code_cos_unique.
    - cbn [Re RtoC fst]. lra.
    - intros [_ T]. rewrite <- RtoC_div in T by lra. cbn [Re RtoC fst] in T. rewrite Rabs_pos_eq in T by lra. lra.
    - rewrite <- RtoC_div by lra. rewrite <- !RtoC_mult, <- RtoC_minus. f_equal. field. }
  pose proof (ex_aoi_range) as AR. assert (PN : passive (RtoC (39 / 25))) by (split; cbn [Re Im RtoC fst snd]; lra).
  destruct (passive_amp pS (Re (RtoC 1)) [] (RtoC (39 / 25)) PInf PInf (rad ex_aoi) 633 ltac:(simpl; lra) ltac:(lra) ltac:(rewrite rad_ex, cos35; lra) (passive_film_nil _ _ _ PN)) as (rs & ts & AS).
  destruct (passive_amp pP (Re (RtoC 1)) [] (RtoC (39 / 25)) PInf PInf (rad ex_aoi) 633 ltac:(simpl; lra) ltac:(lra) ltac:(rewrite rad_ex, cos35; lra) (passive_film_nil _ _ _ PN)) as (rp & tp & AP).
  pose proof (bare_amp pS _ _ _ _ _ _ _ _ _ AS) as (_ & _ & _ & _ & E1). pose proof (bare_amp pP _ _ _ _ _ _ _ _ _ AP) as (_ & _ & _ & _ & E2).
  cbn [Re RtoC fst] in CC, E1, E2. rewrite CC in E1, E2. rewrite rad_ex, cos35 in E1, E2. rewrite Rabs_pos_eq in E1, E2 by lra.
  rewrite <- !RtoC_mult, <- RtoC_minus, <- RtoC_plus, <- RtoC_div in E1 by lra. rewrite <- !RtoC_mult, <- RtoC_minus, <- RtoC_plus, <- RtoC_div in E2 by lra.
  assert (RS : rs = RtoC (- 2 / 7)) by (rewrite E1; f_equal; field). assert (RP : rp = RtoC (22 / 147)) by (rewrite E2; f_equal; field). clear E1 E2.
  unfold DP_one, psi_delta. cbn [film_of nm map]. cbn [amp Re RtoC fst] in AS, AP |- *. rewrite AS, AP. subst rs rp.
  unfold psi_of, delta_of. destruct (Ceq_dec (RtoC (-2 / 7)) 0) as [E|_]; [exfalso; apply RtoC_inj in E; lra|]. eexists. f_equal.
  rewrite <- RtoC_opp. unfold cdiv. destruct (Ceq_dec (RtoC (-2 / 7)) 0) as [E|_]; [exfalso; apply RtoC_inj in E; lra|]. cbn [obind].
  rewrite <- RtoC_div by lra. destruct (Ceq_dec (RtoC (- (22 / 147) / (-2 / 7))) 0) as [E|_]; [exfalso; apply RtoC_inj in E; lra|]. cbn [obind].
  rewrite <- RtoC_div by lra.
  assert (CA : carg (RtoC (1 / (- (22 / 147) / (-2 / 7)))) = 0).
  { apply (carg_unique _ (21 / 11)); [lra|pose proof PI_RGT_0; lra|]. rewrite cos_0, sin_0. unfold RtoC. f_equal; field. }
  rewrite CA. f_equal. pose proof PI_RGT_0. field. lra.
Qed.

Lemma ends_j : slab_ends (st_data (current sys_j st_j 0%nat)).
Proof. do 2 eexists. split; [reflexivity|]. split; [reflexivity|]. split; do 4 eexists; reflexivity. Qed.
Lemma predicts_j : exists p, predicts sys_j st_j 0%nat [(633, ex_aoi)] [Some p] [Some 185].
Proof.
  destruct (value_j 5) as (p & E). exists p. unfold predicts, call_model.
  assert (CO : consists_of (fun _ => current sys_j st_j 0%nat) (fst (633, ex_aoi)) (fun _ => RtoC 1) [] (fun _ => RtoC (39 / 25))).
  { apply locally_all. intros t. split; [exact ends_j|]. split; [repeat constructor|]. split; [cbn; lra|]. eexists. exists []. eexists. split; [exact rows_j|]. split; [reflexivity|]. split; [reflexivity|constructor]. }
  pose proof (locally_singleton _ _ (consists_value no_ext (fun _ => current sys_j st_j 0%nat) (fun _ => 5) false (633, ex_aoi) _ _ _ CO)) as V. cbv beta in V. cbn [fst snd] in V.
  rewrite E in V. cbn [fst snd] in V. replace (180 + 5) with 185 in V by lra.
  change (sy_ext sys_j) with no_ext. change (value sys_j st_j (mo_offset (the_model sys_j 0%nat))) with 5. change (nth 0%nat (st_flips st_j) false) with false.
  destruct (model _ _ _ _ _ _) as [r s]. cbn [fst] in V |- *. exact V.
Qed.

Lemma smooth_j : List.Forall (smooth_component (value sys_j st_j) half_t 633) (stt_data half_t).
Proof.
  constructor; [|constructor; [|constructor]].
  - exists (RtoC 1). split; [reflexivity|]. split; [cbn; lra|exact I].
  - exists (RtoC (39 / 25)). split; [exact index_j|]. split; [cbn; lra|exact I].
Qed.
Lemma settled_j j : (j < 2)%nat -> settled (fun t => value sys_j (moved sys_j ob_j st_j j t)) half_t 633 0.
Proof.
  intros Hj. left. intros c t m r f [<-|[<-|[]]] E; cbn in E; injection E as <- <- <- <-; apply locally_all; intros y; cbn; apply Rle_refl.
Qed.
Lemma clear_j : clear_path [mkSlab 0 (Some (RtoC 1)) 0 0; mkSlab 0 (Some (RtoC (39 / 25))) 0 0] 633 ex_aoi.
Proof.
  exists (mkSlab 0 (Some (RtoC 1)) 0 0), [], (mkSlab 0 (Some (RtoC (39 / 25))) 0 0), (RtoC 1), (RtoC (39 / 25)). split; [reflexivity|]. split; [reflexivity|]. split; [reflexivity|]. split; [|constructor].
  intros [_ T]. revert T. rewrite rad_ex, sin35, <- RtoC_mult, <- RtoC_div by lra. cbn [Re RtoC fst]. rewrite Rabs_pos_eq by lra. lra.
Qed.
Theorem example_j : exists psi delta,
  well_formed sys_j /\ has_data sys_j ob_j [pt_j] [(633, ex_aoi)] /\ predicts sys_j st_j 0%nat [(633, ex_aoi)] psi delta /\
  present sys_j ob_j st_j = [5; 39 / 25] /\
  (exists J, partials 2 (fun v => fst (residuals sys_j ob_j (Some v) st_j)) (present sys_j ob_j st_j) J).
Proof.
  destruct predicts_j as (p & P). exists [Some p], [Some 185]. split; [exact wf_j|]. split; [exact data_j_has|]. split; [exact P|]. split; [reflexivity|].
  apply (fit_jacobian sys_j ob_j st_j [pt_j] [(633, ex_aoi)] [Some p] [Some 185] wf_j data_j_has P).
  - repeat constructor. exists 30. reflexivity.
  - repeat constructor. exists 170, 185. split; [reflexivity|]. split; [reflexivity|]. split; [lra|]. split; [rewrite Rabs_pos_eq by lra; lra|].
    change (185 <> 5 + 360). lra.
  - intros q j _ H. exfalso. apply H. reflexivity.
  - exact ends_j.
  - cbn. lia.
  - repeat constructor.
  - cbn. lra.
  - constructor; [|constructor]. split; [exact smooth_j|]. split; [exact settled_j|]. eexists. split; [exact rows_j|exact clear_j].
Qed.

(** ** Where the derivatives end *)

(** a film of index 2 whose solvent fraction (parameter 1) passes 0; the backing, of index 1, is the solvent *)
Definition film_t : structure_t :=
  StructureT [slab_t 1; ComponentT (SlabT 0%nat (const_t 2 0) 0%nat 1%nat) true; slab_t 1] EmptyString None false 0 "linear" (1 / 3).
Definition passing (t : R) (p : pid) : R := if Nat.eqb p 1 then t else 0.
Definition wet_index (t : R) : C := RtoC (if Rle_dec t 0 then 2 else sqrt (4 - 3 * t)).

Lemma dry_or_wet t : t < 1 -> exists rows, rows_at (inst_structure (passing t) None film_t) 633 rows /\ s_ri (nth 1 rows row0) = Some (wet_index t).
Proof.
  intros T. set (tbl := [mkSlab 0 (Some (RtoC 1)) 0 0; mkSlab 0 (Some (RtoC 2)) 0 t; mkSlab 0 (Some (RtoC 1)) 0 0]).
  assert (B : Forall2 (rows_of (with_wavelength (inst_structure (passing t) None film_t) (Some 633))) (st_data (inst_structure (passing t) None film_t)) (map (fun r => [r]) tbl)) by (repeat constructor; eexists; split; reflexivity).
  unfold wet_index. destruct (Rle_dec t 0) as [L|L].
  - exists tbl. split; [|reflexivity]. exists (map (fun r => [r]) tbl), tbl. split; [exact B|]. split; [reflexivity|]. left. split; [|reflexivity].
    intros (r & [<-|[<-|[<-|[]]]] & H); cbn in H; lra.
  - exists [mkSlab 0 (Some (RtoC 1)) 0 0; mkSlab 0 (Some (RtoC (sqrt (4 - 3 * t)))) 0 t; mkSlab 0 (Some (RtoC 1)) 0 0]. split; [|reflexivity].
    exists (map (fun r => [r]) tbl), tbl. split; [exact B|]. split; [reflexivity|]. right. split; [|split; [left; reflexivity|]].
    + exists (mkSlab 0 (Some (RtoC 2)) 0 t). split; [right; left; reflexivity|cbn; lra].
    + exists (RtoC 1). split; [reflexivity|]. split; [reflexivity|]. intros i Hi. cbn [tbl List.length] in Hi.
      destruct i as [|[|[|i]]]; [| | |lia]; cbn [tbl nth s_thick s_rough s_vf s_ri List.length Nat.sub]; repeat split; auto; intros; try lia; try congruence.
      match goal with H : Some _ = Some _ |- _ => injection H as <- end. eexists. split; [|reflexivity]. unfold overall_ri. cbn [with_wavelength inst_structure st_ema film_t stt_ema].
      cbn [String.eqb Ascii.eqb Bool.eqb]. f_equal. unfold E_linear. rewrite <- !RtoC_mult, <- RtoC_plus. rewrite csqrt_nonneg_real by lra. f_equal. f_equal. ring.
Qed.

Theorem vf_kink : (forall p, ex_derive (fun t => passing t p) 0) /\
  (forall t, t < 1 -> exists rows, rows_at (inst_structure (passing t) None film_t) 633 rows /\ s_ri (nth 1 rows row0) = Some (wet_index t)) /\
  ~ ex_derive (fun t => Re (wet_index t)) 0.
Proof.
  split; [intros p; unfold passing; destruct (Nat.eqb p 1); auto_derive; exact I|]. split; [exact dry_or_wet|].
  intros (l & D). apply is_derive_Reals in D.
  assert (W0 : forall t, t <= 0 -> Re (wet_index t) = 2) by (intros t T; unfold wet_index; destruct Rle_dec; [reflexivity|lra]).
  destruct (D (1 / 4) ltac:(lra)) as (d & H). set (h := Rmin (d / 2) (1 / 2)). pose proof (cond_pos d) as Pd.
  assert (H0 : 0 < h) by (apply Rmin_glb_lt; lra). assert (H1 : h <= d / 2) by apply Rmin_l. assert (H2 : h <= 1 / 2) by apply Rmin_r.
  pose proof (H (- h) ltac:(lra) ltac:(rewrite Rabs_Ropp, Rabs_pos_eq; lra)) as A. pose proof (H h ltac:(lra) ltac:(rewrite Rabs_pos_eq; lra)) as B.
  rewrite Rplus_0_l in A, B. rewrite (W0 0) in A, B by lra. rewrite (W0 (- h)) in A by lra. unfold wet_index in B. destruct (Rle_dec h 0); [lra|]. cbn [Re RtoC fst] in B.
  replace ((2 - 2) / - h - l) with (- l) in A by (field; lra). rewrite Rabs_Ropp in A. apply Rabs_def2 in A. apply Rabs_def2 in B.
  assert (Q : sqrt (4 - 3 * h) <= 2 - 3 / 4 * h). { rewrite <- (sqrt_Rsqr (2 - 3 / 4 * h)) by lra. apply sqrt_le_1_alt. unfold Rsqr. nra. }
  assert ((sqrt (4 - 3 * h) - 2) / h <= - (3 / 4)); [|lra]. apply (Rmult_le_reg_r h); [lra|]. unfold Rdiv. rewrite Rmult_assoc, Rinv_l by lra. lra.
Qed.

(** a Sellmeier material with epsilon_inf at 0 and nothing else *)
Definition empty_t : scatterer_t := ScattererT (T_Sellmeier 0%nat 0%nat 0%nat 1%nat) 658 EmptyString.
Theorem zero_index : sc_complex (inst_scat (passing 0) empty_t) (Some 633) = Ok (Some (RtoC 0)) /\
  ~ smooth_index (fun t => sc_complex (inst_scat (passing t) empty_t) (Some 633)) 0.
Proof.
  assert (E : forall t, sc_complex (inst_scat (passing t) empty_t) (Some 633) = Ok (omap RtoC (osqrt t))).
  { intros t. unfold sc_complex, inst_scat, empty_t. cbn [sct_kind sc_kind sct_wavelength sct_name sc_wavelength]. rewrite choose_wav_some by lra. unfold sellmeier_complex, sellmeier_real, odiv, passing. cbn [Nat.eqb].
    destruct Req_EM_T as [X|_]; [exfalso; lra|]. cbn [obind]. f_equal. f_equal. f_equal. field. }
  split.
  - rewrite E. unfold osqrt. destruct Rle_dec; [|lra]. cbn. rewrite sqrt_0. reflexivity.
  - intros (n & L & _). destruct L as (d & H). pose proof (cond_pos d) as P. specialize (H (- (d / 2))). cbv beta in H. rewrite E in H.
    assert (B : ball 0 d (- (d / 2))) by (change (Rabs (- (d / 2) - 0) < d); rewrite Rminus_0_r, Rabs_Ropp, Rabs_pos_eq; lra). specialize (H B).
    unfold osqrt in H. destruct Rle_dec; [lra|discriminate].
Qed.

(** one Lorentz oscillator, its numbers are parameters 0, 1, 2 and 3; all move *)
Definition osc_t : scatterer_t := ScattererT (T_Lorentz [0%nat] [1%nat] [2%nat] 3%nat) 658 EmptyString.
Theorem lorentz_ex : forall x, 0 < x -> exists n, sc_complex (inst_scat (fun _ => x) osc_t) (Some 633) = Ok (Some n) /\ 0 < Re n /\ well_behaved (fun _ => x) osc_t (Some 633) /\
  smooth_index (fun t => sc_complex (inst_scat (fun _ => t) osc_t) (Some 633)) x.
Proof.
  intros x X. set (e := 1239841984055 / 1000000000 / 633). assert (E0 : 0 < e) by (unfold e; lra).
  assert (E : sc_complex (inst_scat (fun _ => x) osc_t) (Some 633) = Ok (omap csqrt (lorentz_epsilon [(x, x, x)] x e))).
  { unfold sc_complex, inst_scat, osc_t. cbn [sct_kind sc_kind sct_wavelength sct_name sc_wavelength]. rewrite choose_wav_some by lra. unfold complex_of_epsilon, nm_eV_conversion. destruct Req_EM_T; [lra|]. reflexivity. }
  destruct (lorentz_epsilon [(x, x, x)] x e) as [z|] eqn:Z.
  - assert (I0 : 0 < Im z).
    { rewrite (lorentz_Im _ _ _ _ Z). cbn [map fold_right osc_A osc_B osc_E fst snd]. rewrite Rplus_0_r. unfold lorentz_absorption. apply Rdiv_lt_0_compat; [|].
      - apply Rmult_lt_0_compat; [nra|lra] || nra.
      - assert (0 < (x * e) ^ 2) by (apply pow_lt; nra). pose proof (pow2_ge_0 (x ^ 2 - e ^ 2)). lra. }
    exists (csqrt z). cbn [omap] in E. assert (P : 0 < Re (csqrt z)).
    { destruct (csqrt_half_plane z) as [P|[P _]]; [exact P|]. pose proof (f_equal Im (csqrt_sq z)) as Q. cbn [Im Cmult fst snd] in Q. change (fst (csqrt z)) with (Re (csqrt z)) in Q. rewrite P in Q. change (snd z) with (Im z) in Q. lra. }
    split; [exact E|]. split; [exact P|]. split; [exact I|]. apply (scat_smooth (fun t _ => t) osc_t (Some 633) x (csqrt z)); [intros p _; apply ex_derive_id|exact E|exact P|exact I].
  - exfalso. assert (N : lorentz_epsilon [(x, x, x)] x e <> None); [|congruence]. apply lorentz_defined. repeat constructor. cbn [osc_E osc_B fst snd]. intros [_ K]. nra.
Qed.
