(** * Sessions with every call that looks at the objects: plot_structure, examples *)

Require Import Reals List Bool String Ascii ZArith Lia Arith Lra.
From Coquelicot Require Import Complex.
From Verif Require Import Base Cplx M_tmm M_disp M_struct M_model M_data M_objective M_session M_life M_fit M_plot M_covar M_views.
From Verif Require Import Spec_struct Spec_optics Spec_whole Spec_data Spec_objective Spec_session Spec_life Spec_fit Spec_views Spec_ident.
From Verif Require Import P_struct P_struct2 P_objective P_objective2 P_session P_session2 P_data P_life P_life2 P_life3 P_whole P_whole2 P_fit P_fit2 P_fit3 P_fit4.
From Verif Require Import P_model P_model2 P_psidelta P_psidelta2 P_film P_examples P_ident3 P_identex P_views P_views2 P_views3.
Import ListNotations.
Open Scope list_scope.
Open Scope R_scope.

Theorem theory_all ext pf l o pts mk sel X stacks :
  let w := full_session ext pf start l in let m := oo_model (obj_at w o) in let S := structure_of w m in
  (o < List.length (wo_objs w))%nat -> one_convention_all ext pf start m (ds_flipped (data_of w o)) l ->
  holds (lf_heap (wo_life w)) (data_of w o) pts -> ds_mask (data_of w o) = MBool mk -> kept mk pts sel -> Forall2 Spec_objective.measured sel X ->
  slab_ends (st_data S) -> Forall (fun c => c_default_interface c = true) (st_data S) -> st_contract S <= 0 ->
  Forall2 (lit_structure S) X stacks -> Forall reflecting stacks ->
  exists pds,
    Forall2 (Spec_whole.measured (offset_of w m) (ds_flipped (data_of w o))) stacks pds /\ List.length pds = List.length sel /\
    (exists rpsi rdelta, fst (w_residuals ext w o None) = Ok (rpsi ++ rdelta) /\
      Forall2 (fun xp r => minus (Some (fst (snd xp))) (p_psi (fst xp)) r) (combine sel pds) rpsi /\
      Forall2 (fun xp r => distance (Some (snd (snd xp))) (p_delta (fst xp)) r) (combine sel pds) rdelta) /\
    (forall c, fst (w_chisqr ext w o None) = Ok (Some c) ->
      Forall (fun x => forall y, p_delta x = Some y -> offset_of w m <= y <= offset_of w m + 360) sel ->
      (c = 0 <-> Forall2 agrees sel pds)).
Proof.
  intros w m S Ho OC. apply (theory_at ext w o). exact (right_convention_all ext pf l o Ho OC).
Qed.

(** ** plot_structure *)
Lemma view_effect ext pf w o a reverse k : target w o a k -> exists_all w (V_structure o a reverse) = true ->
  let w' := snd (perform_all ext pf w (V_structure o a reverse)) in
  match fst (perform_all ext pf w (V_structure o a reverse)) with
  | Ok _ => same_world w' (turned w k false)
  | Raise _ => same_world w' w \/ same_world w' (turned w k reverse)
  end.
Proof.
  intros T X. unfold perform_all. rewrite X. unfold drop. cbn [fst snd]. unfold w_view.
  assert (G : forall a ws, match rmap (fun _ => tt) (fst (show_structure ext w a ws reverse)) with
    | Ok _ => same_world (snd (show_structure ext w a ws reverse)) (turned w a false)
    | Raise _ => same_world (snd (show_structure ext w a ws reverse)) w \/ same_world (snd (show_structure ext w a ws reverse)) (turned w a reverse)
    end).
  { intros b ws. pose proof (show_effect ext w b ws reverse) as E. destruct (fst (show_structure ext w b ws reverse)); cbn [rmap]; auto. }
  destruct T as [(-> & ->)|(i & -> & -> & ->)]; [apply G|].
  destruct (wavelengths_of _ _) as [ws|e]; [apply G|]. cbn. left. apply world_refl.
Qed.
Lemma turn_all ext pf w k b : snd (perform_all ext pf w (V_do (W_session (Set_reverse k b)))) = turned w k b.
Proof. reflexivity. Qed.
Lemma run_same ext pf l : Forall proper l -> forall w w', same_world w w' -> sound_world w' -> same_world (full_session ext pf w l) (full_session ext pf w' l).
Proof.
  induction 1 as [|x l P F IH]; intros w w' S N; [exact S|]. cbn [full_session fold_left]. apply IH; [apply all_same; auto|apply sound_all; auto].
Qed.
Lemma run_sound ext pf l : Forall proper l -> forall w, sound_world w -> sound_world (full_session ext pf w l).
Proof. induction 1 as [|x l P F IH]; intros w N; [exact N|]. cbn [full_session fold_left]. apply IH, sound_all; auto. Qed.
Theorem structure_plot ext pf l o a reverse k later : let w := full_session ext pf start l in
  Forall proper l -> Forall proper later -> target w o a k -> exists_all w (V_structure o a reverse) = true ->
  let after x := full_session ext pf (snd (perform_all ext pf w x)) later in
  let turn b := V_do (W_session (Set_reverse k b)) in
  match fst (perform_all ext pf w (V_structure o a reverse)) with
  | Ok _ => same_answers ext (after (V_structure o a reverse)) (after (turn false))
  | Raise _ => same_answers ext (after (V_structure o a reverse)) (full_session ext pf w later) \/
               same_answers ext (after (V_structure o a reverse)) (after (turn reverse))
  end.
Proof.
  intros w P1 P2 T X after turn. pose proof (view_effect ext pf w o a reverse k T X) as E. cbv zeta in E.
  assert (N : sound_world w) by (apply run_sound; auto using sound_start).
  assert (NT : forall b, sound_world (turned w k b)) by (intros b; exact N).
  unfold after, turn. rewrite !turn_all. destruct (fst (perform_all ext pf w (V_structure o a reverse))).
  - apply answers_same, run_same; auto.
  - destruct E as [E|E]; [left|right]; apply answers_same, run_same; auto.
Qed.

(** ** Brewster's angle from index 4 to index 3; the structure is built in the other order and reversed *)
Definition dense (b : bool) : structure := simple [layer_c 0 3 0 0 0; layer_c 0 4 0 0 0] b "linear".
Definition dense_rows (b : bool) : list slab :=
  if b then [mkSlab 0 (Some (4, 0)) 0 0; mkSlab 0 (Some (3, 0)) 0 0] else [mkSlab 0 (Some (3, 0)) 0 0; mkSlab 0 (Some (4, 0)) 0 0].
Lemma dense_slabs ext b lam : structure_slabs ext (set_wavelength (dense b) lam) None = (Ok (Some (dense_rows b)), set_wavelength (dense b) lam).
Proof.
  apply (slabs_plain ext (set_wavelength (dense b) lam) None [[mkSlab 0 (Some (3, 0)) 0 0]; [mkSlab 0 (Some (4, 0)) 0 0]]); try (simpl; lra); auto.
  - do 2 eexists. split; [reflexivity|]. split; [reflexivity|]. split; do 4 eexists; reflexivity.
  - repeat constructor.
  - repeat constructor; eexists; split; reflexivity.
  - destruct b; [|reflexivity]. unfold in_order. cbn [st_reverse set_wavelength dense simple List.concat app]. split; [reflexivity|]. split; [reflexivity|]. split.
    + intros [|[|i]] H; [repeat split|repeat split|cbn in H; lia].
    + intros [|[|i]] H; [lia|reflexivity|cbn in H; lia].
  - destruct b; intros (r & [<-|[<-|[]]] & H); simpl in H; lra.
Qed.
Lemma dense_model ext b lam flip : exists psi od,
  fst (model ext DFloat (set_wavelength (dense b) lam) 0 flip [(633, ex_aoi)]) = Ok ([Some psi], [od]) /\ (psi = 0 <-> b = true).
Proof.
  assert (K : exists psi od, fst (one_wavelength ext (set_wavelength (dense b) lam) 0 flip 633 [ex_aoi]) = Ok [(Some psi, od)] /\ (psi = 0 <-> b = true)).
  { unfold one_wavelength. change (set_wavelength (set_wavelength (dense b) lam) (Some 633)) with (set_wavelength (dense b) (Some 633)). rewrite dense_slabs. cbn [fst].
    destruct b.
    - destruct (brewster 0 (RtoC 4) 0 0 (RtoC 3) 0 ex_aoi 633 0 flip) as (psi & od & E & B1 & B2).
      + simpl; lra.
      + apply ex_aoi_range.
      + lra.
      + split; simpl; lra.
      + intros X. apply RtoC_inj in X. simpl in X. lra.
      + exists psi, od. split; [exact E|]. rewrite B1. split; [reflexivity|intros _]. split; [reflexivity|].
        rewrite rad_ex. unfold tan. rewrite sin35, cos35. simpl. lra.
    - destruct (brewster 0 (RtoC 3) 0 0 (RtoC 4) 0 ex_aoi 633 0 flip) as (psi & od & E & B1 & B2).
      + simpl; lra.
      + apply ex_aoi_range.
      + lra.
      + split; simpl; lra.
      + intros X. apply RtoC_inj in X. simpl in X. lra.
      + exists psi, od. split; [exact E|]. rewrite B1. split; [|discriminate]. intros [_ T]. exfalso.
        rewrite rad_ex in T. unfold tan in T. rewrite sin35, cos35 in T. simpl in T. lra. }
  destruct K as (psi & od & K & Z). exists psi, od. split; [|exact Z].
  assert (F : fine ext (set_wavelength (dense b) lam) 0 flip (633, ex_aoi)) by (unfold fine, val; cbn [fst snd]; rewrite K; reflexivity).
  rewrite model_single by exact F. unfold val. cbn [fst snd]. rewrite K. reflexivity.
Qed.
Definition dense_fit : list full_statement :=
  map V_do (map W_session
   [New_param fixed 0; New_scat (ri_m 3); New_scat (ri_m 4);
    New_comp (A_Slab 0%nat 0%nat 0%nat 0%nat) true; New_comp (A_Slab 0%nat 1%nat 0%nat 0%nat) true;
    New_struct [O_comp 0%nat; O_comp 1%nat] EmptyString None true 0 None "linear" (1 / 3);
    New_model (O_struct 0%nat) 0%nat] ++
  map W_data [L_array [Some 633]; L_array [Some ex_aoi]; L_array [Some 0]; L_array [Some 150]; L_new (L_arrays 0 1 2 3) tab false []] ++
  [W_objective 0 0 None true]).
Lemma dense_residual ext pf w b : same_world w (turned (full_session ext pf start dense_fit) 0 b) ->
  exists r d, fst (w_residuals ext w 0 None) = Ok [Some r; d] /\ (r = 0 <-> b = true).
Proof.
  intros S. rewrite (residuals_result ext _ _ 0%nat None S). clear S w. set (w := turned _ _ _).
  unfold w_residuals, setting. cbn [w_setp]. rewrite (proj1 (calling_same _ _ _)).
  destruct (dense_model ext b None false) as (psi & od & M & Z).
  set (sy := system_now ext w). set (ob := objective_now w 0). set (x := (Some 633, Some ex_aoi, Some 0, Some 150)).
  assert (HD : has_data sy ob [x] [(633, ex_aoi)]) by (exists [x], [true]; repeat split; repeat constructor).
  assert (P : predicts sy (state_now w) (ob_model ob) [(633, ex_aoi)] [Some psi] [od]).
  { unfold predicts. refine (eq_trans _ M). change (ob_model ob) with 0%nat. unfold call_model.
    assert (CU : current sy (state_now w) 0%nat = set_wavelength (dense b) None) by reflexivity. rewrite CU.
    change (value sy (state_now w) (mo_offset (the_model sy 0%nat))) with 0. change (nth 0%nat (st_flips (state_now w)) false) with false. change (sy_ext sy) with ext.
    destruct (model _ _ _ _ _ _). reflexivity. }
  destruct (residuals_spec sy ob None (state_now w) (state_now w) [x] _ _ _ HD eq_refl P) as (rp & rd & E & L1 & L2 & _ & _ & N).
  rewrite E. destruct rp as [|a [|]]; try discriminate. destruct rd as [|d [|]]; try discriminate.
  destruct (N 0%nat x (Some psi) od eq_refl eq_refl eq_refl) as (a' & b' & A1 & A2 & B1 & _). cbn in A1. assert (a' = a) by congruence. subst a'.
  unfold x, p_psi in A2. cbn [fst snd minus] in A2. subst a. exists (psi - 0), d. split; [reflexivity|]. rewrite <- Z. split; lra.
Qed.
Lemma dense_view ext pf : let w := full_session ext pf start dense_fit in
  fst (perform_all ext pf w (V_structure (Some 0%nat) None false)) = Ok tt /\
  same_world (snd (perform_all ext pf w (V_structure (Some 0%nat) None false))) (turned w 0 false).
Proof.
  intros w.
  assert (O : fst (perform_all ext pf w (V_structure (Some 0%nat) None false)) = Ok tt).
  { unfold perform_all. change (exists_all w (V_structure (Some 0%nat) None false)) with true. cbv iota. unfold drop, w_view. cbn [fst].
    change (wavelengths_of (system_now ext w) (set_at (wo_life w) (oo_data (obj_at w 0)))) with (@Ok (list R) [633%R]). cbv iota.
    change (mo_struct (model_at (wo_session w) (oo_model (obj_at w 0)))) with 0%nat. unfold show_structure.
    match goal with |- context [plot_structure ext ?s _ _] => change s with (set_wavelength (dense true) None) end.
    unfold plot_structure, plotted_wavelengths. change (8 <? List.length (np_unique [633%R]))%nat with false. cbv iota. change (np_unique [633]) with [633]. cbn [plot_loop].
    match goal with |- context [ri_profile ext ?s _ _] => change s with (set_wavelength (dense false) (Some 633)) end.
    unfold ri_profile. rewrite dense_slabs. cbn [fst dense_rows List.length Nat.ltb Nat.leb]. destruct (x_profile ext _ _). reflexivity. }
  split; [exact O|].
  assert (T : target w (Some 0%nat) None 0) by (right; exists 0%nat; repeat split).
  pose proof (view_effect ext pf w _ _ false 0%nat T eq_refl) as E. cbv zeta in E. rewrite O in E. exact E.
Qed.
Lemma dense_turned ext pf : same_world (full_session ext pf start dense_fit) (turned (full_session ext pf start dense_fit) 0 true).
Proof. split; [|split; reflexivity]. repeat split. cbn. repeat constructor. Qed.
Theorem plot_structure_counts ext pf : let w := full_session ext pf start dense_fit in
  let w' := full_session ext pf start (dense_fit ++ [V_structure (Some 0%nat) None false]) in
  Forall proper dense_fit /\ fst (perform_all ext pf w (V_structure (Some 0%nat) None false)) = Ok tt /\
  (exists d, fst (w_residuals ext w 0 None) = Ok [Some 0; d]) /\
  (exists r d, r <> 0 /\ fst (w_residuals ext w' 0 None) = Ok [Some r; d]).
Proof.
  intros w w'. destruct (dense_view ext pf) as [O S]. split; [repeat constructor; cbn; try discriminate; auto|]. split; [exact O|].
  assert (E : w' = snd (perform_all ext pf w (V_structure (Some 0%nat) None false))) by (unfold w', full_session; rewrite fold_left_app; reflexivity).
  split.
  - destruct (dense_residual ext pf w true (dense_turned ext pf)) as (r & d & R1 & R2). exists d. rewrite R1, (proj2 R2 eq_refl). reflexivity.
  - rewrite E. destruct (dense_residual ext pf _ false S) as (r & d & R1 & R2). exists r, d. split; [|exact R1]. intros Z. apply R2 in Z. discriminate.
Qed.

(** ** the session of P_fit4, watched *)
Definition probing (v : list R) : differentiator := Probe v (fun _ => Probe v (fun _ => Throw ValueError)).
Definition wet_watched (svd : svd_fun) : list full_statement :=
  map V_do (wet_build ++ wet_data false ++ [W_objective 0 0 None true; W_residuals 0 (Some [120])]) ++
  [V_plot 0 (Some "aoi"%string); V_covar 0 probing probing svd; V_profile 0 None 0 (Ok []) 0; V_model 0 [(633, 30)] None; V_do (W_chisqr 0 (Some [10 * film_d]));
   V_ellips None None (Some 0%nat) "wavelength"%string true; V_do (W_logpost 0 None)].
Lemma watched_proper svd : Forall proper (wet_watched svd).
Proof.
  unfold wet_watched, wet_build, wet_data. cbn [map app].
  repeat (constructor; [first [exact I|cbn; discriminate|cbn; intros _; reflexivity|cbn; lia|intros v; split; repeat (constructor; auto; intros)]|]). constructor.
Qed.
Lemma watched_looks svd : filter (fun x => negb (looks x)) (wet_watched svd) = map V_do (wet_fit false).
Proof. reflexivity. Qed.
Lemma do_all ext pf l : forall w, full_session ext pf w (map V_do l) = session_of ext pf w l.
Proof. induction l as [|x l IH]; intros w; [reflexivity|]. cbn [map full_session fold_left session_of]. apply IH. Qed.
Lemma watched_same ext pf svd : same_world (full_session ext pf start (wet_watched svd)) (session_of ext pf start wet_left).
Proof.
  eapply world_trans; [|apply wet_same]. rewrite <- do_all, <- (watched_looks svd). apply unlooked_same; [apply watched_proper|apply world_refl|apply sound_start].
Qed.
Lemma watched_objs ext pf svd : wo_objs (full_session ext pf start (wet_watched svd)) = [ObjObj 0 0 None true].
Proof. destruct (watched_same ext pf svd) as (_ & _ & ->). reflexivity. Qed.
Lemma watched_life ext pf svd : wo_life (full_session ext pf start (wet_watched svd)) = wo_life (session_of ext pf start wet_left).
Proof. apply (watched_same ext pf svd). Qed.
Lemma watched_structure ext pf svd : structure_of (full_session ext pf start (wet_watched svd)) 0 = wet /\ offset_of (full_session ext pf start (wet_watched svd)) 0 = 0.
Proof. destruct (structure_same _ _ 0%nat (watched_same ext pf svd)) as [-> ->]. split; reflexivity. Qed.
Lemma watched_convention ext pf svd : one_convention_all ext pf start 0 false (wet_watched svd).
Proof.
  unfold wet_watched, wet_build, wet_data. cbn [map app].
  do 17 (split; [exact I|]). split; [intros _; reflexivity|]. repeat (split; [exact I|]). exact I.
Qed.
Lemma watched_ok ext pf svd : let w := full_session ext pf start (wet_watched svd) in let m := oo_model (obj_at w 0) in let S := structure_of w m in
  let x := (Some 633, Some 30, Some 20, Some 150) in
  (0 < List.length (wo_objs w))%nat /\ one_convention_all ext pf start m (ds_flipped (data_of w 0)) (wet_watched svd) /\
  holds (lf_heap (wo_life w)) (data_of w 0) [x] /\ ds_mask (data_of w 0) = MBool [true] /\ kept [true] [x] [x] /\ Forall2 Spec_objective.measured [x] [(633, 30)] /\
  slab_ends (st_data S) /\ Forall (fun c => c_default_interface c = true) (st_data S) /\ st_contract S <= 0 /\
  Forall2 (lit_structure S) [(633, 30)] [wet_stack] /\ Forall reflecting [wet_stack] /\
  Forall (fun x => forall y, p_delta x = Some y -> offset_of w m <= y <= offset_of w m + 360) [x].
Proof.
  intros w m S x. assert (O : obj_at w 0 = ObjObj 0 0 None true) by (unfold w, obj_at; rewrite watched_objs; reflexivity).
  assert (m = 0%nat) as Em by (unfold m; rewrite O; reflexivity). assert (S = wet) as ES by (unfold S; rewrite Em; apply watched_structure).
  assert (D : data_of w 0 = set_at (wo_life (session_of ext pf start wet_left)) 0) by (unfold data_of; rewrite O; unfold w; rewrite watched_life; reflexivity).
  assert (F : offset_of w m = 0) by (rewrite Em; apply watched_structure).
  rewrite D, F, ES, Em. split; [unfold w; rewrite watched_objs; cbn; lia|]. split; [exact (watched_convention ext pf svd)|].
  split; [unfold w; rewrite watched_life; repeat split|]. split; [reflexivity|]. split; [repeat constructor|].
  split; [repeat constructor|]. destruct wet_ok as (W1 & W2 & W3). split; [exact W1|]. split; [exact W2|]. split; [exact W3|].
  split; [constructor; [exact wet_lit_structure|constructor]|]. split; [constructor; [exact wet_reflecting|constructor]|].
  constructor; [|constructor]. intros y E. cbn in E. assert (y = 150) by congruence. subst. lra.
Qed.
Lemma watched_keeps svd : Forall keeps_all (wet_watched svd).
Proof. repeat constructor. Qed.
Lemma watched_parameters ext pf svd : let w := full_session ext pf start (wet_watched svd) in
  parameters_now w 0 = [3; 0; 0; 0; 1; 0; 2; 0; 0; 0]%nat /\ varying_now w 0 = [1]%nat /\ listed (wo_session w) 0 = [3; 0; 0; 0; 1; 0; 2; 0; 0; 0]%nat /\
  listed_struct (wo_session w) (struct_at (wo_session w) 0) = [0; 0; 0; 1; 0; 2; 0; 0; 0]%nat /\ List.length (se_params (wo_session w)) = 4%nat.
Proof.
  cbv zeta. pose proof (watched_same ext pf svd) as S. destruct (params_same _ _ 0%nat S) as [-> ->].
  destruct S as (S & _). rewrite (listed_same _ _ 0%nat S). split; [reflexivity|]. split; [reflexivity|]. split; [reflexivity|].
  destruct S as (E1 & E2 & E3 & E4 & E5). rewrite E1. split; [|reflexivity].
  unfold listed_struct, struct_at, comp_at, scat_at. destruct (same_nth _ _ 0%nat E5) as (S1 & S2 & S3 & _). rewrite S1, S3, E2, E3. reflexivity.
Qed.

(** ** the same results as outside of a session *)
Lemma lists_start ext pf l : Forall keeps_all l -> current_lists (wo_session (full_session ext pf start l)).
Proof. intros F. apply lists_all; [exact F|]. apply lists_nothing. Qed.
Theorem covar_of_session ext pf l o a1 a2 svd : let w := full_session ext pf start l in Forall keeps_all l ->
  (forall p, In p (parameters_now w o) -> (p < List.length (se_params (wo_session w)))%nat) ->
  fst (w_covar ext w o a1 a2 svd) = fst (covariance (system_now ext w) (objective_now w o) a1 a2 svd (state_now w)).
Proof. intros w F H. apply covar_bridge; [apply lists_start, F|exact H]. Qed.
Theorem model_of_session ext pf l m X p : let w := full_session ext pf start l in Forall keeps_all l ->
  (forall p, In p (listed (wo_session w) m) -> (p < List.length (se_params (wo_session w)))%nat) ->
  fst (w_model ext w m X p) = fst (call_model_p (system_now ext w) m X p (state_now w)).
Proof. intros w F H. apply model_bridge; [apply lists_start, F|exact H]. Qed.
Theorem profile_of_session ext pf l a pvals samples chain align : let w := full_session ext pf start l in Forall keeps_all l ->
  (forall p, In p (listed_struct (wo_session w) (struct_at (wo_session w) a)) -> (p < List.length (se_params (wo_session w)))%nat) ->
  let r := plot_profile (system_now ext w) a pvals samples chain align (state_now w) in
  fst (w_draw ext w a pvals samples chain align) = fst r /\ state_now (snd (w_draw ext w a pvals samples chain align)) = snd r /\
  system_now ext (snd (w_draw ext w a pvals samples chain align)) = system_now ext w.
Proof. intros w F H. apply draw_bridge; [apply lists_start, F|exact H]. Qed.
