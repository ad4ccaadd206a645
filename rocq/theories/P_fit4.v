(** * Fitting sessions: residuals and chi-squared of the theory; examples *)

Require Import Reals List Bool String Ascii ZArith Lia Arith Lra.
From Coquelicot Require Import Complex.
From Verif Require Import Base M_disp M_struct M_model M_data M_objective M_session M_life M_fit.
From Verif Require Import Spec_struct Spec_optics Spec_whole Spec_data Spec_objective Spec_session Spec_life Spec_fit.
From Verif Require Import P_struct P_struct2 P_objective P_objective2 P_session P_session2 P_data P_life P_life2 P_life3 P_whole P_whole2 P_fit P_fit2.
Import ListNotations.
Open Scope list_scope.
Open Scope R_scope.

Lemma theory_at ext w o pts mk sel X stacks :
  let m := oo_model (obj_at w o) in let S := structure_of w m in
  mo_flip (model_at (wo_session w) m) = ds_flipped (data_of w o) ->
  holds (lf_heap (wo_life w)) (data_of w o) pts -> ds_mask (data_of w o) = MBool mk -> kept mk pts sel -> Forall2 Spec_objective.measured sel X ->
  slab_ends (st_data S) -> Forall (fun c => c_default_interface c = true) (st_data S) -> st_contract S <= 0 ->
  Forall2 (lit_structure S) X stacks -> Forall reflecting stacks ->
  exists pds,
    Forall2 (Spec_whole.measured (offset_of w m) (ds_flipped (data_of w o))) stacks pds /\ List.length pds = List.length sel /\
    (exists rpsi rdelta, fst (w_residuals ext w o None) = Ok (rpsi ++ rdelta) /\
      Forall2 (fun xp r => minus (Some (fst (snd xp))) (p_psi (fst xp)) r) (combine sel pds) rpsi /\
      Forall2 (fun xp r => distance (Some (snd (snd xp))) (p_delta (fst xp)) r) (combine sel pds) rdelta) /\
    (forall c, fst (w_chisqr ext w o None) = Ok (Some c) ->
      Forall (fun x => forall y, p_delta x = Some y -> offset_of w m <= y <= offset_of w m + 360) sel ->
      (c = 0 <-> Forall2 agrees sel pds)).
Proof.
  intros m S RC H M K F E1 E2 E3 L Rf.
  destruct (maxwell_setup ext w o pts mk sel X stacks H M K F E1 E2 E3 L Rf) as (pds & ME & HD & P). fold m in ME. rewrite RC in ME.
  destruct (residuals_setup ext w o sel X pds HD P) as (rpsi & rdelta & R1 & R2 & R3 & R4).
  exists pds. split; [exact ME|]. split; [exact R4|]. split; [exists rpsi, rdelta; auto|].
  intros c HC B. unfold w_chisqr, setting in HC. cbn [w_setp] in HC. rewrite (proj1 (calling_same _ _ _)) in HC.
  pose proof (chisqr_zero _ _ None _ (state_now w) sel X _ _ c HD eq_refl P HC) as Z.
  assert (N : forall i pd, nth_error pds i = Some pd -> offset_of w m <= snd pd <= offset_of w m + 360).
  { clear - ME. intros i. revert i. induction ME as [|st pd sts pds Q ME IH]; intros [|i] q E; try discriminate; cbn in E; [|exact (IH i q E)].
    assert (q = pd) by congruence. subst. destruct Q as (rs & rp & d & _ & _ & _ & _ & _ & D & EL & ->).
    destruct (ds_flipped _); [|lra]. unfold Rmin. destruct Rle_dec; lra. }
  rewrite Z; clear Z.
  2:{ intros i x y d I1 I2 I3. rewrite nth_error_map in I3. destruct (nth_error pds i) as [pd|] eqn:I4; cbn in I3; [|discriminate].
      assert (d = snd pd) by congruence. subst. specialize (N i pd I4). rewrite Forall_forall in B. specialize (B x (nth_error_In _ _ I1) y I2). apply Rabs_le. lra. }
  clear - R4. split.
  - intros A. revert pds R4 A. induction sel as [|x sel IH]; intros [|pd pds] R4 A; try discriminate; constructor.
    + destruct (A O x eq_refl) as (p & d & y & A1 & A2 & A3 & A4 & k & A5). cbn in A1, A3. assert (p = fst pd) by congruence. assert (d = snd pd) by congruence. subst.
      split; [exact A2|]. exists y, k. auto.
    + apply IH; [cbn in R4; congruence|]. intros i z Q. destruct (A (Datatypes.S i) z Q) as (p & d & y & A1). exists p, d, y. exact A1.
  - clear R4. induction 1 as [|x pd sel pds (Q1 & y & k & Q2 & Q3) A IH]; intros [|i] z Q; try discriminate.
    + cbn in Q. assert (x = z) by congruence. subst. exists (fst pd), (snd pd), y. cbn. repeat split; auto. exists k. exact Q3.
    + destruct (IH i z Q) as (p & d & y' & A1). exists p, d, y'. exact A1.
Qed.
Theorem session_theory ext pf l o pts mk sel X stacks :
  let w := session_of ext pf start l in let m := oo_model (obj_at w o) in let S := structure_of w m in
  (o < List.length (wo_objs w))%nat -> one_convention ext pf start m (ds_flipped (data_of w o)) l ->
  holds (lf_heap (wo_life w)) (data_of w o) pts -> ds_mask (data_of w o) = MBool mk -> kept mk pts sel -> Forall2 Spec_objective.measured sel X ->
  slab_ends (st_data S) -> Forall (fun c => c_default_interface c = true) (st_data S) -> st_contract S <= 0 ->
  Forall2 (lit_structure S) X stacks -> Forall reflecting stacks ->
  exists pds,
    Forall2 (Spec_whole.measured (offset_of w m) (ds_flipped (data_of w o))) stacks pds /\ List.length pds = List.length sel /\
    (exists rpsi rdelta, fst (w_residuals ext w o None) = Ok (rpsi ++ rdelta) /\
      Forall2 (fun xp r => minus (Some (fst (snd xp))) (p_psi (fst xp)) r) (combine sel pds) rpsi /\
      Forall2 (fun xp r => distance (Some (snd (snd xp))) (p_delta (fst xp)) r) (combine sel pds) rdelta) /\
    (forall c, fst (w_chisqr ext w o None) = Ok (Some c) ->
      Forall (fun x => forall y, p_delta x = Some y -> offset_of w m <= y <= offset_of w m + 360) sel ->
      (c = 0 <-> Forall2 agrees sel pds)).
Proof.
  intros w m S Ho OC. apply (theory_at ext w o). exact (right_convention ext pf l o Ho OC).
Qed.

(** ** a session: a wet film on a substrate; one measured point; the thickness is set by a fit *)
Definition ri_m (n : R) : material_t := MaterialT (ScattererT (T_RI (RI_const n 0)) 658 EmptyString) true.
Definition wet_build : list world_statement :=
  map W_session
   [New_param fixed 0; New_param varying 100; New_param fixed (20 / 27); New_param fixed 0;
    New_scat (ri_m 1); New_scat (ri_m 3); New_scat (ri_m (3 / 2));
    New_comp (A_Slab 0%nat 0%nat 0%nat 0%nat) true; New_comp (A_Slab 1%nat 1%nat 0%nat 2%nat) true; New_comp (A_Slab 0%nat 2%nat 0%nat 0%nat) true;
    New_struct [O_comp 0%nat; O_comp 1%nat; O_comp 2%nat] EmptyString None false 0 None "linear" (1 / 3);
    New_model (O_struct 0%nat) 3%nat].
Definition wet_data (r : bool) : list world_statement :=
  map W_data [L_array [Some 633]; L_array [Some 30]; L_array [Some 20]; L_array [Some 150]; L_new (L_arrays 0 1 2 3) tab r []].
Definition wet_fit (r : bool) : list world_statement :=
  wet_build ++ wet_data r ++ [W_objective 0 0 None true; W_residuals 0 (Some [120]); W_chisqr 0 (Some [10 * film_d])].

Definition wet_left : list world_statement :=
  wet_build ++ wet_data false ++ [W_objective 0 0 None true; W_setp 0 (Some [120]); W_setp 0 (Some [10 * film_d])].
Lemma structure_same w w' m : same_world w w' -> structure_of w m = structure_of w' m /\ offset_of w m = offset_of w' m.
Proof.
  intros S. pose proof (value_same w w' S) as V. destruct S as (S & _). pose proof S as (E1 & E2 & E3 & E4 & E5).
  unfold structure_of, offset_of, model_at. rewrite V, E4. split; [|reflexivity]. f_equal. apply struct_now_same; [exact S|]. apply same_nth. exact E5.
Qed.
Lemma wet_same ext pf : same_world (session_of ext pf start (wet_fit false)) (session_of ext pf start wet_left).
Proof. exact (effects_same ext pf (wet_fit false) start). Qed.
Lemma wet_structure ext pf : structure_of (session_of ext pf start (wet_fit false)) 0 = wet /\ offset_of (session_of ext pf start (wet_fit false)) 0 = 0.
Proof. destruct (structure_same _ _ 0%nat (wet_same ext pf)) as [-> ->]. split; reflexivity. Qed.
Lemma wet_objs ext pf : wo_objs (session_of ext pf start (wet_fit false)) = [ObjObj 0 0 None true].
Proof. destruct (wet_same ext pf) as (_ & _ & ->). reflexivity. Qed.
Lemma wet_life ext pf : wo_life (session_of ext pf start (wet_fit false)) = wo_life (session_of ext pf start wet_left).
Proof. apply (wet_same ext pf). Qed.
Lemma wet_convention ext pf : one_convention ext pf start 0 false (wet_fit false).
Proof.
  unfold wet_fit, wet_build, wet_data. cbn [map app].
  do 17 (split; [exact I|]). split; [intros _; reflexivity|]. split; [exact I|]. split; exact I.
Qed.
Lemma wet_session_ok ext pf : let w := session_of ext pf start (wet_fit false) in let m := oo_model (obj_at w 0) in let S := structure_of w m in
  let x := (Some 633, Some 30, Some 20, Some 150) in
  (0 < List.length (wo_objs w))%nat /\ one_convention ext pf start m (ds_flipped (data_of w 0)) (wet_fit false) /\
  holds (lf_heap (wo_life w)) (data_of w 0) [x] /\ ds_mask (data_of w 0) = MBool [true] /\ kept [true] [x] [x] /\ Forall2 Spec_objective.measured [x] [(633, 30)] /\
  slab_ends (st_data S) /\ Forall (fun c => c_default_interface c = true) (st_data S) /\ st_contract S <= 0 /\
  Forall2 (lit_structure S) [(633, 30)] [wet_stack] /\ Forall reflecting [wet_stack] /\
  Forall (fun x => forall y, p_delta x = Some y -> offset_of w m <= y <= offset_of w m + 360) [x].
Proof.
  intros w m S x. assert (O : obj_at w 0 = ObjObj 0 0 None true) by (unfold w, obj_at; rewrite wet_objs; reflexivity).
  assert (m = 0%nat) as Em by (unfold m; rewrite O; reflexivity). assert (S = wet) as ES by (unfold S; rewrite Em; apply wet_structure).
  assert (D : data_of w 0 = set_at (wo_life (session_of ext pf start wet_left)) 0) by (unfold data_of; rewrite O; unfold w; rewrite wet_life; reflexivity).
  assert (F : offset_of w m = 0) by (rewrite Em; apply wet_structure).
  rewrite D, F, ES, Em. split; [unfold w; rewrite wet_objs; cbn; lia|]. split; [exact (wet_convention ext pf)|].
  split; [unfold w; rewrite wet_life; repeat split|]. split; [reflexivity|]. split; [repeat constructor|].
  split; [repeat constructor|]. destruct wet_ok as (W1 & W2 & W3). split; [exact W1|]. split; [exact W2|]. split; [exact W3|].
  split; [constructor; [exact wet_lit_structure|constructor]|]. split; [constructor; [exact wet_reflecting|constructor]|].
  constructor; [|constructor]. intros y E. cbn in E. assert (y = 150) by congruence. subst. lra.
Qed.
Lemma wet_keeps : Forall keeps_lists (wet_fit false).
Proof. repeat constructor. Qed.
Lemma wet_parameters ext pf : let w := session_of ext pf start (wet_fit false) in
  parameters_now w 0 = [3; 0; 0; 0; 1; 0; 2; 0; 0; 0]%nat /\ varying_now w 0 = [1]%nat /\
  (forall p, In p (parameters_now w 0) -> (p < List.length (se_params (wo_session w)))%nat).
Proof.
  cbv zeta. destruct (params_same _ _ 0%nat (wet_same ext pf)) as [-> ->]. destruct (wet_same ext pf) as ((-> & _) & _).
  assert (P : parameters_now (session_of ext pf start wet_left) 0 = [3; 0; 0; 0; 1; 0; 2; 0; 0; 0]%nat) by reflexivity.
  split; [exact P|]. split; [reflexivity|]. rewrite P. intros p I. change (List.length (se_params (wo_session (session_of ext pf start wet_left)))) with 4%nat.
  cbn [In] in I. lia.
Qed.

(** ** two objectives that share a model: the one made last decides the convention *)
Definition two_sets : list world_statement :=
  wet_build ++ wet_data false ++ [W_data (L_new (L_arrays 0 1 2 3) tab true []); W_objective 0 0 None true; W_objective 0 1 None true].
Lemma wrong_convention ext pf : let w := session_of ext pf start two_sets in
  Forall keeps_lists two_sets /\ (0 < List.length (wo_objs w))%nat /\ mo_flip (model_at (wo_session w) (oo_model (obj_at w 0))) = true /\ ds_flipped (data_of w 0) = false.
Proof. cbv zeta. split; [repeat constructor|]. split; [exact (Nat.lt_0_succ 1)|]. split; reflexivity. Qed.

(** ** data of their own *)
Definition wet_assign : op := L_columns 0 [Ok [Some 600]; Ok [Some 40]; Ok [Some 21]; Ok [Some 100]].
Definition wet_later : list world_statement :=
  [W_objective 0 0 None true; W_data (L_write 3 0 (Some 0)); W_data (L_new (L_copy 0) tab false []); W_chisqr 0 (Some [1]); W_data (L_mask 1 (MBool [false]))].
Lemma wet_data_stay ext pf : let w := session_of ext pf start (wet_build ++ wet_data false) in let w1 := snd (perform ext pf w (W_data wet_assign)) in
  fst (perform ext pf w (W_data wet_assign)) = Ok tt /\ own_columns (wo_life w) 0 wet_assign /\ Forall (leaves_data 0) wet_later /\
  holds (lf_heap (wo_life w1)) (set_at (wo_life w1) 0) [(Some 600, Some 40, Some 21, Some 100)].
Proof.
  cbv zeta. split; [reflexivity|]. split; [reflexivity|]. split; [|repeat split].
  unfold wet_later. repeat (apply Forall_cons; [cbn [leaves_data about folding_copy]; try exact I; split; intros H; (discriminate H || contradiction)|]). apply Forall_nil.
Qed.
