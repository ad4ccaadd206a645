(** * Sessions with every call that looks at the objects: calls that leave no trace, and the theory *)

Require Import Reals List Bool String ZArith Lia Arith Lra FunctionalExtensionality.
From Verif Require Import Base M_disp M_struct M_model M_data M_objective M_session M_life M_fit M_plot M_covar M_views.
From Verif Require Import Spec_struct Spec_optics Spec_whole Spec_data Spec_objective Spec_session Spec_life Spec_fit Spec_views.
From Verif Require Import P_struct P_objective P_objective2 P_session P_session2 P_data P_life P_life2 P_life3 P_whole P_fit P_fit2 P_fit3 P_fit4 P_views.
Import ListNotations.
Open Scope list_scope.
Open Scope R_scope.

(** ** parameters that vary have no constraint *)
Definition sound (q : param * R) : Prop := p_vary (fst q) = true -> p_constraint (fst q) = None.
Definition sound_world (w : world) : Prop := Forall sound (se_params (wo_session w)).
Lemma sound_proper w : sound_world w -> proper_session (wo_session w).
Proof.
  intros F p. unfold settings_of. destruct (Nat.lt_ge_cases p (List.length (se_params (wo_session w)))) as [B|B].
  - unfold sound_world in F. rewrite Forall_forall in F. apply F. apply nth_In. exact B.
  - rewrite nth_overflow by exact B. discriminate.
Qed.
Lemma sound_update l i f : Forall sound l -> (forall q, sound q -> sound (f q)) -> Forall sound (update l i f).
Proof. intros F H. revert i. induction F; intros [|i]; cbn; constructor; auto. Qed.
Lemma sound_put s p x : Forall sound (se_params s) -> Forall sound (se_params (put_value s p x)).
Proof. intros F. apply sound_update; auto. Qed.
Lemma sound_puts s ps v : Forall sound (se_params s) -> Forall sound (se_params (put_values s ps v)).
Proof. unfold put_values. revert s. induction (combine ps v) as [|[p x] l IH]; intros s F; [exact F|]. cbn [fold_left]. apply IH, sound_put, F. Qed.
Lemma sound_same w w' : same_world w w' -> sound_world w' -> sound_world w.
Proof. intros ((E & _) & _) F. unfold sound_world. rewrite E. exact F. Qed.
Lemma sound_setp w o v : sound_world w -> sound_world (snd (w_setp w o v)).
Proof.
  intros F. unfold w_setp. destruct v as [v|]; [|exact F]. destruct (Nat.eqb _ _); [apply sound_puts, F|]. destruct (Nat.eqb _ _); [apply sound_puts, F|exact F].
Qed.
Lemma sound_pvals w ps v : sound_world w -> sound_world (snd (w_pvals w ps v)).
Proof. intros F. unfold w_pvals. destruct (Nat.eqb _ _); [apply sound_puts, F|]. destruct (Nat.eqb _ _); [apply sound_puts, F|exact F]. Qed.
Lemma sound_pvals_opt w ps v : sound_world w -> sound_world (snd (w_pvals_opt w ps v)).
Proof. destruct v; [apply sound_pvals|auto]. Qed.
Lemma sound_execute ext s x : Forall sound (se_params s) -> proper (V_do (W_session x)) -> Forall sound (se_params (snd (execute ext s x))).
Proof.
  intros F P.
  assert (SL : forall k, Forall sound (se_params (slab_of k s))).
  { intros k. unfold slab_of, new_comp. cbn [with_comps se_params with_params]. apply Forall_app. split; [exact F|]. repeat constructor; discriminate. }
  destruct x; cbn [execute proper] in *; try exact F.
  - cbn [snd with_params se_params]. apply Forall_app. split; [exact F|]. constructor; [exact P|constructor].
  - destruct attrs_exist; exact F.
  - destruct (_ && _); [|exact F]. destruct solvent_arg; exact F.
  - destruct exists_object; [|exact F]. destruct s0; exact F.
  - apply sound_update; auto.
  - apply sound_update; auto.
  - destruct exists_object; [|exact F]. destruct o; try exact F. apply SL.
  - destruct exists_object; [|exact F]. destruct o; try exact F. apply SL.
  - destruct forallb; exact F.
  - destruct (match o with Some o => exists_object s o | None => true end); [|exact F]. destruct solvent_arg; exact F.
  - destruct v; try exact F. destruct Rle_dec; [destruct Rle_dec|]; exact F.
  - destruct exists_object; [|exact F]. destruct o; exact F.
  - destruct (evaluation ext s m X). exact F.
  - destruct attrs_exist; exact F.
Qed.
Lemma sound_perform ext pf w x : sound_world w -> proper (V_do x) -> sound_world (snd (perform ext pf w x)).
Proof.
  intros F P. assert (K : forall w' o v, same_world w' (snd (w_setp w o v)) -> sound_world w') by (intros w' o v T; eapply sound_same; [exact T|apply sound_setp, F]).
  destruct x; cbn [perform]; unfold on_obj.
  - pose proof (sound_execute ext (wo_session w) x F P) as E. destruct (execute ext (wo_session w) x). exact E.
  - destruct (act pf (wo_life w) x). exact F.
  - destruct (_ && _); [|exact F]. exact F.
  - destruct (exists_obj w o); [|exact F]. destruct (exists_model w m); exact F.
  - destruct (exists_obj w o); [|exact F]. destruct (exists_set w d); exact F.
  - destruct (exists_obj w o); exact F.
  - destruct (exists_obj w o); exact F.
  - destruct (exists_obj w o); [|exact F]. apply sound_setp, F.
  - destruct (exists_obj w o); [|exact F]. rewrite drop_snd. apply (K _ o v), residuals_effect.
  - destruct (exists_obj w o); [|exact F]. rewrite drop_snd. apply (K _ o v), chisqr_effect.
  - destruct (exists_obj w o); [|exact F]. rewrite drop_snd. apply (K _ o v), logp_effect.
  - destruct (exists_obj w o); [|exact F]. rewrite drop_snd. apply (K _ o v), logl_effect.
  - destruct (exists_obj w o); [|exact F]. rewrite drop_snd. apply (K _ o v), logpost_effect.
Qed.
Lemma show_sound ext w a ws r : sound_world w -> sound_world (snd (show_structure ext w a ws r)).
Proof. intros F. eapply sound_same; [apply show_effect|]. exact F. Qed.
Lemma sound_all ext pf w x : sound_world w -> proper x -> sound_world (snd (perform_all ext pf w x)).
Proof.
  intros F P. unfold perform_all. destruct (exists_all w x); [|exact F]. destruct x; rewrite ?drop_snd.
  - apply sound_perform; auto.
  - eapply sound_same; [apply model_effect|]. apply sound_pvals_opt, F.
  - eapply sound_same; [apply plot_harmless|exact F].
  - eapply sound_same; [apply ellips_harmless|exact F].
  - unfold w_view. destruct o as [o|], a as [a|]; try exact F; [|apply show_sound, F]. destruct (wavelengths_of _ _); [apply show_sound, F|exact F].
  - eapply sound_same; [apply draw_effect, P|]. apply sound_pvals_opt, F.
  - eapply sound_same; [apply covar_harmless; [apply sound_proper, F|exact P]|exact F].
Qed.

(** ** worlds that differ in wavelengths go on differing in wavelengths only *)
Lemma exists_all_same w w' x : same_world w w' -> exists_all w x = exists_all w' x.
Proof.
  intros S. destruct (exists_same w w' S) as (X1 & X2 & X3). destruct S as ((_ & _ & _ & _ & E) & _).
  assert (X4 : forall a, exists_struct (wo_session w) a = exists_struct (wo_session w') a) by (intros a; unfold exists_struct; rewrite (F2_length _ _ _ E); reflexivity).
  destruct x; cbn [exists_all]; rewrite ?X1, ?X2, ?X3, ?X4; auto.
  - destruct d, m, o; rewrite ?X1, ?X2, ?X3; reflexivity.
  - destruct o, a; rewrite ?X3, ?X4; reflexivity.
Qed.
Lemma all_same ext pf w w' x : same_world w w' -> sound_world w' -> proper x -> same_world (snd (perform_all ext pf w x)) (snd (perform_all ext pf w' x)).
Proof.
  intros S F P. unfold perform_all. rewrite (exists_all_same w w' x S). destruct (exists_all w' x); [|exact S].
  assert (K : forall a b, same_world a w -> same_world b w' -> same_world a b).
  { intros a b A B. eapply world_trans; [exact A|]. eapply world_trans; [exact S|]. apply world_sym, B. }
  destruct x; rewrite ?drop_snd.
  - apply perform_same, S.
  - eapply world_trans; [apply model_effect|]. eapply world_trans; [|apply world_sym, model_effect]. rewrite (listed_same _ _ m (proj1 S)). apply pvals_opt_same, S.
  - apply K; apply plot_harmless.
  - apply K; apply ellips_harmless.
  - apply view_same, S.
  - eapply world_trans; [apply draw_effect, P|]. eapply world_trans; [|apply world_sym, draw_effect, P]. rewrite (listed_struct_same _ _ a (proj1 S)). apply pvals_opt_same, S.
  - apply K; apply covar_harmless; auto; apply sound_proper; auto. eapply sound_same; eauto.
Qed.
Lemma looking_same ext pf w x : sound_world w -> proper x -> looks x = true -> same_world (snd (perform_all ext pf w x)) w.
Proof.
  intros F P K. unfold perform_all. destruct (exists_all w x); [|apply world_refl].
  destruct x; cbn [looks] in K; try discriminate; rewrite ?drop_snd.
  - pose proof (effect_same ext pf w x) as E.
    assert (G : forall o, w_setp w o None = (Ok tt, w)) by reflexivity.
    destruct x; try discriminate K; try (destruct v; [discriminate K|]; cbn [effect session_of fold_left perform] in E; unfold on_obj in E; rewrite G in E;
      eapply world_trans; [exact E|]; destruct (exists_obj w o); apply world_refl).
    + destruct x; try discriminate K. exact E.
    + destruct x; try discriminate K. exact E.
  - destruct p; [discriminate K|]. apply model_effect.
  - apply plot_harmless.
  - apply ellips_harmless.
  - destruct pvals; [discriminate K|]. apply draw_effect. exact P.
  - apply covar_harmless; auto. apply sound_proper, F.
Qed.
Lemma unlooked_same ext pf l : Forall proper l -> forall w w', same_world w w' -> sound_world w' ->
  same_world (full_session ext pf w l) (full_session ext pf w' (filter (fun x => negb (looks x)) l)).
Proof.
  induction 1 as [|x l P F IH]; intros w w' S N; [exact S|]. cbn [full_session fold_left filter].
  destruct (looks x) eqn:K; cbn [negb].
  - apply IH; [|exact N]. eapply world_trans; [apply looking_same; auto; eapply sound_same; eauto|exact S].
  - cbn [fold_left]. apply IH; [apply all_same; auto|apply sound_all; auto].
Qed.
Lemma answers_same ext w w' : same_world w w' -> same_answers ext w w'.
Proof.
  intros S o v. split; [apply residuals_result; auto|]. split; [apply chisqr_result; auto|]. split; [apply logp_result; auto|].
  split; [apply logl_result; auto|apply logpost_result; auto].
Qed.
Lemma sound_start : sound_world start. Proof. constructor. Qed.
Theorem looking_leaves_no_trace ext pf l : Forall proper l ->
  same_answers ext (full_session ext pf start l) (full_session ext pf start (filter (fun x => negb (looks x)) l)).
Proof. intros F. apply answers_same. apply unlooked_same; auto using world_refl, sound_start. Qed.

(** ** the convention and the theory, after any such session *)
Definition rest_kept (w w' : world) : Prop :=
  (se_models (wo_session w') = se_models (wo_session w) /\ se_scats (wo_session w') = se_scats (wo_session w) /\ se_comps (wo_session w') = se_comps (wo_session w)) /\
  wo_life w' = wo_life w /\ wo_objs w' = wo_objs w.
Lemma rest_refl w : rest_kept w w. Proof. repeat split. Qed.
Lemma rest_trans w w' w'' : rest_kept w w' -> rest_kept w' w'' -> rest_kept w w''.
Proof. intros ((A & A1 & A2) & B & C) ((A' & A1' & A2') & B' & C'). repeat split; congruence. Qed.
Lemma rest_same w w' : same_world w' w -> rest_kept w w'.
Proof. intros ((_ & E2 & E3 & E4 & _) & L & O). repeat split; auto. Qed.
Lemma rest_put w ps v : rest_kept w (with_session w (put_values (wo_session w) ps v)).
Proof. rewrite put_shape. repeat split. Qed.
Lemma rest_pvals w ps v : rest_kept w (snd (w_pvals w ps v)).
Proof.
  unfold w_pvals. destruct (Nat.eqb _ _); [apply rest_put|]. destruct (Nat.eqb _ _); [apply rest_put|]. apply rest_refl.
Qed.
Lemma rest_pvals_opt w ps v : rest_kept w (snd (w_pvals_opt w ps v)).
Proof. destruct v; [apply rest_pvals|apply rest_refl]. Qed.
Lemma rest_samples ext a align ps chain : forall w, rest_kept w (snd (w_samples ext w a align ps chain)).
Proof.
  induction chain as [|v chain IH]; intros w; [apply rest_refl|]. cbn [w_samples]. pose proof (rest_pvals w ps v) as Rp.
  destruct (w_pvals w ps v) as [[u|e] w1]; cbn [snd] in *; [|exact Rp]. destruct (w_profile ext w1 a align) as [c|e]; [|exact Rp].
  specialize (IH w1). destruct (w_samples ext w1 a align ps chain) as [r w2]. cbn [snd] in *. eapply rest_trans; eauto.
Qed.
Lemma rest_draw ext w a pvals samples chain align : rest_kept w (snd (w_draw ext w a pvals samples chain align)).
Proof.
  unfold w_draw. set (ps := listed_struct _ _). pose proof (rest_pvals_opt w ps pvals) as R1. destruct (w_pvals_opt w ps pvals) as [[u|e] w1]; cbn [snd] in *; [|exact R1].
  destruct (0 <? samples)%Z; [|exact R1]. destruct chain as [vs|e]; [|exact R1]. pose proof (rest_samples ext a align ps vs w1) as R2.
  destruct (w_samples ext w1 a align ps vs) as [[cs|e] w2]; cbn [snd] in *; [|eapply rest_trans; eauto].
  pose proof (rest_pvals w2 ps (map (value_of (wo_session w1)) ps)) as R3. destruct (w_pvals w2 ps _) as [[u'|e] w3]; cbn [snd] in *; eapply rest_trans; eauto; eapply rest_trans; eauto.
Qed.
Lemma rest_setp w o v : rest_kept w (snd (w_setp w o v)).
Proof. unfold w_setp. destruct v as [v|]; [|apply rest_refl]. destruct (Nat.eqb _ _); [apply rest_put|]. destruct (Nat.eqb _ _); [apply rest_put|]. apply rest_refl. Qed.
Lemma rest_residuals ext w o v : rest_kept w (snd (w_residuals ext w o v)).
Proof. eapply rest_trans; [apply rest_setp|apply rest_same, residuals_effect]. Qed.
Lemma rest_diff f d : (forall w v, rest_kept w (snd (f w v))) -> forall w, rest_kept w (snd (w_diff f d w)).
Proof.
  intros F. induction d as [v k IH|jac|e]; intros w; cbn [w_diff snd]; try apply rest_refl.
  specialize (F w v). destruct (f w v) as [r w1]. cbn [snd] in F. eapply rest_trans; [exact F|]. apply IH.
Qed.
Lemma rest_covar ext w o a1 a2 svd : rest_kept w (snd (w_covar ext w o a1 a2 svd)).
Proof.
  unfold w_covar. set (pvals := map _ _).
  assert (J : rest_kept w (snd (w_jacobian ext w o pvals a1 a2))).
  { unfold w_jacobian.
    assert (A : rest_kept w (snd (if existsb (fun x => if Req_EM_T x 0 then true else false) pvals then (Raise FloatingPointError, w)
       else w_diff (fun w vals => w_residuals ext w o (Some (map2 Rmult pvals vals))) (a1 (map (fun _ => 1) pvals)) w))).
    { destruct (existsb _ _); [apply rest_refl|]. apply rest_diff. intros. apply rest_residuals. }
    destruct (if existsb _ _ then _ else _) as [[j|e] w1]; cbn [snd] in A; [exact A|]. destruct e; try exact A.
    pose proof (rest_diff (fun w vals => w_residuals ext w o (Some vals)) (a2 pvals) ltac:(intros; apply rest_residuals) w1) as B.
    destruct (w_diff _ (a2 pvals) w1) as [r w2]. cbn [snd] in *. eapply rest_trans; eauto. }
  destruct (w_jacobian ext w o pvals a1 a2) as [[jac used] w1]. cbn [snd] in J. pose proof (rest_trans _ _ _ J (rest_setp w1 o (Some pvals))) as B.
  destruct (w_setp w1 o (Some pvals)) as [[u|e] w2]; cbn [snd] in *; [|exact B].
  destruct (rbind _ _) as [[j cov]|e]; [|exact B]. destruct (weighted _); [exact B|].
  pose proof (rest_same w2 _ (chisqr_effect ext w2 o None)) as Q. destruct (w_chisqr ext w2 o None) as [[c2|e] w3]; cbn [snd] in *; [|eapply rest_trans; eauto].
  destruct (obind _ _); cbn [snd]; eapply rest_trans; eauto.
Qed.
Lemma rest_show ext w a ws r : rest_kept w (snd (show_structure ext w a ws r)).
Proof. eapply rest_trans; [|apply rest_same, show_effect]. repeat split. Qed.
Lemma rest_views ext pf w x : (match x with V_do _ => False | _ => True end) -> rest_kept w (snd (perform_all ext pf w x)).
Proof.
  intros N. unfold perform_all. destruct (exists_all w x); [|apply rest_refl]. destruct x; try contradiction; rewrite ?drop_snd.
  - eapply rest_trans; [apply (rest_pvals_opt w (listed (wo_session w) m) p)|]. apply rest_same, model_effect.
  - apply rest_same, plot_harmless.
  - apply rest_same, ellips_harmless.
  - unfold w_view. destruct o as [o|], a as [a|]; try apply rest_refl; [|apply rest_show]. destruct (wavelengths_of _ _); [apply rest_show|apply rest_refl].
  - apply rest_draw.
  - apply rest_covar.
Qed.
Lemma flagged_rest w w' m b : rest_kept w w' -> flagged w m b -> flagged w' m b.
Proof.
  intros ((A & _) & B & D) F (ob & I & E). unfold flagged, models_of, flip_of, model_at in *. rewrite A. apply F. exists ob. rewrite <- D. auto.
Qed.
Lemma convention_all ext pf m b l : forall w, one_convention_all ext pf w m b l -> flagged w m b -> flagged (full_session ext pf w l) m b.
Proof.
  induction l as [|x l IH]; intros w C0 F; [exact F|]. destruct C0 as [C C']. cbn [full_session fold_left]. apply IH; [exact C'|].
  destruct x; try (apply (flagged_rest w); [apply rest_views; exact I|exact F]).
  unfold perform_all. cbn [exists_all]. apply (convention_step ext pf w x m b []); [|exact F]. split; [|exact I].
  destruct x; auto.
Qed.
Theorem right_convention_all ext pf l o : let w := full_session ext pf start l in (o < List.length (wo_objs w))%nat ->
  one_convention_all ext pf start (oo_model (obj_at w o)) (ds_flipped (data_of w o)) l -> mo_flip (model_at (wo_session w) (oo_model (obj_at w o))) = ds_flipped (data_of w o).
Proof.
  intros w Ho C. apply (convention_all ext pf _ _ l start C); [intros (ob & [] & _)|]. exists (obj_at w o). split; [|reflexivity]. apply nth_In. exact Ho.
Qed.
