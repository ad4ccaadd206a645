(** * Proofs about fitting sessions *)

Require Import Reals List Bool String Lia Arith Lra FunctionalExtensionality.
From Verif Require Import Base M_disp M_struct M_model M_data M_objective M_session M_life M_fit.
From Verif Require Import Spec_struct Spec_optics Spec_whole Spec_data Spec_objective Spec_session Spec_life Spec_fit.
From Verif Require Import P_struct P_objective P_objective2 P_session P_session2 P_data P_life P_life2 P_life3 P_whole.
Import ListNotations.
Open Scope list_scope.
Open Scope R_scope.

(** ** what the objects are now *)
Lemma the_model_now ext w m : the_model (system_now ext w) m =
  ModelT (mo_struct (model_at (wo_session w) m)) (mo_delta_offset (model_at (wo_session w) m)).
Proof. unfold the_model, system_now. cbn [sy_models]. apply (map_nth (fun m => ModelT (mo_struct m) (mo_delta_offset m)) _ no_model). Qed.
Lemma the_structure_now ext w a : the_structure (system_now ext w) a = struct_now (wo_session w) (struct_at (wo_session w) a).
Proof. unfold the_structure, system_now. cbn [sy_structures]. apply (map_nth (struct_now (wo_session w)) _ no_struct). Qed.
Lemma flip_now w m : nth m (st_flips (state_now w)) false = mo_flip (model_at (wo_session w) m).
Proof. unfold state_now. cbn [st_flips]. apply (map_nth mo_flip _ no_model). Qed.
Lemma value_now ext w : value (system_now ext w) (state_now w) = value_of (wo_session w).
Proof. reflexivity. Qed.
Lemma current_now ext w m : exists lam, current (system_now ext w) (state_now w) m = set_wavelength (structure_of w m) lam.
Proof.
  unfold current. rewrite the_model_now. cbn [mo_structure]. rewrite the_structure_now, value_now. eexists. reflexivity.
Qed.

(** ** worlds that differ in structure.wavelength only *)
Definition same_world (w w' : world) : Prop :=
  same_session (wo_session w) (wo_session w') /\ wo_life w = wo_life w' /\ wo_objs w = wo_objs w'.
Lemma world_refl w : same_world w w.
Proof. split; [apply same_session_refl|auto]. Qed.
Lemma world_sym w w' : same_world w w' -> same_world w' w.
Proof. intros (A & B & D). split; [apply same_sym; auto|auto]. Qed.
Lemma world_trans w1 w2 w3 : same_world w1 w2 -> same_world w2 w3 -> same_world w1 w3.
Proof. intros (A & B & D) (A' & B' & D'). split; [eapply same_trans; eauto|]. split; congruence. Qed.

Lemma struct_now_same s s' x x' : same_session s s' -> same_struct x x' -> struct_now s x = struct_now s' x'.
Proof.
  intros (E1 & E2 & E3 & E4 & E5) (S1 & S2 & S3 & S4 & S5 & S6 & S7). unfold struct_now. rewrite S1, S2, S3, S4, S5, S6, S7.
  unfold comp_now, comp_at, scat_at. rewrite E2, E3. reflexivity.
Qed.
Lemma system_same ext w w' : same_world w w' -> system_now ext w = system_now ext w'.
Proof.
  intros (S & L & _). pose proof S as (E1 & E2 & E3 & E4 & E5). unfold system_now, settings_of. rewrite E1, E4, L. f_equal.
  assert (G : forall l l', Forall2 same_struct l l' -> map (struct_now (wo_session w)) l = map (struct_now (wo_session w')) l').
  { intros l l' F. induction F; cbn; [auto|]. rewrite IHF. f_equal. apply struct_now_same; auto. }
  apply G. exact E5.
Qed.
Lemma objective_same w w' o : same_world w w' -> objective_now w o = objective_now w' o.
Proof. intros (_ & L & O). unfold objective_now, obj_at. rewrite L, O. reflexivity. Qed.
Lemma value_same w w' : same_world w w' -> value_of (wo_session w) = value_of (wo_session w').
Proof. intros ((E & _) & _). unfold value_of, settings_of, numbers. rewrite E. reflexivity. Qed.
Lemma results_same ext w w' o : same_world w w' ->
  fst (residuals (system_now ext w) (objective_now w o) None (state_now w)) = fst (residuals (system_now ext w') (objective_now w' o) None (state_now w')) /\
  fst (chisqr (system_now ext w) (objective_now w o) None (state_now w)) = fst (chisqr (system_now ext w') (objective_now w' o) None (state_now w')) /\
  fst (logl (system_now ext w) (objective_now w o) None (state_now w)) = fst (logl (system_now ext w') (objective_now w' o) None (state_now w')).
Proof.
  intros S. rewrite <- (system_same ext w w' S), <- (objective_same w w' o S).
  destruct (only_parameters (system_now ext w) (objective_now w o) (state_now w) (state_now w')) as (A & B & _ & D & _); [| |auto].
  - intros p _. rewrite value_now. rewrite (system_same ext w w' S), value_now, (value_same w w' S). reflexivity.
  - rewrite !flip_now. destruct S as ((_ & _ & _ & E & _) & _). unfold model_at. rewrite E. reflexivity.
Qed.

Lemma absorb_same w o st : same_world (absorb w o st) w.
Proof.
  split; [|auto]. unfold absorb. cbn [with_session wo_session]. set (a := mo_struct _). generalize (nth a (st_wavelengths st) None). intros lam.
  unfold edit. repeat split; cbn [se_structs with_structs]. generalize a. clear.
  induction (se_structs (wo_session w)); intros [|i]; cbn; constructor; auto using same_refl, same_refl2. repeat split.
Qed.
Lemma calling_same {A} w o (f : call A) : fst (calling w o f) = fst (f (state_now w)) /\ same_world (snd (calling w o f)) w.
Proof. unfold calling. destruct (f (state_now w)) as [r st]. cbn [fst snd]. split; [auto|apply absorb_same]. Qed.

Lemma with_same w w' s s' : same_world w w' -> same_session s s' -> same_world (with_session w s) (with_session w' s').
Proof. intros (_ & L & O) S. split; [exact S|auto]. Qed.
Lemma listed_same w w' m : same_session w w' -> listed w m = listed w' m.
Proof.
  intros (E1 & E2 & E3 & E4 & E5). unfold listed, model_at, listed_struct, struct_at, comp_at, scat_at. rewrite E4. f_equal.
  destruct (same_nth _ _ (mo_struct (nth m (se_models w') no_model)) E5) as (S1 & S2 & S3 & _). rewrite S1, S3, E2, E3. reflexivity.
Qed.
Lemma params_same w w' o : same_world w w' -> parameters_now w o = parameters_now w' o /\ varying_now w o = varying_now w' o.
Proof.
  intros (S & L & O). assert (P : parameters_now w o = parameters_now w' o).
  { unfold parameters_now, obj_at. rewrite O, (listed_same _ _ _ S). reflexivity. }
  split; [exact P|]. unfold varying_now. rewrite P. destruct S as (E & _). unfold settings_of. rewrite E. reflexivity.
Qed.
Lemma put_same s s' ps v : same_session s s' -> same_session (put_values s ps v) (put_values s' ps v).
Proof.
  unfold put_values. revert s s'. induction (combine ps v) as [|[p x] l IH]; intros s s' H; [exact H|]. cbn [fold_left fst snd]. apply IH.
  unfold put_value. apply (same_with_params s s' (fun q => update q p (fun r => (fst r, x)))). exact H.
Qed.
Lemma setp_same w w' o v : same_world w w' -> fst (w_setp w o v) = fst (w_setp w' o v) /\ same_world (snd (w_setp w o v)) (snd (w_setp w' o v)).
Proof.
  intros S. destruct (params_same w w' o S) as [P V]. unfold w_setp. destruct v as [v|]; [|split; auto]. rewrite P, V.
  destruct (Nat.eqb _ _); cbn [fst snd]; [split; auto; apply with_same; auto; apply put_same, S|].
  destruct (Nat.eqb _ _); cbn [fst snd]; [split; auto; apply with_same; auto; apply put_same, S|]. split; auto.
Qed.

(** ** a call has the effect of setting the parameters *)
Definition harmless {A} (w : world) (r : result A * world) : Prop := same_world (snd r) w.
Lemma setting_effect {A} w o v (f : world -> result A * world) : (forall w, harmless w (f w)) ->
  same_world (snd (setting w o v f)) (snd (w_setp w o v)).
Proof.
  intros H. unfold setting. destruct (w_setp w o v) as [[u|e] w']; cbn [snd]; [apply H|apply world_refl].
Qed.
Lemma setting_result {A} w w' o v (f f' : world -> result A * world) : same_world w w' ->
  (forall w w', same_world w w' -> fst (f w) = fst (f' w')) -> fst (setting w o v f) = fst (setting w' o v f').
Proof.
  intros S H. destruct (setp_same w w' o v S) as [E E']. unfold setting.
  destruct (w_setp w o v) as [[u|e] w1], (w_setp w' o v) as [[u'|e'] w1']; cbn [fst snd] in *; try discriminate; auto. congruence.
Qed.
Lemma residuals_effect ext w o v : same_world (snd (w_residuals ext w o v)) (snd (w_setp w o v)).
Proof. apply setting_effect. intros w0. apply calling_same. Qed.
Lemma chisqr_effect ext w o v : same_world (snd (w_chisqr ext w o v)) (snd (w_setp w o v)).
Proof. apply setting_effect. intros w0. apply calling_same. Qed.
Lemma logl_effect ext w o v : same_world (snd (w_logl ext w o v)) (snd (w_setp w o v)).
Proof. apply setting_effect. intros w0. apply calling_same. Qed.
Lemma logp_effect w o v : same_world (snd (w_logp w o v)) (snd (w_setp w o v)).
Proof. apply setting_effect. intros w0. apply world_refl. Qed.
Lemma logpost_effect ext w o v : same_world (snd (w_logpost ext w o v)) (snd (w_setp w o v)).
Proof.
  apply setting_effect. intros w0. unfold harmless. unfold w_logp, setting at 1. cbn [w_setp].
  destruct (nsum _) as [x|]; [|apply world_refl]. pose proof (logl_effect ext w0 o None) as L. destruct (w_logl ext w0 o None) as [r w1]. exact L.
Qed.

Lemma residuals_result ext w w' o v : same_world w w' -> fst (w_residuals ext w o v) = fst (w_residuals ext w' o v).
Proof. intros S. apply setting_result; auto. intros a b T. rewrite !(proj1 (calling_same _ _ _)). apply results_same. exact T. Qed.
Lemma chisqr_result ext w w' o v : same_world w w' -> fst (w_chisqr ext w o v) = fst (w_chisqr ext w' o v).
Proof. intros S. apply setting_result; auto. intros a b T. rewrite !(proj1 (calling_same _ _ _)). apply results_same. exact T. Qed.
Lemma logl_result ext w w' o v : same_world w w' -> fst (w_logl ext w o v) = fst (w_logl ext w' o v).
Proof. intros S. apply setting_result; auto. intros a b T. rewrite !(proj1 (calling_same _ _ _)). apply results_same. exact T. Qed.
Lemma logp_result w w' o v : same_world w w' -> fst (w_logp w o v) = fst (w_logp w' o v).
Proof.
  intros S. apply setting_result; auto. intros a b T. cbn [fst]. destruct (params_same a b o T) as [_ V]. rewrite V, (value_same a b T).
  destruct T as ((E & _) & _). unfold settings_of. rewrite E. reflexivity.
Qed.
Lemma logpost_result ext w w' o v : same_world w w' -> fst (w_logpost ext w o v) = fst (w_logpost ext w' o v).
Proof.
  intros S. apply setting_result; auto. intros a b T. pose proof (logp_result a b o None T) as P. pose proof (logp_effect a o None) as E1. pose proof (logp_effect b o None) as E2.
  cbn [w_setp snd] in E1, E2.
  destruct (w_logp a o None) as [[[x|]|e] a'], (w_logp b o None) as [[[y|]|e'] b']; cbn [fst snd] in *; try discriminate; auto.
  assert (x = y) by congruence. subst y.
  assert (T' : same_world a' b') by (eapply world_trans; [exact E1|]; eapply world_trans; [exact T|]; apply world_sym; exact E2).
  pose proof (logl_result ext a' b' o None T') as L. destruct (w_logl ext a' o None), (w_logl ext b' o None). cbn [fst] in *. congruence.
Qed.

Lemma exists_same w w' : same_world w w' -> (forall m, exists_model w m = exists_model w' m) /\ (forall d, exists_set w d = exists_set w' d) /\ forall o, exists_obj w o = exists_obj w' o.
Proof. intros ((_ & _ & _ & E & _) & L & O). unfold exists_model, exists_set, exists_obj. rewrite E, L, O. auto. Qed.

Lemma drop_snd {A} (r : result A * world) : snd (drop r) = snd r. Proof. reflexivity. Qed.
Lemma perform_same ext pf w w' x : same_world w w' -> same_world (snd (perform ext pf w x)) (snd (perform ext pf w' x)).
Proof.
  intros S. destruct (exists_same w w' S) as (X1 & X2 & X3). pose proof S as (T & L & O).
  assert (OO : forall f, same_world (with_objs w (f (wo_objs w))) (with_objs w' (f (wo_objs w')))) by (intros f; split; [exact T|]; split; [exact L|cbn; rewrite O; reflexivity]).
  destruct x; cbn [perform]; unfold on_obj; rewrite ?X1, ?X2, ?X3.
  - pose proof (same_execute ext _ _ x T) as [_ E]. destruct (execute ext (wo_session w) x), (execute ext (wo_session w') x). cbn [snd] in *. apply with_same; auto.
  - rewrite L. destruct (act pf (wo_life w') x) as [r l]. cbn [snd]. split; [exact T|]. split; [reflexivity|exact O].
  - destruct (_ && _); cbn [snd]; [|exact S]. pose proof (same_execute ext _ _ (Set_flip m (ds_flipped (set_at (wo_life w) d))) T) as [_ E].
    rewrite L in E at 2. split; [exact E|]. cbn. rewrite L, O. auto.
  - destruct (exists_obj w' o); [|exact S]. destruct (exists_model w' m); [|exact S]. apply (OO (fun l => update l o _)).
  - destruct (exists_obj w' o); [|exact S]. destruct (exists_set w' d); [|exact S]. apply (OO (fun l => update l o _)).
  - destruct (exists_obj w' o); [|exact S]. apply (OO (fun l => update l o _)).
  - destruct (exists_obj w' o); [|exact S]. apply (OO (fun l => update l o _)).
  - destruct (exists_obj w' o); [|exact S]. apply setp_same; auto.
  - destruct (exists_obj w' o); [|exact S]. rewrite !drop_snd. eapply world_trans; [apply residuals_effect|]. eapply world_trans; [apply (setp_same w w'); auto|]. apply world_sym, residuals_effect.
  - destruct (exists_obj w' o); [|exact S]. rewrite !drop_snd. eapply world_trans; [apply chisqr_effect|]. eapply world_trans; [apply (setp_same w w'); auto|]. apply world_sym, chisqr_effect.
  - destruct (exists_obj w' o); [|exact S]. rewrite !drop_snd. eapply world_trans; [apply logp_effect|]. eapply world_trans; [apply (setp_same w w'); auto|]. apply world_sym, logp_effect.
  - destruct (exists_obj w' o); [|exact S]. rewrite !drop_snd. eapply world_trans; [apply logl_effect|]. eapply world_trans; [apply (setp_same w w'); auto|]. apply world_sym, logl_effect.
  - destruct (exists_obj w' o); [|exact S]. rewrite !drop_snd. eapply world_trans; [apply logpost_effect|]. eapply world_trans; [apply (setp_same w w'); auto|]. apply world_sym, logpost_effect.
Qed.
Lemma effect_same ext pf w x : same_world (snd (perform ext pf w x)) (session_of ext pf w (effect x)).
Proof.
  destruct x; try apply world_refl; cbn [effect].
  - destruct x; try apply world_refl. cbn [session_of fold_left perform]. pose proof (evaluate_same ext (wo_session w) m X) as E.
    destruct (execute ext (wo_session w) (Evaluate m X)) as [r s]. cbn [snd] in *. split; [exact E|auto].
  - destruct x; try apply world_refl. cbn [session_of fold_left perform act]. unfold on_set.
    destruct (nth_error (lf_sets (wo_life w)) d) as [e|] eqn:E; cbn [snd]; [|split; [apply same_session_refl|auto]].
    split; [apply same_session_refl|]. cbn. split; [|auto]. rewrite update_id; [destruct (wo_life w); reflexivity|].
    intros y Y. assert (y = e) by congruence. subst y. destruct e. reflexivity.
  - cbn [session_of fold_left perform]. unfold on_obj. destruct (exists_obj w o); [|apply world_refl]. apply residuals_effect.
  - cbn [session_of fold_left perform]. unfold on_obj. destruct (exists_obj w o); [|apply world_refl]. apply chisqr_effect.
  - cbn [session_of fold_left perform]. unfold on_obj. destruct (exists_obj w o); [|apply world_refl]. apply logp_effect.
  - cbn [session_of fold_left perform]. unfold on_obj. destruct (exists_obj w o); [|apply world_refl]. apply logl_effect.
  - cbn [session_of fold_left perform]. unfold on_obj. destruct (exists_obj w o); [|apply world_refl]. apply logpost_effect.
Qed.
Lemma session_app ext pf w l l' : session_of ext pf w (l ++ l') = session_of ext pf (session_of ext pf w l) l'.
Proof. apply fold_left_app. Qed.
Lemma session_same ext pf l : forall w w', same_world w w' -> same_world (session_of ext pf w l) (session_of ext pf w' l).
Proof. induction l as [|x l IH]; intros w w' S; [exact S|]. apply IH. apply perform_same. exact S. Qed.
Lemma effects_same ext pf l : forall w, same_world (session_of ext pf w l) (session_of ext pf w (flat_map effect l)).
Proof.
  induction l as [|x l IH]; intros w; [apply world_refl|]. cbn [flat_map]. rewrite session_app.
  change (session_of ext pf w (x :: l)) with (session_of ext pf (snd (perform ext pf w x)) l).
  eapply world_trans; [apply session_same, effect_same|]. apply IH.
Qed.

Theorem calls_leave_no_trace ext pf l o v : let w := session_of ext pf start l in let w' := session_of ext pf start (flat_map effect l) in
  fst (w_residuals ext w o v) = fst (w_residuals ext w' o v) /\ fst (w_chisqr ext w o v) = fst (w_chisqr ext w' o v) /\
  fst (w_logp w o v) = fst (w_logp w' o v) /\ fst (w_logl ext w o v) = fst (w_logl ext w' o v) /\
  fst (w_logpost ext w o v) = fst (w_logpost ext w' o v).
Proof.
  intros w w'. assert (S : same_world w w') by apply effects_same.
  split; [apply residuals_result; auto|]. split; [apply chisqr_result; auto|]. split; [apply logp_result; auto|].
  split; [apply logl_result; auto|apply logpost_result; auto].
Qed.
