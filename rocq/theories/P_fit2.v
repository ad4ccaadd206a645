(** * Fitting sessions: the convention of delta, what the residuals are, data that stay *)

Require Import Reals List Bool String ZArith Lia Arith Lra FunctionalExtensionality.
From Verif Require Import Base M_disp M_struct M_model M_data M_objective M_session M_life M_fit.
From Verif Require Import Spec_struct Spec_optics Spec_whole Spec_data Spec_objective Spec_session Spec_life Spec_fit.
From Verif Require Import P_struct P_objective P_objective2 P_session P_session2 P_data P_life P_life2 P_life3 P_whole P_fit.
Import ListNotations.
Open Scope list_scope.
Open Scope R_scope.

(** ** the convention *)
Definition flip_of (w : world) (m : nat) : bool := mo_flip (model_at (wo_session w) m).
Definition models_of (w : world) : nat := List.length (se_models (wo_session w)).

Lemma execute_flip ext w x m : (match x with Set_flip _ _ => False | _ => True end) -> (m < List.length (se_models w))%nat ->
  mo_flip (model_at (snd (execute ext w x)) m) = mo_flip (model_at w m) /\ (List.length (se_models w) <= List.length (se_models (snd (execute ext w x))))%nat.
Proof.
  intros N Hm.
  assert (U : forall k f, (forall y, mo_flip (f y) = mo_flip y) ->
    mo_flip (nth m (update (se_models w) k f) no_model) = mo_flip (nth m (se_models w) no_model) /\ (List.length (se_models w) <= List.length (update (se_models w) k f))%nat).
  { intros k f F. rewrite update_len. split; [|auto]. rewrite nth_update by auto. destruct (Nat.eqb m k); auto. }
  unfold model_at. destruct x; cbn [execute]; try (split; reflexivity); try contradiction.
  - destruct attrs_exist; split; reflexivity.
  - destruct (_ && _); [|split; reflexivity]. destruct solvent_arg; split; reflexivity.
  - destruct exists_object; [|split; reflexivity]. destruct s; try (split; reflexivity). cbn [snd with_models se_models]. rewrite app_length, app_nth1 by auto. split; [auto|lia].
  - destruct exists_object; [|split; reflexivity]. destruct o; split; reflexivity.
  - destruct exists_object; [|split; reflexivity]. destruct o; split; reflexivity.
  - destruct forallb; split; reflexivity.
  - destruct (match o with Some o => exists_object w o | None => true end); [|split; reflexivity]. destruct solvent_arg; split; reflexivity.
  - destruct v; try (split; reflexivity). destruct Rle_dec; [destruct Rle_dec|]; split; reflexivity.
  - destruct exists_object; [|split; reflexivity]. destruct o; try (split; reflexivity). cbn [snd with_models se_models]. apply U. auto.
  - cbn [snd with_models se_models]. apply U. auto.
  - destruct (evaluation ext w m0 X). split; reflexivity.
  - destruct attrs_exist; split; reflexivity.
Qed.
Lemma put_models s ps v : se_models (put_values s ps v) = se_models s.
Proof. unfold put_values. revert s. induction (combine ps v) as [|[p x] l IH]; intros s; [auto|]. cbn [fold_left]. rewrite IH. reflexivity. Qed.
Lemma setp_keeps w o v : se_models (wo_session (snd (w_setp w o v))) = se_models (wo_session w) /\ wo_life (snd (w_setp w o v)) = wo_life w /\ wo_objs (snd (w_setp w o v)) = wo_objs w.
Proof.
  unfold w_setp. destruct v as [v|]; [|auto]. destruct (Nat.eqb _ _); [cbn; rewrite put_models; auto|]. destruct (Nat.eqb _ _); [cbn; rewrite put_models; auto|]. auto.
Qed.
Lemma call_keeps w w' o v : same_world w' (snd (w_setp w o v)) -> se_models (wo_session w') = se_models (wo_session w) /\ wo_life w' = wo_life w /\ wo_objs w' = wo_objs w.
Proof. intros ((_ & _ & _ & E & _) & L & O). destruct (setp_keeps w o v) as (A & B & D). rewrite E, L, O. auto. Qed.
(** calls leave models, data and objectives alone *)
Lemma calls_keep ext pf w x : (match x with W_setp _ _ | W_residuals _ _ | W_chisqr _ _ | W_logp _ _ | W_logl _ _ | W_logpost _ _ => True | _ => False end) ->
  let w' := snd (perform ext pf w x) in se_models (wo_session w') = se_models (wo_session w) /\ wo_life w' = wo_life w /\ wo_objs w' = wo_objs w.
Proof.
  destruct x; try contradiction; intros _; cbn [perform]; unfold on_obj; destruct (exists_obj w o); auto; rewrite ?drop_snd.
  - apply setp_keeps.
  - apply (call_keeps w _ o v), residuals_effect.
  - apply (call_keeps w _ o v), chisqr_effect.
  - apply (call_keeps w _ o v), logp_effect.
  - apply (call_keeps w _ o v), logl_effect.
  - apply (call_keeps w _ o v), logpost_effect.
Qed.

Definition flagged (w : world) (m : nat) (b : bool) : Prop :=
  (exists ob, In ob (wo_objs w) /\ oo_model ob = m) -> (m < models_of w)%nat /\ flip_of w m = b.
Lemma in_update_model (l : list obj_obj) i f m : (forall y, oo_model (f y) = oo_model y) ->
  (exists ob, In ob (update l i f) /\ oo_model ob = m) -> exists ob, In ob l /\ oo_model ob = m.
Proof.
  intros F. revert i. induction l as [|x l IH]; intros [|i]; cbn; intros (ob & I & E); auto; try contradiction.
  - destruct I as [<-|I]; [exists x; rewrite F in E; auto|exists ob; auto].
  - destruct I as [<-|I]; [exists x; auto|]. destruct (IH i) as (y & Y1 & Y2); [exists ob; auto|]. exists y. auto.
Qed.
Lemma convention_step ext pf w x m b l : one_convention ext pf w m b (x :: l) -> flagged w m b -> flagged (snd (perform ext pf w x)) m b.
Proof.
  intros [C _] F. assert (K : forall w', se_models (wo_session w') = se_models (wo_session w) -> ((exists ob, In ob (wo_objs w') /\ oo_model ob = m) -> exists ob, In ob (wo_objs w) /\ oo_model ob = m) -> flagged w' m b).
  { intros w' E1 E2 J. unfold models_of, flip_of, model_at. rewrite E1. apply F, E2, J. }
  assert (KK : (match x with W_setp _ _ | W_residuals _ _ | W_chisqr _ _ | W_logp _ _ | W_logl _ _ | W_logpost _ _ => True | _ => False end) -> flagged (snd (perform ext pf w x)) m b).
  { intros T. destruct (calls_keep ext pf w x T) as (A & _ & D). apply K; [exact A|]. cbv zeta in D. rewrite D. auto. }
  destruct x; try (exact (KK I)); try contradiction; cbn [perform].
  - assert (N : match x with Set_flip _ _ => False | _ => True end) by (destruct x; auto).
    pose proof (fun H => execute_flip ext (wo_session w) x m N H) as EF. destruct (execute ext (wo_session w) x) as [r s]. cbn [snd] in *.
    intros J. destruct (F J) as [F1 F2]. destruct (EF F1) as [E1 E2]. unfold models_of, flip_of in *. cbn [with_session wo_session]. split; [lia|congruence].
  - destruct (act pf (wo_life w) x). exact F.
  - destruct (exists_model w m0 && exists_set w d) eqn:E; cbn [snd]; [|exact F]. apply andb_true_iff in E. destruct E as [E1 _]. apply Nat.ltb_lt in E1.
    intros (ob & J1 & J2). cbn [with_session with_objs wo_objs] in J1. unfold models_of, flip_of. cbn [with_session wo_session execute snd]. unfold model_at. cbn [with_models se_models].
    rewrite update_len. destruct (Nat.eq_dec m0 m) as [<-|N].
    + split; [exact E1|]. rewrite nth_update by exact E1. rewrite Nat.eqb_refl. cbn [mo_flip]. apply C. reflexivity.
    + apply in_app_iff in J1. destruct J1 as [J1|[<-|[]]]; [|contradiction]. destruct F as [F1 F2]; [exists ob; auto|].
      split; [exact F1|]. rewrite nth_update by exact F1. destruct (Nat.eqb_spec m m0); [subst; contradiction|]. exact F2.
  - unfold on_obj. destruct (exists_obj w o); [|exact F]. apply K; [reflexivity|]. apply in_update_model. reflexivity.
  - unfold on_obj. destruct (exists_obj w o); [|exact F]. apply K; [reflexivity|]. apply in_update_model. reflexivity.
Qed.
Lemma convention_run ext pf m b l : forall w, one_convention ext pf w m b l -> flagged w m b -> flagged (session_of ext pf w l) m b.
Proof.
  induction l as [|x l IH]; intros w C F; [exact F|]. apply IH; [apply C|]. apply (convention_step ext pf w x m b l C F).
Qed.
Theorem right_convention ext pf l o : let w := session_of ext pf start l in (o < List.length (wo_objs w))%nat ->
  one_convention ext pf start (oo_model (obj_at w o)) (ds_flipped (data_of w o)) l -> mo_flip (model_at (wo_session w) (oo_model (obj_at w o))) = ds_flipped (data_of w o).
Proof.
  intros w Ho C. apply (convention_run ext pf _ _ l start C); [intros (ob & [] & _)|]. exists (obj_at w o). split; [|reflexivity]. apply nth_In. exact Ho.
Qed.

(** ** the residuals *)
Lemma lit_wavelength s lam x st : lit_structure (set_wavelength s lam) x st <-> lit_structure s x st.
Proof. unfold lit_structure, rows_at, in_order. tauto. Qed.

Lemma maxwell_setup ext w o pts mk sel X stacks : let S := structure_of w (oo_model (obj_at w o)) in
  holds (lf_heap (wo_life w)) (data_of w o) pts -> ds_mask (data_of w o) = MBool mk -> kept mk pts sel -> Forall2 Spec_objective.measured sel X ->
  slab_ends (st_data S) -> Forall (fun c => c_default_interface c = true) (st_data S) -> st_contract S <= 0 ->
  Forall2 (lit_structure S) X stacks -> Forall reflecting stacks ->
  exists pds,
    Forall2 (Spec_whole.measured (offset_of w (oo_model (obj_at w o))) (mo_flip (model_at (wo_session w) (oo_model (obj_at w o))))) stacks pds /\
    has_data (system_now ext w) (objective_now w o) sel X /\
    predicts (system_now ext w) (state_now w) (ob_model (objective_now w o)) X (map (fun pd => Some (fst pd)) pds) (map (fun pd => Some (snd pd)) pds).
Proof.
  intros S H M K F E1 E2 E3 L Rf. set (m := oo_model (obj_at w o)) in *. set (sy := system_now ext w). set (ob := objective_now w o). set (st := state_now w).
  destruct (current_now ext w m) as (lam & CU).
  destruct (model_whole ext (set_wavelength S lam) (offset_of w m) (mo_flip (model_at (wo_session w) m)) X stacks) as (pds & MO & ME); auto.
  exists pds. split; [exact ME|]. split; [exists pts, mk; auto|].
  unfold predicts, call_model. change (ob_model ob) with m. unfold sy, st. rewrite CU, flip_now, the_model_now, value_now. cbn [mo_offset mo_structure].
  fold S. unfold offset_of in MO. destruct (model ext DFloat (set_wavelength S lam) _ _ X) as [r s] eqn:EM.
  change (sy_ext (system_now ext w)) with ext. rewrite EM. cbn [fst] in *. exact MO.
Qed.

Lemma residuals_setup ext w o sel X pds : let sy := system_now ext w in let ob := objective_now w o in
  has_data sy ob sel X -> predicts sy (state_now w) (ob_model ob) X (map (fun pd => Some (fst pd)) pds) (map (fun pd => Some (snd pd)) pds) ->
  exists rpsi rdelta,
    fst (w_residuals ext w o None) = Ok (rpsi ++ rdelta) /\
    Forall2 (fun xp r => minus (Some (fst (snd xp))) (p_psi (fst xp)) r) (combine sel pds) rpsi /\
    Forall2 (fun xp r => distance (Some (snd (snd xp))) (p_delta (fst xp)) r) (combine sel pds) rdelta /\
    List.length pds = List.length sel.
Proof.
  intros sy ob HD P. set (st := state_now w) in *.
  destruct (residuals_spec sy ob None st st sel X _ _ HD eq_refl P) as (rpsi & rdelta & R0 & L1 & L2 & L3 & L4 & N).
  exists rpsi, rdelta. rewrite map_length in L3.
  split; [unfold w_residuals, setting; cbn [w_setp]; rewrite (proj1 (calling_same _ _ _)); exact R0|].
  assert (G : forall (Q : point * (R * R) -> num -> Prop) (rr : list num), List.length rr = List.length sel ->
    (forall i x pd, nth_error sel i = Some x -> nth_error pds i = Some pd -> exists a, nth_error rr i = Some a /\ Q (x, pd) a) -> Forall2 Q (combine sel pds) rr).
  { intros Q. clear - L3. revert pds L3. induction sel as [|x sel IH]; intros [|pd pds] L3 [|r rr] Lr H; cbn in *; try discriminate; constructor.
    - destruct (H O x pd eq_refl eq_refl) as (a & A1 & A2). cbn in A1. assert (a = r) by congruence. subst. exact A2.
    - apply IH; [congruence|congruence|]. intros i y pe Y1 Y2. exact (H (Datatypes.S i) y pe Y1 Y2). }
  split; [|split; [|congruence]].
  - apply G; [exact L1|]. intros i x pd X1 X2. destruct (N i x (Some (fst pd)) (Some (snd pd)) X1) as (a & b & A1 & A2 & _); [rewrite nth_error_map, X2; reflexivity|rewrite nth_error_map, X2; reflexivity|]. exists a. auto.
  - apply G; [exact L2|]. intros i x pd X1 X2. destruct (N i x (Some (fst pd)) (Some (snd pd)) X1) as (a & b & _ & _ & A1 & A2); [rewrite nth_error_map, X2; reflexivity|rewrite nth_error_map, X2; reflexivity|]. exists b. auto.
Qed.

(** ** data that stay *)
Lemma perform_life ext pf w x : wo_life (snd (perform ext pf w x)) = acts pf (wo_life w) (on_data x).
Proof.
  assert (KK : (match x with W_setp _ _ | W_residuals _ _ | W_chisqr _ _ | W_logp _ _ | W_logl _ _ | W_logpost _ _ => True | _ => False end) -> wo_life (snd (perform ext pf w x)) = wo_life w).
  { intros T. apply (calls_keep ext pf w x T). }
  destruct x; try (exact (KK I)); cbn [perform on_data acts fold_left].
  - destruct (execute ext (wo_session w) x). reflexivity.
  - destruct (act pf (wo_life w) x). reflexivity.
  - destruct (_ && _); reflexivity.
  - unfold on_obj. destruct (exists_obj w o); [|reflexivity]. destruct (exists_model w m); reflexivity.
  - unfold on_obj. destruct (exists_obj w o); [|reflexivity]. destruct (exists_set w d); reflexivity.
  - unfold on_obj. destruct (exists_obj w o); reflexivity.
  - unfold on_obj. destruct (exists_obj w o); reflexivity.
Qed.
Lemma session_life ext pf l : forall w, wo_life (session_of ext pf w l) = acts pf (wo_life w) (flat_map on_data l).
Proof.
  induction l as [|x l IH]; intros w; [reflexivity|]. cbn [flat_map]. unfold acts. rewrite fold_left_app. fold (acts pf (wo_life w) (on_data x)).
  rewrite <- (perform_life ext). apply IH.
Qed.
Lemma private_holds pf s x d e pts : placed s -> nth_error (lf_sets s) d = Some e -> private s (en_data e) -> ~ about d x -> ~ folding_copy x ->
  holds (lf_heap s) (en_data e) pts -> holds (lf_heap (snd (act pf s x))) (en_data e) pts.
Proof.
  intros P E ((W1 & W2 & W3 & W4) & N1 & N2 & N3 & N4) NA NF (H1 & H2 & H3 & H4).
  destruct (act_heap pf s x P) as (G & K & _). specialize (K NF).
  assert (T : forall a l, valid (lf_heap s) a -> ~ In a (lf_user s) -> nth_error (lf_heap s) a = Some l -> nth_error (lf_heap (snd (act pf s x))) a = Some l).
  { intros a l V N Ha. rewrite nth_error_arr by (apply (valid_grows (lf_heap s)); auto). rewrite K by auto. rewrite <- Ha. symmetry. apply nth_error_arr. exact V. }
  repeat split; apply T; auto.
Qed.
Theorem data_stay ext pf l0 x l d pts : let w := session_of ext pf start l0 in let w1 := snd (perform ext pf w (W_data x)) in let w2 := session_of ext pf w1 l in
  fst (perform ext pf w (W_data x)) = Ok tt -> own_columns (wo_life w) d x -> Forall (leaves_data d) l ->
  holds (lf_heap (wo_life w1)) (set_at (wo_life w1) d) pts ->
  holds (lf_heap (wo_life w2)) (set_at (wo_life w2) d) pts /\ set_at (wo_life w2) d = set_at (wo_life w1) d.
Proof.
  intros w w1 w2 R Q F H. assert (P : placed (wo_life w)) by (unfold w; rewrite session_life; apply placed_acts, placed_empty).
  assert (R' : fst (act pf (wo_life w) x) = Ok tt) by (cbn [perform] in R; destruct (act pf (wo_life w) x); exact R).
  assert (E1 : wo_life w1 = snd (act pf (wo_life w) x)) by (unfold w1; cbn [perform]; destruct (act pf (wo_life w) x); reflexivity).
  destruct (own_private pf (wo_life w) d x P R' Q) as (e & E & Pr). rewrite <- E1 in E, Pr.
  assert (P1 : placed (wo_life w1)) by (rewrite E1; apply placed_act; exact P).
  assert (F' : Forall (fun o => ~ about d o /\ ~ folding_copy o) (flat_map on_data l)).
  { clear - F. induction F as [|y l Y F IH]; [constructor|]. cbn [flat_map]. apply Forall_app. split; [|exact IH]. destruct y; cbn; constructor; auto. }
  unfold w2. rewrite session_life. rewrite (set_at_nth _ _ _ E) in *. clear - P1 E Pr F' H. revert P1 E Pr H. generalize (wo_life w1). revert F'. generalize (flat_map on_data l). intros l1 F'. clear l. induction F' as [|y l' [Y1 Y2] F IH]; intros s P1 E Pr H.
  - change (acts pf s []) with s. split; [rewrite (set_at_nth _ _ _ E); exact H|apply set_at_nth; exact E].
  - destruct (private_act pf s y d e P1 E Pr Y1 Y2) as (E' & Pr' & _). apply IH; auto; [apply placed_act; auto|]. apply private_holds with (d := d); auto.
Qed.
