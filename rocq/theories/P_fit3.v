(** * Fitting sessions: the model of an objective of a fixed system; a perfect fit; an example *)

Require Import Reals List Bool String Ascii ZArith Lia Arith Lra FunctionalExtensionality.
From Coquelicot Require Import Complex.
From Verif Require Import Base M_disp M_struct M_model M_data M_objective M_session M_life M_fit.
From Verif Require Import Spec_struct Spec_optics Spec_whole Spec_data Spec_objective Spec_session Spec_life Spec_fit.
From Verif Require Import P_struct P_struct2 P_objective P_objective2 P_session P_session2 P_data P_life P_life2 P_life3 P_whole P_whole2 P_fit P_fit2.
Import ListNotations.
Open Scope list_scope.
Open Scope R_scope.

(** ** parameter lists *)
Lemma put_shape s ps v : put_values s ps v = with_params s (se_params (put_values s ps v)).
Proof.
  unfold put_values. revert s. induction (combine ps v) as [|[p x] l IH]; intros s; [destruct s; reflexivity|]. cbn [fold_left fst snd]. rewrite IH at 1. reflexivity.
Qed.
Lemma lists_setp w o v : current_lists (wo_session w) -> current_lists (wo_session (snd (w_setp w o v))).
Proof.
  intros H. unfold w_setp. destruct v as [v|]; [|exact H]. destruct (Nat.eqb _ _); [cbn; rewrite put_shape; apply lists_params; exact H|].
  destruct (Nat.eqb _ _); [cbn; rewrite put_shape; apply lists_params; exact H|]. exact H.
Qed.
Lemma lists_same w w' : same_session w w' -> current_lists w' -> current_lists w.
Proof. intros (E1 & E2 & E3 & E4 & E5). unfold current_lists, scat_at, comp_at, list_attrs, attrs_exist, exists_scat, scat_at. rewrite E2, E3. auto. Qed.
Lemma lists_perform ext pf w x : keeps_lists x -> current_lists (wo_session w) -> current_lists (wo_session (snd (perform ext pf w x))).
Proof.
  intros K H. assert (Call : forall o v w', same_world w' (snd (w_setp w o v)) -> current_lists (wo_session w')).
  { intros o v w' (S & _). apply (lists_same _ _ S), lists_setp, H. }
  destruct x; cbn [perform]; unfold on_obj; try (destruct (exists_obj w o); [|exact H]); rewrite ?drop_snd.
  - pose proof (lists_execute ext (wo_session w) x K H) as L. destruct (execute ext (wo_session w) x). exact L.
  - destruct (act pf (wo_life w) x). exact H.
  - destruct (_ && _); cbn [snd]; [|exact H]. apply lists_models. exact H.
  - destruct (exists_model w m); exact H.
  - destruct (exists_set w d); exact H.
  - exact H.
  - exact H.
  - apply lists_setp, H.
  - apply (Call o v), residuals_effect.
  - apply (Call o v), chisqr_effect.
  - apply (Call o v), logp_effect.
  - apply (Call o v), logl_effect.
  - apply (Call o v), logpost_effect.
Qed.
Lemma lists_session ext pf l : Forall keeps_lists l -> forall w, current_lists (wo_session w) -> current_lists (wo_session (session_of ext pf w l)).
Proof. induction 1 as [|x l K F IH]; intros w H; [exact H|]. apply IH, lists_perform; auto. Qed.

Lemma parameters_agree ext w o : current_lists (wo_session w) ->
  parameters_now w o = parameters (system_now ext w) (objective_now w o) /\ varying_now w o = varying_parameters (system_now ext w) (objective_now w o).
Proof.
  intros C. assert (P : parameters_now w o = parameters (system_now ext w) (objective_now w o)).
  { unfold parameters_now, parameters, model_params, listed. cbn [objective_now ob_lnsigma ob_model]. rewrite the_model_now. cbn [mo_offset mo_structure].
    rewrite the_structure_now, listed_struct_params by exact C. reflexivity. }
  split; [exact P|]. unfold varying_now, varying_parameters. rewrite P. reflexivity.
Qed.

(** ** setting parameters *)
Lemma put_one s p x : (p < List.length (se_params s))%nat ->
  numbers (put_value s p x) = write (numbers s) p x /\ settings_of (put_value s p x) = settings_of s.
Proof.
  intros H. unfold put_value. split; apply functional_extensionality; intros q; unfold numbers, settings_of, write; cbn [with_params se_params].
  - destruct (Nat.lt_ge_cases q (List.length (se_params s))) as [L|L].
    + rewrite nth_update by exact L. rewrite Nat.eqb_sym. destruct (Nat.eqb p q); reflexivity.
    + rewrite !nth_overflow by (rewrite ?update_len; exact L). destruct (Nat.eqb_spec p q); [subst; lia|]. destruct (Nat.eqb_spec q p); [subst; lia|]. reflexivity.
  - destruct (Nat.lt_ge_cases q (List.length (se_params s))) as [L|L].
    + rewrite nth_update by exact L. destruct (Nat.eqb q p); reflexivity.
    + rewrite !nth_overflow by (rewrite ?update_len; exact L). reflexivity.
Qed.
Lemma put_length s p x : List.length (se_params (put_value s p x)) = List.length (se_params s).
Proof. unfold put_value. cbn. apply update_len. Qed.
Lemma put_all s ps v : (forall p, In p ps -> (p < List.length (se_params s))%nat) ->
  numbers (put_values s ps v) = write_all (numbers s) ps v /\ settings_of (put_values s ps v) = settings_of s.
Proof.
  unfold put_values, write_all. revert s v. induction ps as [|p ps IH]; intros s [|x v] H; try (split; reflexivity). cbn [combine fold_left fst snd].
  destruct (put_one s p x (H p (or_introl eq_refl))) as [A B].
  destruct (IH (put_value s p x) v) as [A' B']; [intros q Q; rewrite put_length; apply H; right; exact Q|]. rewrite A', A, B', B. auto.
Qed.
Lemma varying_incl w o p : In p (varying_now w o) -> In p (parameters_now w o).
Proof. unfold varying_now. rewrite unique_In, filter_In. tauto. Qed.

Lemma setp_agree ext w o v : current_lists (wo_session w) -> (forall p, In p (parameters_now w o) -> (p < List.length (se_params (wo_session w)))%nat) ->
  fst (w_setp w o v) = fst (setp (system_now ext w) (objective_now w o) v (state_now w)) /\
  state_now (snd (w_setp w o v)) = snd (setp (system_now ext w) (objective_now w o) v (state_now w)) /\
  system_now ext (snd (w_setp w o v)) = system_now ext w /\ objective_now (snd (w_setp w o v)) o = objective_now w o.
Proof.
  intros C H. destruct (parameters_agree ext w o C) as [P V]. unfold w_setp, setp. destruct v as [v|]; [|auto]. rewrite <- P, <- V.
  assert (G : forall ps, (forall p, In p ps -> (p < List.length (se_params (wo_session w)))%nat) ->
    let w' := with_session w (put_values (wo_session w) ps v) in
    state_now w' = set_store (state_now w) (write_all (st_store (state_now w)) ps v) /\ system_now ext w' = system_now ext w /\ objective_now w' o = objective_now w o).
  { intros ps B w'. destruct (put_all (wo_session w) ps v B) as [A1 A2]. unfold w', state_now, system_now, set_store. cbn [with_session wo_session st_store st_wavelengths st_flips wo_life].
    rewrite A1, A2. rewrite put_shape. cbn [with_params se_structs se_models]. split; [reflexivity|]. split; reflexivity. }
  destruct (Nat.eqb _ _); cbn [fst snd].
  - destruct (G (varying_now w o)) as (G1 & G2 & G3); auto. intros p I. apply H, varying_incl, I.
  - destruct (Nat.eqb _ _); cbn [fst snd]; [|auto]. destruct (G (parameters_now w o)) as (G1 & G2 & G3); auto.
Qed.

Lemma bridge {A} ext w o v (f : system -> objective -> option (list R) -> call A) (g : system -> objective -> call A) :
  current_lists (wo_session w) -> (forall p, In p (parameters_now w o) -> (p < List.length (se_params (wo_session w)))%nat) ->
  (forall sy ob u st, f sy ob u st = bind (setp sy ob u) (fun _ => g sy ob) st) ->
  fst (setting w o v (fun w => calling w o (f (system_now ext w) (objective_now w o) None))) = fst (f (system_now ext w) (objective_now w o) v (state_now w)).
Proof.
  intros C H E. destruct (setp_agree ext w o v C H) as (S1 & S2 & S3 & S4). unfold setting. rewrite E. unfold bind at 1.
  destruct (w_setp w o v) as [[u|e] w'], (setp (system_now ext w) (objective_now w o) v (state_now w)) as [[u'|e'] st']; cbn [fst snd] in *; try discriminate; auto.
  - rewrite (proj1 (calling_same _ _ _)), E, S2, S3, S4. reflexivity.
  - congruence.
Qed.
Theorem objective_of_session ext pf l o v : let w := session_of ext pf start l in Forall keeps_lists l ->
  (forall p, In p (parameters_now w o) -> (p < List.length (se_params (wo_session w)))%nat) ->
  fst (w_setp w o v) = fst (setp (system_now ext w) (objective_now w o) v (state_now w)) /\
  state_now (snd (w_setp w o v)) = snd (setp (system_now ext w) (objective_now w o) v (state_now w)) /\
  fst (w_residuals ext w o v) = fst (residuals (system_now ext w) (objective_now w o) v (state_now w)) /\
  fst (w_chisqr ext w o v) = fst (chisqr (system_now ext w) (objective_now w o) v (state_now w)) /\
  fst (w_logp w o v) = fst (logp (system_now ext w) (objective_now w o) v (state_now w)) /\
  fst (w_logl ext w o v) = fst (logl (system_now ext w) (objective_now w o) v (state_now w)) /\
  fst (w_logpost ext w o v) = fst (logpost (system_now ext w) (objective_now w o) v (state_now w)).
Proof.
  intros w K H. assert (C : current_lists (wo_session w)) by (apply lists_session; auto; apply lists_nothing).
  assert (LP : forall w v, current_lists (wo_session w) -> (forall p, In p (parameters_now w o) -> (p < List.length (se_params (wo_session w)))%nat) ->
    fst (w_logp w o v) = fst (logp (system_now ext w) (objective_now w o) v (state_now w))).
  { clear. intros w v C H. destruct (setp_agree ext w o v C H) as (S1 & S2 & S3 & S4). unfold w_logp, setting, logp, bind.
    destruct (parameters_agree ext (snd (w_setp w o v)) o) as [_ V]; [apply lists_setp; exact C|].
    destruct (w_setp w o v) as [[u|e] w'], (setp (system_now ext w) (objective_now w o) v (state_now w)) as [[u'|e'] st']; cbn [fst snd] in *; try discriminate; auto; [|congruence].
    rewrite V, S3, S4, <- S2, <- S3. reflexivity. }
  destruct (setp_agree ext w o v C H) as (S1 & S2 & S3 & S4).
  split; [exact S1|]. split; [exact S2|]. split; [apply (bridge ext w o v residuals residuals_now); auto|]. split; [apply (bridge ext w o v chisqr chisqr_now); auto|].
  split; [apply LP; auto|]. split; [apply (bridge ext w o v logl logl_now); auto|].
  unfold w_logpost, setting, logpost, bind.
  assert (C' : current_lists (wo_session (snd (w_setp w o v)))) by (apply lists_setp; exact C).
  assert (H' : forall p, In p (parameters_now (snd (w_setp w o v)) o) -> (p < List.length (se_params (wo_session (snd (w_setp w o v)))))%nat).
  { intros p. destruct (parameters_agree ext (snd (w_setp w o v)) o C') as [-> _]. rewrite S3, S4. destruct (parameters_agree ext w o C) as [<- _]. intros I. specialize (H p I).
    clear - H. unfold w_setp. destruct v as [v|]; [|exact H]. assert (L : forall ps, List.length (se_params (put_values (wo_session w) ps v)) = List.length (se_params (wo_session w))).
    { intros ps. unfold put_values. generalize (wo_session w). induction (combine ps v) as [|[q x] l0 IH]; intros s; [reflexivity|]. cbn [fold_left]. rewrite IH. apply put_length. }
    destruct (Nat.eqb _ _); [cbn; rewrite L; exact H|]. destruct (Nat.eqb _ _); [cbn; rewrite L; exact H|exact H]. }
  specialize (LP (snd (w_setp w o v)) None C' H'). pose proof (logp_effect (snd (w_setp w o v)) o None) as LE. cbn [w_setp] in LE.
  destruct (w_setp w o v) as [[u|e] w'] eqn:EW, (setp (system_now ext w) (objective_now w o) v (state_now w)) as [[u'|e'] st'] eqn:ES; cbn [fst snd] in *; try discriminate; auto; [|congruence].
  rewrite S2, S3, S4 in LP. unfold w_logp, setting in *. cbn [w_setp fst snd] in *. unfold logp, bind in LP |- *. cbn [setp fst snd] in *.
  set (n := nsum _) in LP. set (n' := nsum _) in LP. assert (N : n = n') by congruence. fold n. fold n'. rewrite <- N. destruct n as [x|]; [|reflexivity].
  unfold w_logl, setting. cbn [w_setp]. pose proof (calling_same w' o (logl (system_now ext w') (objective_now w' o) None)) as [K1 _].
  destruct (calling w' o (logl (system_now ext w') (objective_now w' o) None)) as [r w2]. cbn [fst] in *. rewrite K1, S2, S3, S4.
  destruct (logl (system_now ext w) (objective_now w o) None st') as [[y|ey] s2]; reflexivity.
Qed.
