(** * Sessions with every call that looks at the objects: what the calls return *)

Require Import Reals List Bool String ZArith Lia Arith Lra FunctionalExtensionality.
From Coquelicot Require Import Complex.
From Verif Require Import Base M_disp M_struct M_model M_data M_objective M_session M_life M_fit M_plot M_covar M_views.
From Verif Require Import Spec_struct Spec_optics Spec_whole Spec_data Spec_objective Spec_session Spec_life Spec_fit Spec_views.
From Verif Require Import P_struct P_objective P_objective2 P_session P_session2 P_data P_life P_life2 P_life3 P_whole P_plot P_plot2 P_fit P_fit2 P_fit3 P_fit4 P_views P_views2.
Import ListNotations.
Open Scope list_scope.
Open Scope R_scope.

Lemma lists_rest w w' : rest_kept w w' -> current_lists (wo_session w) -> current_lists (wo_session w').
Proof. intros ((_ & E2 & E3) & _) H. unfold current_lists, scat_at, comp_at, list_attrs, attrs_exist, exists_scat, scat_at in *. rewrite E2, E3. exact H. Qed.
Lemma lists_all ext pf l : Forall keeps_all l -> forall w, current_lists (wo_session w) -> current_lists (wo_session (full_session ext pf w l)).
Proof.
  induction 1 as [|x l K F IH]; intros w H; [exact H|]. cbn [full_session fold_left]. apply IH.
  destruct x; try (apply (lists_rest w); [apply rest_views; exact I|exact H]). unfold perform_all. cbn [exists_all]. apply lists_perform; auto.
Qed.

(** parameters that exist *)
Definition in_range (s : session) (ps : list pid) : Prop := forall p, In p ps -> (p < List.length (se_params s))%nat.
Lemma puts_length s ps v : List.length (se_params (put_values s ps v)) = List.length (se_params s).
Proof. unfold put_values. revert s. induction (combine ps v) as [|[q x] l IH]; intros s; [reflexivity|]. cbn [fold_left]. rewrite IH. apply put_length. Qed.

(** ** a world and a state of the static model *)
Definition sim (ext : externals) (o : nat) (sy : system) (ob : objective) (w : world) (st : state) : Prop :=
  (system_now ext w = sy /\ objective_now w o = ob) /\ (st_store (state_now w) = st_store st /\ st_flips (state_now w) = st_flips st) /\
  current_lists (wo_session w) /\ in_range (wo_session w) (parameters_now w o).
Lemma sim_start ext o w : current_lists (wo_session w) -> in_range (wo_session w) (parameters_now w o) -> sim ext o (system_now ext w) (objective_now w o) w (state_now w).
Proof. intros C H. repeat split; auto; try apply C. Qed.
Lemma setp_shape w o v : exists prm, wo_session (snd (w_setp w o v)) = with_params (wo_session w) prm /\ List.length prm = List.length (se_params (wo_session w)) /\
  wo_objs (snd (w_setp w o v)) = wo_objs w /\ wo_life (snd (w_setp w o v)) = wo_life w.
Proof.
  assert (K : forall ps u, exists prm, wo_session (with_session w (put_values (wo_session w) ps u)) = with_params (wo_session w) prm /\ List.length prm = List.length (se_params (wo_session w)) /\ wo_objs w = wo_objs w /\ wo_life w = wo_life w).
  { intros ps u. exists (se_params (put_values (wo_session w) ps u)). split; [apply put_shape|]. split; [apply puts_length|auto]. }
  unfold w_setp. destruct v as [v|]; [destruct (Nat.eqb _ _); [apply K|destruct (Nat.eqb _ _); [apply K|]]|].
  - exists (se_params (wo_session w)). cbn [snd]. destruct (wo_session w); auto.
  - exists (se_params (wo_session w)). cbn [snd]. destruct (wo_session w); auto.
Qed.
Lemma setp_store sy ob v st st' : st_store st = st_store st' -> st_flips st = st_flips st' ->
  fst (setp sy ob v st) = fst (setp sy ob v st') /\ st_store (snd (setp sy ob v st)) = st_store (snd (setp sy ob v st')) /\
  st_flips (snd (setp sy ob v st)) = st_flips (snd (setp sy ob v st')).
Proof.
  intros E F. unfold setp. destruct v as [v|]; [|auto]. destruct (Nat.eqb _ _); [cbn; rewrite E; auto|]. destruct (Nat.eqb _ _); [cbn; rewrite E; auto|auto].
Qed.
Lemma sim_setp ext o sy ob w st v : sim ext o sy ob w st -> fst (w_setp w o v) = fst (setp sy ob v st) /\ sim ext o sy ob (snd (w_setp w o v)) (snd (setp sy ob v st)).
Proof.
  intros ((E1 & E2) & (E3 & E4) & C & H). destruct (setp_agree ext w o v C H) as (S1 & S2 & S3 & S4). rewrite E1, E2 in S1, S2.
  destruct (setp_store sy ob v (state_now w) st E3 E4) as (T1 & T2 & T3). split; [congruence|].
  split; [split; congruence|]. split; [rewrite S2; auto|]. split; [apply lists_setp, C|].
  destruct (setp_shape w o v) as (prm & P1 & P2 & P3 & P4). intros p I. rewrite P1. cbn [with_params se_params]. rewrite P2. apply H.
  unfold parameters_now, obj_at in *. rewrite P1, P3 in I. exact I.
Qed.
Lemma sim_call {A} ext o sy ob w st (f : system -> objective -> option (list R) -> call A) : sim ext o sy ob w st ->
  (forall sy ob st st', (forall p, value sy st p = value sy st' p) -> st_flips st = st_flips st' -> fst (f sy ob None st) = fst (f sy ob None st')) ->
  (forall sy ob st, st_store (snd (f sy ob None st)) = st_store st /\ st_flips (snd (f sy ob None st)) = st_flips st) ->
  fst (calling w o (f (system_now ext w) (objective_now w o) None)) = fst (f sy ob None st) /\
  sim ext o sy ob (snd (calling w o (f (system_now ext w) (objective_now w o) None))) (snd (f sy ob None st)).
Proof.
  intros ((E1 & E2) & (E3 & E4) & C & H) F1 F2. destruct (calling_same w o (f (system_now ext w) (objective_now w o) None)) as [K S]. rewrite K. rewrite E1, E2 in *.
  split; [apply F1; [|exact E4]; intros p; unfold value; rewrite E3; reflexivity|].
  destruct (F2 sy ob st) as [G1 G2]. set (w' := snd _) in *. split; [split; [rewrite (system_same ext _ _ S); exact E1|rewrite (objective_same _ _ o S); exact E2]|].
  split; [|split; [eapply lists_same; [apply S|exact C]|]].
  - rewrite G1, G2, <- E3, <- E4. destruct S as ((P1 & _ & _ & P4 & _) & _). cbn. unfold numbers. rewrite P1, P4. auto.
  - destruct (params_same _ _ o S) as [-> _]. destruct S as ((P1 & _) & _). unfold in_range. rewrite P1. exact H.
Qed.
Lemma sim_setting {A} ext o sy ob w st v (f : system -> objective -> option (list R) -> call A) : sim ext o sy ob w st ->
  (forall sy ob u st, f sy ob u st = bind (setp sy ob u) (fun _ => f sy ob None) st) ->
  (forall sy ob st st', (forall p, value sy st p = value sy st' p) -> st_flips st = st_flips st' -> fst (f sy ob None st) = fst (f sy ob None st')) ->
  (forall sy ob st, st_store (snd (f sy ob None st)) = st_store st /\ st_flips (snd (f sy ob None st)) = st_flips st) ->
  let r := setting w o v (fun w => calling w o (f (system_now ext w) (objective_now w o) None)) in
  fst r = fst (f sy ob v st) /\ sim ext o sy ob (snd r) (snd (f sy ob v st)).
Proof.
  intros S B F1 F2 r. unfold r, setting. destruct (sim_setp ext o sy ob w st v S) as [E1 E2]. rewrite (B sy ob v st). unfold bind.
  destruct (w_setp w o v) as [[u|e] w1], (setp sy ob v st) as [[u'|e'] st1]; cbn [fst snd] in *; try discriminate; [|split; [congruence|exact E2]].
  apply sim_call; auto.
Qed.
Lemma residuals_only sy ob st st' : (forall p, value sy st p = value sy st' p) -> st_flips st = st_flips st' -> fst (residuals sy ob None st) = fst (residuals sy ob None st').
Proof. intros V F. apply (only_parameters sy ob st st'); [auto|rewrite F; auto]. Qed.
Lemma chisqr_only sy ob st st' : (forall p, value sy st p = value sy st' p) -> st_flips st = st_flips st' -> fst (chisqr sy ob None st) = fst (chisqr sy ob None st').
Proof. intros V F. apply (only_parameters sy ob st st'); [auto|rewrite F; auto]. Qed.
Lemma sim_residuals ext o sy ob w st v : sim ext o sy ob w st ->
  fst (w_residuals ext w o v) = fst (residuals sy ob v st) /\ sim ext o sy ob (snd (w_residuals ext w o v)) (snd (residuals sy ob v st)).
Proof. intros S. apply (sim_setting ext o sy ob w st v residuals S); [reflexivity|exact residuals_only|exact residuals_keeps]. Qed.
Lemma sim_chisqr ext o sy ob w st v : sim ext o sy ob w st ->
  fst (w_chisqr ext w o v) = fst (chisqr sy ob v st) /\ sim ext o sy ob (snd (w_chisqr ext w o v)) (snd (chisqr sy ob v st)).
Proof. intros S. apply (sim_setting ext o sy ob w st v chisqr S); [reflexivity|exact chisqr_only|exact chisqr_keeps]. Qed.

(** ** covar *)
Lemma sim_diff ext o sy ob (f : world -> list R -> result (list num) * world) (g : list R -> call (list num)) d :
  (forall w st v, sim ext o sy ob w st -> fst (f w v) = fst (g v st) /\ sim ext o sy ob (snd (f w v)) (snd (g v st))) ->
  forall w st, sim ext o sy ob w st -> fst (w_diff f d w) = fst (run_diff g d st) /\ sim ext o sy ob (snd (w_diff f d w)) (snd (run_diff g d st)).
Proof.
  intros F. induction d as [v k IH|jac|e]; intros w st S; cbn [w_diff run_diff]; auto.
  destruct (F w st v S) as [E T]. destruct (f w v) as [r w1], (g v st) as [r' st1]. cbn [fst snd] in *. subst r'. apply IH. exact T.
Qed.
Lemma sim_jacobian ext o sy ob w st pvals a1 a2 : sim ext o sy ob w st ->
  let x := w_jacobian ext w o pvals a1 a2 in let y := jacobian sy ob pvals a1 a2 st in fst x = fst y /\ sim ext o sy ob (snd x) (snd y).
Proof.
  intros S. cbv zeta. unfold w_jacobian, jacobian.
  set (X := if existsb _ _ then _ else w_diff _ _ _). set (Y := if existsb _ _ then _ else run_diff _ _ _).
  assert (A : fst X = fst Y /\ sim ext o sy ob (snd X) (snd Y)).
  { unfold X, Y. destruct (existsb _ _); [auto|]. apply sim_diff; [|exact S]. intros w0 st0 v S0. apply sim_residuals, S0. }
  destruct X as [[j|e] w1], Y as [[j'|e'] st1]; cbn [fst snd] in A; destruct A as [A B]; try discriminate.
  - cbn [fst snd]. split; [congruence|exact B].
  - assert (e' = e) by congruence. subst e'.
    destruct e; try (split; [reflexivity|exact B]).
    destruct (sim_diff ext o sy ob (fun w vals => w_residuals ext w o (Some vals)) (fun vals => residuals sy ob (Some vals)) (a2 pvals) (fun w0 st0 v S0 => sim_residuals ext o sy ob w0 st0 (Some v) S0) w1 st1 B) as [D1 D2].
    destruct (w_diff _ (a2 pvals) w1), (run_diff _ (a2 pvals) st1). cbn [fst snd] in *. subst. auto.
Qed.
Lemma covar_bridge ext w o a1 a2 svd : current_lists (wo_session w) -> in_range (wo_session w) (parameters_now w o) ->
  fst (w_covar ext w o a1 a2 svd) = fst (covariance (system_now ext w) (objective_now w o) a1 a2 svd (state_now w)).
Proof.
  intros C H. pose proof (sim_start ext o w C H) as S. set (sy := system_now ext w) in *. set (ob := objective_now w o) in *.
  unfold covariance, covar, w_covar. destruct (parameters_agree ext w o C) as [_ V]. fold sy in V. fold ob in V. rewrite V, <- (value_now ext w). fold sy.
  set (pvals := map _ _). destruct (sim_jacobian ext o sy ob w (state_now w) pvals a1 a2 S) as [J1 J2].
  destruct (w_jacobian ext w o pvals a1 a2) as [[jac used] w1], (jacobian sy ob pvals a1 a2 (state_now w)) as [[jac' used'] st1]. cbn [fst snd] in *.
  assert (jac' = jac) by congruence. assert (used' = used) by congruence. subst jac' used'.
  destruct (sim_setp ext o sy ob w1 st1 (Some pvals) J2) as [P1 P2].
  destruct (w_setp w1 o (Some pvals)) as [[u|e] w2], (setp sy ob (Some pvals) st1) as [[u'|e'] st2]; cbn [fst snd] in *; try discriminate; [|congruence].
  destruct jac as [j|e]; [|reflexivity]. unfold bind at 1, lift. cbn [rbind]. unfold bind at 1.
  destruct (algebra svd j used pvals) as [cov|e]; [|reflexivity]. cbn [rmap].
  assert (WW : weighted (objective_now w2 o) = weighted ob) by (destruct P2 as ((_ & ->) & _); reflexivity). rewrite WW.
  destruct (weighted ob); [reflexivity|]. unfold bind. destruct (sim_chisqr ext o sy ob w2 st2 None P2) as [Q1 _].
  destruct (w_chisqr ext w2 o None) as [[c2|e] w3], (chisqr sy ob None st2) as [[c2'|e'] st3]; cbn [fst] in *; try discriminate; [|congruence].
  assert (c2' = c2) by congruence. subst. destruct (obind _ _); reflexivity.
Qed.

(** ** model(X, p) and StructureSE.plot *)
Lemma pvals_agree ext w ps v : in_range (wo_session w) ps ->
  fst (w_pvals w ps v) = fst (set_pvals (system_now ext w) ps v (state_now w)) /\
  state_now (snd (w_pvals w ps v)) = snd (set_pvals (system_now ext w) ps v (state_now w)) /\
  system_now ext (snd (w_pvals w ps v)) = system_now ext w /\ in_range (wo_session (snd (w_pvals w ps v))) ps.
Proof.
  intros H. unfold w_pvals, set_pvals. change (varying_of (system_now ext w) ps) with (varying_among (wo_session w) ps).
  assert (G : forall qs, in_range (wo_session w) qs -> let w' := with_session w (put_values (wo_session w) qs v) in
    state_now w' = set_store (state_now w) (write_all (st_store (state_now w)) qs v) /\ system_now ext w' = system_now ext w /\ in_range (wo_session w') ps).
  { intros qs B w'. destruct (put_all (wo_session w) qs v B) as [A1 A2]. split; [|split].
    - unfold w', state_now, set_store. cbn [with_session wo_session st_store st_wavelengths st_flips]. rewrite A1, put_shape. reflexivity.
    - unfold w', system_now. cbn [with_session wo_session wo_life]. rewrite A2, put_shape. reflexivity.
    - intros p I. unfold w'. cbn [with_session wo_session]. rewrite puts_length. apply H, I. }
  destruct (Nat.eqb _ _); cbn [fst snd].
  - destruct (G (varying_among (wo_session w) ps)) as (G1 & G2 & G3); auto. intros p I. unfold varying_among in I. rewrite unique_In, filter_In in I. apply H, I.
  - destruct (Nat.eqb _ _); cbn [fst snd]; [|auto]. destruct (G ps) as (G1 & G2 & G3); auto.
Qed.
Lemma lit_now w a : nth a (st_wavelengths (state_now w)) None = so_wavelength (struct_at (wo_session w) a).
Proof. unfold state_now. cbn [st_wavelengths]. apply (map_nth so_wavelength _ no_struct). Qed.
Lemma evaluation_now ext w m X : fst (evaluation ext (wo_session w) m X) = fst (call_model (system_now ext w) m X (state_now w)).
Proof.
  unfold evaluation, call_model, current. rewrite the_model_now. cbn [mo_structure mo_offset]. rewrite the_structure_now, lit_now, value_now, flip_now.
  change (sy_ext (system_now ext w)) with ext. destruct (model _ _ _ _ _ _). reflexivity.
Qed.
Lemma model_bridge ext w m X p : current_lists (wo_session w) -> in_range (wo_session w) (listed (wo_session w) m) ->
  fst (w_model ext w m X p) = fst (call_model_p (system_now ext w) m X p (state_now w)).
Proof.
  intros C H. unfold w_model, call_model_p, bind.
  assert (L : listed (wo_session w) m = model_params (system_now ext w) m).
  { unfold listed, model_params. rewrite the_model_now. cbn [mo_offset mo_structure]. rewrite the_structure_now, listed_struct_params by exact C. reflexivity. }
  destruct p as [v|]; cbn [w_pvals_opt ret].
  - rewrite <- L. destruct (pvals_agree ext w _ v H) as (P1 & P2 & P3 & _).
    destruct (w_pvals w _ v) as [[u|e] w1], (set_pvals _ _ v _) as [[u'|e'] st1]; cbn [fst snd] in *; try discriminate; [|congruence].
    pose proof (evaluation_now ext w1 m X) as E. rewrite P2, P3 in E. destruct (evaluation ext (wo_session w1) m X). cbn [fst] in *. exact E.
  - pose proof (evaluation_now ext w m X) as E. destruct (evaluation ext (wo_session w) m X). cbn [fst] in *. exact E.
Qed.
Lemma profile_agree ext w a align : profile_now (system_now ext w) a align (state_now w) = (w_profile ext w a align, state_now w).
Proof. unfold profile_now, current_structure, w_profile. rewrite the_structure_now, lit_now, value_now. reflexivity. Qed.
Lemma samples_agree ext a align ps chain : forall w, in_range (wo_session w) ps ->
  fst (w_samples ext w a align ps chain) = fst (draw_samples (system_now ext w) a align ps chain (state_now w)) /\
  state_now (snd (w_samples ext w a align ps chain)) = snd (draw_samples (system_now ext w) a align ps chain (state_now w)) /\
  system_now ext (snd (w_samples ext w a align ps chain)) = system_now ext w /\ in_range (wo_session (snd (w_samples ext w a align ps chain))) ps.
Proof.
  induction chain as [|v chain IH]; intros w H; [split; [reflexivity|]; auto|]. cbn [w_samples draw_samples].
  destruct (pvals_agree ext w ps v H) as (P1 & P2 & P3 & P4). unfold bind.
  destruct (w_pvals w ps v) as [[u|e] w1], (set_pvals _ ps v _) as [[u'|e'] st1]; cbn [fst snd] in *; try discriminate; [|split; [congruence|auto]].
  subst st1. rewrite <- P3. rewrite !profile_agree. destruct (w_profile ext w1 a align) as [c|e]; [|repeat split; auto].
  destruct (IH w1 P4) as (I1 & I2 & I3 & I4).
  destruct (w_samples ext w1 a align ps chain) as [r w2], (draw_samples _ a align ps chain _) as [r' st2]. cbn [fst snd] in *. subst r' st2.
  destruct r as [cs|e]; (repeat split; auto).
Qed.
Lemma draw_bridge ext w a pvals samples chain align : current_lists (wo_session w) -> in_range (wo_session w) (listed_struct (wo_session w) (struct_at (wo_session w) a)) ->
  let r := plot_profile (system_now ext w) a pvals samples chain align (state_now w) in
  fst (w_draw ext w a pvals samples chain align) = fst r /\ state_now (snd (w_draw ext w a pvals samples chain align)) = snd r /\
  system_now ext (snd (w_draw ext w a pvals samples chain align)) = system_now ext w.
Proof.
  intros C H r.
  enough (G : r = (fst (w_draw ext w a pvals samples chain align), state_now (snd (w_draw ext w a pvals samples chain align))) /\
    system_now ext (snd (w_draw ext w a pvals samples chain align)) = system_now ext w) by (destruct G as [-> G]; auto).
  unfold r, w_draw, plot_profile. rewrite the_structure_now, <- listed_struct_params by exact C.
  set (ps := listed_struct _ _) in *.
  assert (LAST : forall w' cs, system_now ext w' = system_now ext w ->
    bind (profile_now (system_now ext w) a align) (fun c => ret (cs ++ [c])) (state_now w') = (rmap (fun c => cs ++ [c]) (w_profile ext w' a align), state_now w')).
  { intros w' cs E. rewrite <- E. unfold bind. rewrite profile_agree. destruct (w_profile ext w' a align); reflexivity. }
  set (F := match pvals with Some v => set_pvals (system_now ext w) ps v | None => ret tt end).
  assert (ST : F (state_now w) = (fst (w_pvals_opt w ps pvals), state_now (snd (w_pvals_opt w ps pvals))) /\
    system_now ext (snd (w_pvals_opt w ps pvals)) = system_now ext w /\ in_range (wo_session (snd (w_pvals_opt w ps pvals))) ps).
  { unfold F. destruct pvals as [v|]; [|repeat split; auto]. destruct (pvals_agree ext w ps v H) as (P1 & P2 & P3 & P4). cbn [w_pvals_opt]. rewrite P1, P2. split; [apply surjective_pairing|auto]. }
  unfold bind at 1. destruct ST as (S1 & S3 & S4). rewrite S1. destruct (w_pvals_opt w ps pvals) as [[u|e] w1]; cbn [fst snd] in *; [|auto].
  destruct (0 <? samples)%Z.
  2:{ unfold bind at 1. cbn [ret]. rewrite (LAST w1 [] S3). auto. }
  assert (VV : map (value (system_now ext w) (state_now w1)) ps = map (value_of (wo_session w1)) ps) by (rewrite <- S3; reflexivity).
  unfold bind at 1. rewrite VV. set (saved := map _ ps).
  unfold bind at 1. destruct chain as [vs|e]; cbn [lift fst snd]; [|auto].
  destruct (samples_agree ext a align ps vs w1 S4) as (M1 & M2 & M3 & M4). unfold bind at 1. rewrite S3 in M1, M2, M3.
  destruct (w_samples ext w1 a align ps vs) as [[cs|e] w2], (draw_samples _ a align ps vs _) as [[cs'|e'] st2]; cbn [fst snd] in *; try discriminate;
    [|split; [congruence|auto]].
  subst st2. assert (cs' = cs) by congruence. subst cs'.
  destruct (pvals_agree ext w2 ps saved M4) as (P1 & P2 & P3 & P4). unfold bind at 1. rewrite M3 in P1, P2, P3.
  destruct (w_pvals w2 ps saved) as [[x|e] w3], (set_pvals _ ps saved _) as [[x'|e'] st3]; cbn [fst snd] in *; try discriminate; [|split; [congruence|auto]].
  subst st3. cbn [ret]. rewrite (LAST w3 cs P3). auto.
Qed.
