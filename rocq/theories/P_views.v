(** * Sessions with every call that looks at the objects: what is left behind *)

Require Import Reals List Bool String ZArith Lia Arith Lra FunctionalExtensionality.
From Verif Require Import Base M_disp M_struct M_model M_data M_objective M_session M_life M_fit M_plot M_covar M_views.
From Verif Require Import Spec_struct Spec_optics Spec_whole Spec_data Spec_objective Spec_session Spec_life Spec_fit Spec_views.
From Verif Require Import P_struct P_objective P_objective2 P_session P_session2 P_data P_life P_life2 P_life3 P_whole P_fit P_fit2 P_fit3 P_fit4.
Import ListNotations.
Open Scope list_scope.
Open Scope R_scope.

(** ** structure.wavelength *)
Lemma edit_same s s' a f g : same_session s s' -> (forall x y, same_struct x y -> same_struct (f x) (g y)) ->
  same_session (edit s a f) (edit s' a g).
Proof.
  intros (E1 & E2 & E3 & E4 & E5) H. unfold edit. repeat split; auto. cbn [with_structs se_structs]. clear - E5 H. revert a.
  induction E5 as [|x y l l' S F IH]; intros [|a]; cbn; constructor; auto.
Qed.
Lemma relit_same w a lam : same_world (with_session w (edit (wo_session w) a (wavelength_to lam))) w.
Proof.
  split; [|auto]. cbn [with_session wo_session]. set (s := wo_session w). unfold edit. repeat split; cbn [se_structs with_structs].
  generalize a. induction (se_structs s); intros [|i]; cbn; constructor; auto using same_refl, same_refl2. repeat split.
Qed.
Lemma absorb_model_same w m st : same_world (absorb_model w m st) w.
Proof. destruct m; [apply relit_same|apply world_refl]. Qed.

(** ** parameter vectors *)
Lemma among_same s s' ps : same_session s s' -> varying_among s ps = varying_among s' ps.
Proof. intros (E & _). unfold varying_among, settings_of. rewrite E. reflexivity. Qed.
Lemma pvals_same w w' ps v : same_world w w' -> fst (w_pvals w ps v) = fst (w_pvals w' ps v) /\ same_world (snd (w_pvals w ps v)) (snd (w_pvals w' ps v)).
Proof.
  intros S. unfold w_pvals. rewrite (among_same _ _ ps (proj1 S)).
  destruct (Nat.eqb _ _); cbn [fst snd]; [split; auto; apply with_same; auto; apply put_same, S|].
  destruct (Nat.eqb _ _); cbn [fst snd]; [split; auto; apply with_same; auto; apply put_same, S|]. split; auto.
Qed.
Lemma pvals_opt_same w w' ps v : same_world w w' -> fst (w_pvals_opt w ps v) = fst (w_pvals_opt w' ps v) /\ same_world (snd (w_pvals_opt w ps v)) (snd (w_pvals_opt w' ps v)).
Proof. intros S. destruct v as [v|]; [apply pvals_same; auto|split; auto]. Qed.
Lemma listed_struct_same s s' a : same_session s s' -> listed_struct s (struct_at s a) = listed_struct s' (struct_at s' a).
Proof.
  intros (E1 & E2 & E3 & E4 & E5). unfold listed_struct, struct_at, comp_at, scat_at.
  destruct (same_nth _ _ a E5) as (S1 & S2 & S3 & _). rewrite S1, S3, E2, E3. reflexivity.
Qed.

(** ** model(X, p) *)
Lemma model_effect ext w m X p : same_world (snd (w_model ext w m X p)) (snd (w_pvals_opt w (listed (wo_session w) m) p)).
Proof.
  unfold w_model. destruct (w_pvals_opt w (listed (wo_session w) m) p) as [[u|e] w1]; cbn [snd]; [|apply world_refl].
  destruct (evaluation ext (wo_session w1) m X) as [r lam]. cbn [snd]. apply relit_same.
Qed.

(** ** plots of data *)
Lemma plot_harmless ext w o xaxis : same_world (snd (w_plot ext w o xaxis)) w.
Proof. apply calling_same. Qed.
Lemma ellips_harmless ext w d m o xaxis resax : same_world (snd (w_ellips ext w d m o xaxis resax)) w.
Proof. unfold w_ellips. destruct (plot_ellipsdata _ _ _ _ _ _ _) as [r st]. cbn [snd]. apply absorb_model_same. Qed.

(** ** plot_structure *)
Lemma set_set s l l' : set_wavelength (set_wavelength s l) l' = set_wavelength s l'.
Proof. reflexivity. Qed.
Lemma loop_reverse ext wavs : forall s r s', plot_loop ext s wavs = (r, s') -> st_reverse s' = st_reverse s.
Proof.
  induction wavs as [|wav wavs IH]; intros s r s' E; [cbn in E; congruence|]. cbn [plot_loop] in E.
  destruct (ri_profile _ _ _ _) as [c|e]; [|inversion E; reflexivity].
  destruct (plot_loop ext (set_wavelength s (Some wav)) wavs) as [[cs|e] s1] eqn:E1; inversion E; subst; rewrite (IH _ _ _ E1); reflexivity.
Qed.
Lemma loop_lit ext wavs s lam : fst (plot_loop ext (set_wavelength s lam) wavs) = fst (plot_loop ext s wavs).
Proof. destruct wavs as [|wav wavs]; [reflexivity|]. cbn [plot_loop]. rewrite set_set. reflexivity. Qed.
Lemma plot_reverse ext s ws reverse : st_reverse (snd (plot_structure ext s ws reverse)) =
  match fst (plot_structure ext s ws reverse) with Ok _ => false | Raise _ => reverse end.
Proof.
  unfold plot_structure. destruct (plot_loop _ _ _) as [[cs|e] s'] eqn:E; [reflexivity|]. cbn [fst snd]. rewrite (loop_reverse _ _ _ _ _ E). reflexivity.
Qed.
Lemma plot_lit ext s ws reverse lam : fst (plot_structure ext (set_wavelength s lam) ws reverse) = fst (plot_structure ext s ws reverse).
Proof.
  unfold plot_structure. change (set_reverse (set_wavelength s lam) reverse) with (set_wavelength (set_reverse s reverse) lam).
  pose proof (loop_lit ext (plotted_wavelengths ws) (set_reverse s reverse) lam) as L.
  destruct (plot_loop _ (set_wavelength _ _) _) as [[cs|e] s1], (plot_loop _ (set_reverse _ _) _) as [[cs'|e'] s2]; cbn [fst] in *; congruence.
Qed.
(** the structure as [show_structure] sees it, in worlds that differ in wavelengths *)
Lemma shown_same w w' a : same_world w w' -> let s := wo_session w in let s' := wo_session w' in
  inst_structure (value_of s) (so_wavelength (struct_at s a)) (struct_now s (struct_at s a)) =
  set_wavelength (inst_structure (value_of s') (so_wavelength (struct_at s' a)) (struct_now s' (struct_at s' a))) (so_wavelength (struct_at s a)).
Proof.
  intros S s s'. rewrite (struct_now_same s s' (struct_at s a) (struct_at s' a)); [|apply S|].
  - unfold s. rewrite (value_same w w' S). reflexivity.
  - destruct S as ((_ & _ & _ & _ & E5) & _). apply same_nth. exact E5.
Qed.
Lemma shown_equal ext w w' a ws reverse : same_world w w' -> fst (show_structure ext w a ws reverse) = fst (show_structure ext w' a ws reverse).
Proof.
  intros S. unfold show_structure. pose proof (shown_same w w' a S) as E. cbv zeta in E. rewrite E.
  pose proof (plot_lit ext (inst_structure (value_of (wo_session w')) (so_wavelength (struct_at (wo_session w') a)) (struct_now (wo_session w') (struct_at (wo_session w') a))) ws reverse (so_wavelength (struct_at (wo_session w) a))) as L.
  destruct (plot_structure ext (set_wavelength _ _) ws reverse) as [r s1], (plot_structure ext _ ws reverse) as [r' s2]. cbn [fst] in *. exact L.
Qed.
Definition turned (w : world) (a : nat) (b : bool) : world := with_session w (edit (wo_session w) a (reverse_to b)).
Lemma show_effect ext w a ws reverse : same_world (snd (show_structure ext w a ws reverse))
  (turned w a (match fst (show_structure ext w a ws reverse) with Ok _ => false | Raise _ => reverse end)).
Proof.
  unfold show_structure. pose proof (plot_reverse ext (inst_structure (value_of (wo_session w)) (so_wavelength (struct_at (wo_session w) a)) (struct_now (wo_session w) (struct_at (wo_session w) a))) ws reverse) as E.
  destruct (plot_structure _ _ _ _) as [r s']. cbn [fst snd] in *. rewrite E. apply with_same; [apply world_refl|].
  apply edit_same; [apply same_session_refl|]. intros x y (S1 & S2 & S3 & S4 & S5 & S6 & S7). repeat split; auto.
Qed.
Lemma turned_same w w' a b : same_world w w' -> same_world (turned w a b) (turned w' a b).
Proof.
  intros S. apply with_same; auto. apply edit_same; [apply S|]. intros x y (S1 & S2 & S3 & S4 & S5 & S6 & S7). repeat split; auto.
Qed.
Lemma show_same ext w w' a ws reverse : same_world w w' -> same_world (snd (show_structure ext w a ws reverse)) (snd (show_structure ext w' a ws reverse)).
Proof.
  intros S. eapply world_trans; [apply show_effect|]. rewrite (shown_equal ext w w' a ws reverse S).
  eapply world_trans; [apply turned_same; exact S|]. apply world_sym, show_effect.
Qed.
Lemma view_same ext w w' o a reverse : same_world w w' -> same_world (snd (w_view ext w o a reverse)) (snd (w_view ext w' o a reverse)).
Proof.
  intros S. unfold w_view. pose proof S as (T & L & O). pose proof (system_same ext w w' S) as SY. unfold obj_at. rewrite SY, L, O. pose proof T as (_ & _ & _ & E & _).
  destruct o as [o|], a as [a|]; cbn [snd]; auto; [|apply show_same; auto].
  destruct (wavelengths_of _ _) as [ws|e]; cbn [snd]; auto. unfold model_at. rewrite E. apply show_same. exact S.
Qed.

(** ** StructureSE.plot without samples *)
Lemma draw_effect ext w a pvals samples chain align : (samples <= 0)%Z ->
  same_world (snd (w_draw ext w a pvals samples chain align)) (snd (w_pvals_opt w (listed_struct (wo_session w) (struct_at (wo_session w) a)) pvals)).
Proof.
  intros N. unfold w_draw. destruct (w_pvals_opt _ _ _) as [[u|e] w1]; cbn [snd]; [|apply world_refl].
  destruct (Z.ltb_spec 0 samples); [lia|]. apply world_refl.
Qed.

(** ** covar *)
Definition proper_session (s : session) : Prop := forall p, p_vary (settings_of s p) = true -> p_constraint (settings_of s p) = None.
(** [s'] is [s] but for the numbers of the parameters [vs] and wavelengths *)
Definition near (vs : list pid) (s s' : session) : Prop :=
  exists prm, same_session s' (with_params s prm) /\ List.length prm = List.length (se_params s) /\
    forall q d, fst (nth q prm d) = fst (nth q (se_params s) d) /\ (~ In q vs -> nth q prm d = nth q (se_params s) d).
Definition near_world (vs : list pid) (w w' : world) : Prop :=
  near vs (wo_session w) (wo_session w') /\ wo_life w' = wo_life w /\ wo_objs w' = wo_objs w.
Lemma near_refl vs w : near_world vs w w.
Proof. split; [|auto]. exists (se_params (wo_session w)). split; [destruct (wo_session w); apply same_session_refl|]. auto. Qed.
Lemma near_put vs s s' p x : near vs s s' -> In p vs -> near vs s (put_value s' p x).
Proof.
  intros (prm & S & L & H) I. exists (update prm p (fun q => (fst q, x))). split.
  { unfold put_value. exact (same_with_params s' (with_params s prm) (fun q => update q p (fun r => (fst r, x))) S). }
  split; [rewrite update_len; exact L|]. intros q d. destruct (Nat.lt_ge_cases q (List.length prm)) as [B|B].
  - rewrite nth_update by exact B. destruct (H q d) as [H1 H2]. destruct (Nat.eqb_spec q p) as [->|N]; cbn [fst]; split; auto. contradiction.
  - rewrite !nth_overflow by (rewrite ?update_len; lia). auto.
Qed.
Lemma near_puts vs s s' ps v : near vs s s' -> (forall p, In p ps -> In p vs) -> near vs s (put_values s' ps v).
Proof.
  unfold put_values. intros N. revert s' v N. induction ps as [|p ps IH]; intros s' [|x v] N H; try exact N. cbn [combine fold_left fst snd]. apply IH; [|intros q Q; apply H; right; exact Q].
  apply near_put; auto. apply H. left. reflexivity.
Qed.
Lemma near_same vs w w' w'' : near_world vs w w' -> same_world w'' w' -> near_world vs w w''.
Proof.
  intros ((prm & S & H) & L & O) (T & L' & O'). split; [|split; congruence]. exists prm. split; [|exact H]. eapply same_trans; eauto.
Qed.
Lemma near_settings vs s s' : near vs s s' -> settings_of s' = settings_of s.
Proof. intros (prm & (E & _) & _ & H). apply functional_extensionality. intros p. unfold settings_of. rewrite E. apply H. Qed.
Lemma near_lists vs w w' o : near_world vs w w' -> parameters_now w' o = parameters_now w o /\ varying_now w' o = varying_now w o.
Proof.
  intros (N & L & O). assert (P : parameters_now w' o = parameters_now w o).
  { unfold parameters_now, obj_at. rewrite O. f_equal. destruct N as (prm & S & _). rewrite (listed_same _ _ _ S). reflexivity. }
  split; [exact P|]. unfold varying_now. rewrite P, (near_settings _ _ _ N). reflexivity.
Qed.
Lemma near_setp w w' o v : near_world (varying_now w o) w w' -> List.length v = List.length (varying_now w o) ->
  fst (w_setp w' o (Some v)) = Ok tt /\ near_world (varying_now w o) w (snd (w_setp w' o (Some v))).
Proof.
  intros N E. unfold w_setp. destruct (near_lists _ _ _ o N) as [_ V]. rewrite V, E, Nat.eqb_refl. cbn [fst snd]. split; [auto|].
  destruct N as (N & L & O). split; [|auto]. apply near_puts; auto.
Qed.
Lemma near_residuals ext w w' o v : near_world (varying_now w o) w w' -> List.length v = List.length (varying_now w o) ->
  near_world (varying_now w o) w (snd (w_residuals ext w' o (Some v))).
Proof. intros N E. eapply near_same; [apply (near_setp w w' o v N E)|apply residuals_effect]. Qed.
Lemma diff_near w o n (f : world -> list R -> result (list num) * world) d :
  (forall w' v, near_world (varying_now w o) w w' -> List.length v = n -> near_world (varying_now w o) w (snd (f w' v))) -> visits n d ->
  forall w', near_world (varying_now w o) w w' -> near_world (varying_now w o) w (snd (w_diff f d w')).
Proof.
  intros F V. induction V as [v k L V IH|jac|e]; intros w' N; cbn [w_diff snd]; auto.
  specialize (F w' v N L). destruct (f w' v) as [r w1]. cbn [snd] in F. apply IH. exact F.
Qed.
Lemma map2_len {A B C} (g : A -> B -> C) a b : List.length a = List.length b -> List.length (map2 g a b) = List.length a.
Proof. revert b. induction a as [|x a IH]; intros [|y b] H; cbn in *; try discriminate; auto. Qed.
Lemma jacobian_near ext w o pvals a1 a2 : (forall v, visits (List.length v) (a1 v) /\ visits (List.length v) (a2 v)) ->
  List.length pvals = List.length (varying_now w o) -> near_world (varying_now w o) w (snd (w_jacobian ext w o pvals a1 a2)).
Proof.
  intros V L. unfold w_jacobian.
  assert (A : near_world (varying_now w o) w (snd (if existsb (fun x => if Req_EM_T x 0 then true else false) pvals then (Raise FloatingPointError, w)
     else w_diff (fun w vals => w_residuals ext w o (Some (map2 Rmult pvals vals))) (a1 (map (fun _ => 1) pvals)) w))).
  { destruct (existsb _ _); [apply near_refl|]. apply diff_near with (n := List.length pvals); [|specialize (proj1 (V (map (fun _ => 1) pvals))); rewrite map_length; auto|apply near_refl].
    intros w' v N E. apply near_residuals; auto. rewrite map2_len by congruence. exact L. }
  destruct (if existsb _ _ then _ else _) as [[j|e] w1]; cbn [snd] in A; [exact A|].
  assert (B : near_world (varying_now w o) w (snd (w_diff (fun w vals => w_residuals ext w o (Some vals)) (a2 pvals) w1))).
  { apply diff_near with (n := List.length pvals); [|apply V|exact A]. intros w' v N E. apply near_residuals; auto. congruence. }
  destruct e; try exact A. destruct (w_diff _ (a2 pvals) w1) as [r w2]. exact B.
Qed.
(** writing back the numbers of [vs] *)
Lemma put_back s' ps (g : pid -> R) q d : (q < List.length (se_params s'))%nat ->
  nth q (se_params (put_values s' ps (map g ps))) d = if in_dec Nat.eq_dec q ps then (fst (nth q (se_params s') d), g q) else nth q (se_params s') d.
Proof.
  unfold put_values. revert s'. induction ps as [|p ps IH]; intros s' B; [reflexivity|]. cbn [map combine fold_left fst snd].
  rewrite IH by (rewrite put_length; exact B). unfold put_value. cbn [with_params se_params]. rewrite nth_update by exact B.
  destruct (Nat.eqb_spec q p) as [->|N]; cbn [fst].
  - destruct (in_dec Nat.eq_dec p ps); destruct (in_dec Nat.eq_dec p (p :: ps)) as [_|X]; try reflexivity; exfalso; apply X; left; reflexivity.
  - destruct (in_dec Nat.eq_dec q ps) as [I|I]; destruct (in_dec Nat.eq_dec q (p :: ps)) as [J|J]; try reflexivity.
    + exfalso. apply J. right. exact I.
    + exfalso. destruct J as [J|J]; [apply N; auto|contradiction].
Qed.
Lemma put_back_same w w' o : proper_session (wo_session w) -> near_world (varying_now w o) w w' ->
  same_world (snd (w_setp w' o (Some (map (value_of (wo_session w)) (varying_now w o))))) w.
Proof.
  intros P N. unfold w_setp. destruct (near_lists _ _ _ o N) as [_ V]. rewrite V, map_length, Nat.eqb_refl. cbn [snd].
  destruct N as ((prm & S & L & H) & LL & OO). split; [|auto]. cbn [with_session wo_session].
  assert (V' : map (value_of (wo_session w)) (varying_now w o) = map (numbers (wo_session w)) (varying_now w o)).
  { apply map_ext_in. intros p I. unfold varying_now in I. rewrite unique_In, filter_In in I. unfold value_of, read. rewrite P by apply I. reflexivity. }
  rewrite V'. clear V'. assert (E : se_params (wo_session w') = prm) by (destruct S as (E & _); exact E).
  assert (G : se_params (put_values (wo_session w') (varying_now w o) (map (numbers (wo_session w)) (varying_now w o))) = se_params (wo_session w)).
  { assert (LP : List.length (se_params (put_values (wo_session w') (varying_now w o) (map (numbers (wo_session w)) (varying_now w o)))) = List.length prm).
    { rewrite <- E. unfold put_values. generalize (wo_session w'). induction (combine _ _) as [|[q x] l0 IH]; intros s; [reflexivity|]. cbn [fold_left]. rewrite IH. apply put_length. }
    set (d := (Param false None (Interval 0 0), 0)).
    apply nth_ext with (d := d) (d' := d); [congruence|]. intros q B.
    rewrite put_back by (rewrite E; congruence). rewrite E. destruct (H q d) as [H1 H2]. destruct (in_dec _ _ _) as [I|I]; [|auto].
    rewrite H1. unfold numbers. fold d. destruct (nth q (se_params (wo_session w)) d); reflexivity. }
  rewrite put_shape. destruct S as (_ & S). split; [exact G|]. exact S.
Qed.
Lemma covar_harmless ext w o a1 a2 svd : proper_session (wo_session w) -> (forall v, visits (List.length v) (a1 v) /\ visits (List.length v) (a2 v)) ->
  same_world (snd (w_covar ext w o a1 a2 svd)) w.
Proof.
  intros P V. unfold w_covar. set (pvals := map _ _). pose proof (jacobian_near ext w o pvals a1 a2 V ltac:(unfold pvals; apply map_length)) as J.
  destruct (w_jacobian ext w o pvals a1 a2) as [[jac used] w1]. cbn [snd] in J. pose proof (put_back_same w w1 o P J) as B. fold pvals in B.
  destruct (w_setp w1 o (Some pvals)) as [[u|e] w2]; cbn [snd] in *; [|exact B].
  destruct (rbind _ _) as [[j cov]|e]; [|exact B]. destruct (weighted _); [exact B|].
  pose proof (chisqr_effect ext w2 o None) as Q. cbn [w_setp snd] in Q. destruct (w_chisqr ext w2 o None) as [[c2|e] w3]; cbn [snd] in *; [|eapply world_trans; eauto].
  destruct (obind _ _); cbn [snd]; eapply world_trans; eauto.
Qed.
