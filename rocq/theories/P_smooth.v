(** * The dispersion models and mixing rules are differentiable in their parameters *)

Require Import Reals.
From Coquelicot Require Import Coquelicot.
Require Import List Bool Arith String Lra Lia Psatz.
From Verif Require Import Base Cplx M_ema M_tmm M_disp M_struct M_model M_data M_objective Spec_struct Spec_optics Spec_whole Spec_objective Spec_diff Spec_jac Spec_smooth
  P_tmm P_struct P_diff.
Import ListNotations.
Open Scope list_scope.
Open Scope R_scope.

Definition osm (f : R -> option R) (x : R) : Prop := exists g, locally x (fun t => f t = Some (g t)) /\ ex_derive g x.
Definition csm (f : R -> option C) (x : R) : Prop := exists g, locally x (fun t => f t = Some (g t)) /\ cdiff g x.

Lemma locally_all (P : R -> Prop) x : (forall t, P t) -> locally x P.
Proof. intros H. apply filter_forall. exact H. Qed.
Lemma osm_some g x : ex_derive g x -> osm (fun t => Some (g t)) x.
Proof. intros H. exists g. split; [apply locally_all; reflexivity|exact H]. Qed.
Lemma csm_some g x : cdiff g x -> csm (fun t => Some (g t)) x.
Proof. intros H. exists g. split; [apply locally_all; reflexivity|exact H]. Qed.
Lemma osm_loc f g x : locally x (fun t => g t = f t) -> osm f x -> osm g x.
Proof. intros H (q & L & D). exists q. split; [|exact D]. apply filter_imp with (2 := filter_and _ _ H L). intros t [A B]. congruence. Qed.
Lemma csm_loc f g x : locally x (fun t => g t = f t) -> csm f x -> csm g x.
Proof. intros H (q & L & D). exists q. split; [|exact D]. apply filter_imp with (2 := filter_and _ _ H L). intros t [A B]. congruence. Qed.
Lemma csm_ext f g x : (forall t, g t = f t) -> csm f x -> csm g x.
Proof. intros H. apply csm_loc, locally_all, H. Qed.

Lemma osm_bind (f : R -> option R) (h : R -> R -> option R) x : (f x <> None -> osm f x) ->
  (forall g, ex_derive g x -> f x = Some (g x) -> h x (g x) <> None -> osm (fun t => h t (g t)) x) ->
  obind (f x) (h x) <> None -> osm (fun t => obind (f t) (h t)) x.
Proof.
  intros A B N. assert (F : f x <> None) by (destruct (f x); [discriminate|exact N]). destruct (A F) as (g & L & D).
  pose proof (locally_singleton _ _ L) as L0. cbv beta in L0. rewrite L0 in N. cbn [obind] in N.
  apply osm_loc with (fun t => h t (g t)); [|apply B; auto].
  apply filter_imp with (2 := L). intros t ->. reflexivity.
Qed.
Lemma osm_odiv f g x : ex_derive f x -> (g x <> 0 -> ex_derive g x) -> odiv (f x) (g x) <> None -> osm (fun t => odiv (f t) (g t)) x.
Proof.
  intros F G N. unfold odiv in N. destruct (Req_EM_T (g x) 0) as [|K]; [congruence|]. specialize (G K).
  exists (fun t => f t / g t). split.
  - apply filter_imp with (2 := ne_near g x 0 (diff_cont _ _ G) K). intros t T. unfold odiv. destruct (Req_EM_T (g t) 0); [contradiction|reflexivity].
  - apply ex_derive_div; auto.
Qed.
Lemma osm_osqrt f x : ex_derive f x -> 0 < f x -> osm (fun t => osqrt (f t)) x.
Proof.
  intros F P. exists (fun t => sqrt (f t)). split.
  - apply filter_imp with (2 := pos_near f x (diff_cont _ _ F) P). intros t T. unfold osqrt. destruct (Rle_dec 0 (f t)); [reflexivity|lra].
  - apply (diff_comp sqrt); [apply diff_sqrt; exact P|exact F].
Qed.
Lemma osm_oln f x : ex_derive f x -> oln (f x) <> None -> osm (fun t => oln (f t)) x.
Proof.
  intros F N. unfold oln in N. destruct (Rlt_dec 0 (f x)) as [P|]; [|congruence]. exists (fun t => ln (f t)). split.
  - apply filter_imp with (2 := pos_near f x (diff_cont _ _ F) P). intros t T. unfold oln. destruct (Rlt_dec 0 (f t)); [reflexivity|lra].
  - apply (diff_comp ln); [|exact F]. auto_derive. exact P.
Qed.
Lemma osm_oatan f g x : ex_derive f x -> ex_derive g x -> g x <> 0 -> osm (fun t => oatan_div (f t) (g t)) x.
Proof.
  intros F G K. exists (fun t => atan (f t / g t)). split.
  - apply filter_imp with (2 := ne_near g x 0 (diff_cont _ _ G) K). intros t T. unfold oatan_div. destruct (Req_EM_T (g t) 0); [contradiction|reflexivity].
  - apply (diff_comp atan); [apply diff_atan|]. apply ex_derive_div; auto.
Qed.
Lemma diff_abs f x : ex_derive f x -> f x <> 0 -> ex_derive (fun t => Rabs (f t)) x.
Proof. intros [l D] N. eexists. apply (is_derive_Rabs f x l D N). Qed.
Lemma diff_pow f n x : ex_derive f x -> ex_derive (fun t => f t ^ n) x.
Proof. intros D. apply ex_derive_pow. exact D. Qed.
Lemma diff_id x : ex_derive (fun t : R => t) x. Proof. auto_derive. exact I. Qed.
Lemma diff_plus f g x : ex_derive f x -> ex_derive g x -> ex_derive (fun t => f t + g t) x.
Proof. apply (ex_derive_plus (V := R_NormedModule)). Qed.
Lemma diff_minus f g x : ex_derive f x -> ex_derive g x -> ex_derive (fun t => f t - g t) x.
Proof. apply (ex_derive_minus (V := R_NormedModule)). Qed.
Lemma diff_opp f x : ex_derive f x -> ex_derive (fun t => - f t) x.
Proof. apply (ex_derive_opp (V := R_NormedModule)). Qed.
Lemma diff_mult f g x : ex_derive f x -> ex_derive g x -> ex_derive (fun t => f t * g t) x.
Proof. intros. apply ex_derive_mult; assumption. Qed.
Lemma diff_cst (c : R) x : ex_derive (fun _ => c) x. Proof. apply ex_derive_const. Qed.
Lemma diff_over f c x : ex_derive f x -> ex_derive (fun t => f t / c) x.
Proof. intros. apply diff_mult; [assumption|apply diff_cst]. Qed.

Ltac dd := repeat match goal with
  | H : ex_derive ?f ?x |- ex_derive ?f ?x => exact H
  | |- ex_derive (fun _ => ?c) ?x => exact (diff_cst c x)
  | |- ex_derive (fun t => @?f t + @?g t) ?x => refine (diff_plus f g x _ _); cbv beta
  | |- ex_derive (fun t => @?f t - @?g t) ?x => refine (diff_minus f g x _ _); cbv beta
  | |- ex_derive (fun t => @?f t * @?g t) ?x => refine (diff_mult f g x _ _); cbv beta
  | |- ex_derive (fun t => @?f t / ?c) ?x => refine (diff_over f c x _); cbv beta
  | |- ex_derive (fun t => - @?f t) ?x => refine (diff_opp f x _); cbv beta
  | |- ex_derive (fun t => (@?f t) ^ ?n) ?x => refine (diff_pow f n x _); cbv beta
  end.

(** ** Cauchy, Sellmeier *)
Lemma cauchy_smooth A B C0 w x : ex_derive A x -> ex_derive B x -> ex_derive C0 x -> w <> 0 -> csm (fun t => cauchy_complex (A t) (B t) (C0 t) w) x.
Proof.
  intros HA HB HC W. assert (W2 : w ^ 2 <> 0) by (apply pow_nonzero; exact W). assert (W4 : w ^ 4 <> 0) by (apply pow_nonzero; exact W).
  apply csm_ext with (fun t => Some (RtoC (A t + B t * 1000 ^ 2 / w ^ 2 + C0 t * 1000 ^ 4 / w ^ 4))).
  - intros t. unfold cauchy_complex, odiv. destruct (Req_EM_T (w ^ 2) 0); [contradiction|]. destruct (Req_EM_T (w ^ 4) 0); [contradiction|]. reflexivity.
  - apply csm_some, cdiff_RtoC. dd.
Qed.
Lemma cauchy_zero A B C0 w n : cauchy_complex A B C0 w = Some n -> w <> 0.
Proof. intros H E. subst w. unfold cauchy_complex, odiv in H. destruct (Req_EM_T (0 ^ 2) 0) as [|N]; [discriminate|]. apply N. ring. Qed.

Lemma sellmeier_smooth Am En P Ei w x n : ex_derive Am x -> ex_derive En x -> ex_derive P x -> ex_derive Ei x ->
  sellmeier_complex (Am x) (En x) (P x) (Ei x) w = Some n -> 0 < Re n -> csm (fun t => sellmeier_complex (Am t) (En t) (P t) (Ei t) w) x.
Proof.
  intros HA HE HP HI E N. unfold sellmeier_complex in *.
  destruct (obind (sellmeier_real (Am x) (En x) (P x) (Ei x) w) osqrt) as [r|] eqn:Q; [|discriminate]. cbn [omap] in E. assert (En' : n = RtoC r) by congruence. subst n. cbn in N.
  assert (S : osm (fun t => obind (sellmeier_real (Am t) (En t) (P t) (Ei t) w) osqrt) x).
  { apply (osm_bind (fun t => sellmeier_real (Am t) (En t) (P t) (Ei t) w) (fun _ => osqrt)); [| |rewrite Q; discriminate].
    - intros D. unfold sellmeier_real in *. apply (osm_bind (fun t => odiv (Am t * (w / 1000) ^ 2) ((w / 1000) ^ 2 - En t ^ 2)) (fun t q => Some (Ei t + q - P t * (w / 1000) ^ 2))); [| |exact D].
      + intros D1. apply (osm_odiv (fun t => Am t * (w / 1000) ^ 2) (fun t => (w / 1000) ^ 2 - En t ^ 2)); [dd|intros _; dd|exact D1].
      + intros g G _ _. apply osm_some. dd.
    - intros g G Eg _. apply osm_osqrt; [exact G|]. rewrite Eg in Q. cbn [obind] in Q. unfold osqrt in Q. destruct (Rle_dec 0 (g x)) as [L|]; [|discriminate].
      assert (r = sqrt (g x)) by congruence. destruct L as [L|L]; [exact L|]. rewrite <- L, sqrt_0 in H. lra. }
  destruct S as (g & L & D). exists (fun t => RtoC (g t)). split; [|apply cdiff_RtoC; exact D].
  apply filter_imp with (2 := L). intros t ->. reflexivity.
Qed.

(** ** square roots *)
Lemma re_csqrt_pos (z : C) : 0 < Re (csqrt z) -> 0 < Cmod z + Re z.
Proof.
  intros H. unfold csqrt in H. cbn [Re fst] in H. apply Rnot_le_lt. intros L. rewrite sqrt_neg_0 in H by lra. lra.
Qed.
Lemma csm_sqrt (f : R -> option C) x n : csm f x -> omap csqrt (f x) = Some n -> 0 < Re n -> csm (fun t => omap csqrt (f t)) x.
Proof.
  intros (g & L & D) E N. pose proof (locally_singleton _ _ L) as L0. cbv beta in L0. rewrite L0 in E. cbn [omap] in E. injection E as <-.
  exists (fun t => csqrt (g t)). split; [|apply cdiff_csqrt; [apply re_csqrt_pos; exact N|exact D]].
  apply filter_imp with (2 := L). intros t ->. reflexivity.
Qed.
Lemma root_off_cut (z : C) : ~ (Im z = 0 /\ Re z <= 0) -> 0 < Cmod z + Re z.
Proof.
  intros H. pose proof (Cmod_Re_le2 z). pose proof (Cmod_ge_0 z).
  destruct (Rlt_dec 0 (Re z)) as [P|P]; [lra|]. apply Rnot_le_lt. intros L. apply H. split; [|lra].
  assert (E : Cmod z * Cmod z = Re z * Re z + Im z * Im z).
  { unfold Cmod. rewrite sqrt_sqrt by nra. unfold Re, Im. ring. }
  nra.
Qed.

(** ** sums of oscillators *)
Lemma osum_smooth {O : Type} (term : R -> O -> option C) (l : list O) x : List.Forall (fun o => term x o <> None -> csm (fun t => term t o) x) l ->
  osum (map (term x) l) <> None -> csm (fun t => osum (map (term t) l)) x.
Proof.
  induction 1 as [|o l H F IH]; intros N; cbn [map osum] in *.
  - apply csm_some, cdiff_const.
  - destruct (term x o) as [a|] eqn:A; [|exfalso; apply N; reflexivity]. destruct (osum (map (term x) l)) as [b|] eqn:B; [|exfalso; apply N; reflexivity].
    destruct H as (f & Lf & Df); [discriminate|]. destruct IH as (g & Lg & Dg); [discriminate|]. exists (fun t => f t + g t)%C. split; [|exact (cdiff_plus f g x Df Dg)].
    apply filter_imp with (2 := filter_and _ _ Lf Lg). intros t [-> ->]. reflexivity.
Qed.

(** a parameter's triple *)
Definition trip := ((R -> R) * (R -> R) * (R -> R))%type.
Definition at_t (t : R) (o : trip) : osc := (fst (fst o) t, snd (fst o) t, snd o t).
Lemma oscillators_at (v : R -> pid -> R) a b c t : oscillators (v t) a b c = map (at_t t) (combine (combine (map (fun p t => v t p) a) (map (fun p t => v t p) b)) (map (fun p t => v t p) c)).
Proof.
  unfold oscillators. revert b c. induction a as [|p a IH]; intros [|q b] [|r c]; cbn [map combine]; try reflexivity. f_equal. apply IH.
Qed.
Lemma trips_smooth (v : R -> pid -> R) a b c x : (forall p, In p (a ++ b ++ c) -> ex_derive (fun t => v t p) x) ->
  List.Forall (fun o : trip => ex_derive (fst (fst o)) x /\ ex_derive (snd (fst o)) x /\ ex_derive (snd o) x) (combine (combine (map (fun p t => v t p) a) (map (fun p t => v t p) b)) (map (fun p t => v t p) c)).
Proof.
  revert b c. induction a as [|p a IH]; intros [|q b] [|r c] H; cbn [map combine]; try constructor.
  - cbn [fst snd]. repeat split; apply H; rewrite !in_app_iff; cbn; auto.
  - apply IH. intros s S. apply H. rewrite !in_app_iff in *. cbn. tauto.
Qed.

(** ** Lorentz *)
Lemma lorentz_term_smooth e o x : ex_derive (fst (fst o)) x -> ex_derive (snd (fst o)) x -> ex_derive (snd o) x ->
  lorentz_term e (at_t x o) <> None -> csm (fun t => lorentz_term e (at_t t o)) x.
Proof.
  destruct o as [[A B] E]. cbn [fst snd]. intros HA HB HE N. unfold lorentz_term, at_t in *. cbn [fst snd] in *. unfold cdivo in N.
  set (q := fun t => (RtoC (E t ^ 2 - e ^ 2) - Ci * RtoC (B t * e))%C). fold (q x) in N. destruct (Ceq_dec (q x) 0) as [|K]; [congruence|].
  assert (D : cdiff q x).
  { apply cdiff_minus; [apply cdiff_RtoC; dd|]. exact (cdiff_mult (fun _ => Ci) _ x (cdiff_const _ x) (cdiff_RtoC (fun t => B t * e) x ltac:(dd))). }
  exists (fun t => RtoC (A t) / q t)%C. split.
  - apply filter_imp with (2 := nz_near q x (cdiff_ccont q x D) K). intros t T. unfold cdivo. fold (q t). destruct (Ceq_dec (q t) 0); [contradiction|reflexivity].
  - exact (cdiff_div (fun t => RtoC (A t)) q x K (cdiff_RtoC A x HA) D).
Qed.
Lemma plus_inf (f : R -> option C) Ei x : csm f x -> ex_derive Ei x -> csm (fun t => omap (fun s => s + RtoC (Ei t))%C (f t)) x.
Proof.
  intros (g & L & D) H. exists (fun t => g t + RtoC (Ei t))%C. split; [|exact (cdiff_plus g _ x D (cdiff_RtoC Ei x H))].
  apply filter_imp with (2 := L). intros t ->. reflexivity.
Qed.
Lemma lorentz_smooth (os : list trip) Ei e x : List.Forall (fun o : trip => ex_derive (fst (fst o)) x /\ ex_derive (snd (fst o)) x /\ ex_derive (snd o) x) os -> ex_derive Ei x ->
  lorentz_epsilon (map (at_t x) os) (Ei x) e <> None -> csm (fun t => lorentz_epsilon (map (at_t t) os) (Ei t) e) x.
Proof.
  intros F H N. unfold lorentz_epsilon in *. apply plus_inf; [|exact H].
  apply csm_ext with (fun t => osum (map (fun o => lorentz_term e (at_t t o)) os)); [intros t; rewrite map_map; reflexivity|].
  apply (osum_smooth (fun t o => lorentz_term e (at_t t o))).
  - eapply List.Forall_impl; [|exact F]. cbv beta. intros o (A & B & E). apply lorentz_term_smooth; assumption.
  - rewrite map_map in N. intros Z. rewrite Z in N. apply N. reflexivity.
Qed.
