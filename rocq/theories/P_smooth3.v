(** * Materials, mixtures and whole structures move smoothly *)

Require Import Reals.
From Coquelicot Require Import Coquelicot.
Require Import List Bool Arith String Lra Lia Psatz.
From Verif Require Import Base Cplx M_ema M_tmm M_disp M_struct M_model M_data M_objective Spec_struct Spec_optics Spec_whole Spec_objective Spec_diff Spec_jac Spec_smooth
  P_tmm P_struct P_whole P_diff P_smooth P_smooth2.
Import ListNotations.
Open Scope list_scope.
Open Scope R_scope.

Lemma of_epsilon (f : R -> R -> option C) wav x n : (forall e, nm_eV_conversion wav = Some e -> f x e <> None -> csm (fun t => f t e) x) ->
  complex_of_epsilon (fun e => Ok (f x e)) wav = Ok (Some n) -> 0 < Re n -> smooth_index (fun t => complex_of_epsilon (fun e => Ok (f t e)) wav) x.
Proof.
  intros H E N. unfold complex_of_epsilon in *. destruct (nm_eV_conversion wav) as [e|]; [|discriminate]. cbn [rmap] in E.
  assert (E' : omap csqrt (f x e) = Some n) by congruence. specialize (H e eq_refl).
  assert (K : f x e <> None) by (intros Z; rewrite Z in E'; discriminate). destruct (csm_sqrt (fun t => f t e) x n (H K) E' N) as (g & L & D).
  exists g. split; [|exact D]. apply filter_imp with (2 := L). intros t T. cbn [rmap]. rewrite T. reflexivity.
Qed.

Theorem scat_smooth (v : R -> pid -> R) s w x n : (forall p, In p (scat_params s) -> ex_derive (fun t => v t p) x) ->
  sc_complex (inst_scat (v x) s) w = Ok (Some n) -> 0 < Re n -> well_behaved (v x) s w -> smooth_index (fun t => sc_complex (inst_scat (v t) s) w) x.
Proof.
  intros HP E N W. unfold sc_complex, inst_scat in *. cbn [sc_kind sc_wavelength] in *. unfold scat_params in HP. unfold well_behaved in W. set (wav := choose_wav (sct_wavelength s) w) in *.
  destruct (sct_kind s) as [d|A B C0|Am En P Ei|Am Br En Ei|h Am Br En Ei|Am C0 En Eg Ei|ps eps|].
  - exists (fun _ => n). split; [apply locally_all; intros; exact E|apply cdiff_const].
  - assert (E' : cauchy_complex (v x A) (v x B) (v x C0) wav = Some n) by congruence. apply cauchy_zero in E'.
    destruct (cauchy_smooth (fun t => v t A) (fun t => v t B) (fun t => v t C0) wav x) as (g & L & D); try (apply HP; cbn; tauto); auto.
    exists g. split; [|exact D]. apply filter_imp with (2 := L). intros t ->. reflexivity.
  - assert (E' : sellmeier_complex (v x Am) (v x En) (v x P) (v x Ei) wav = Some n) by congruence.
    destruct (sellmeier_smooth (fun t => v t Am) (fun t => v t En) (fun t => v t P) (fun t => v t Ei) wav x n) as (g & L & D); try (apply HP; cbn; tauto); auto.
    exists g. split; [|exact D]. apply filter_imp with (2 := L). intros t ->. reflexivity.
  - set (os := combine (combine (map (fun p t => v t p) Am) (map (fun p t => v t p) Br)) (map (fun p t => v t p) En)).
    assert (EO : forall t, oscillators (v t) Am Br En = map (at_t t) os) by (intros; apply oscillators_at).
    apply (of_epsilon (fun t e => lorentz_epsilon (oscillators (v t) Am Br En) (v t Ei) e) wav x n); [|exact E|exact N]. intros e _ K.
    apply csm_ext with (fun t => lorentz_epsilon (map (at_t t) os) (v t Ei) e); [intros t; rewrite EO; reflexivity|].
    apply (lorentz_smooth os (fun t => v t Ei)); [apply trips_smooth; intros; apply HP; rewrite !in_app_iff in *; tauto|apply HP; rewrite !in_app_iff; cbn; tauto|]. rewrite EO in K. exact K.
  - destruct W as [HL W]. set (os := combine (combine (map (fun p t => v t p) Am) (map (fun p t => v t p) Br)) (map (fun p t => v t p) En)).
    assert (EO : forall t, oscillators (v t) Am Br En = map (at_t t) os) by (intros; apply oscillators_at). unfold complex_of_epsilon in *.
    destruct (nm_eV_conversion wav) as [e|]; [|discriminate].
    destruct (gauss_smooth h os (fun t => v t Ei) e x) as (g & L & D); [|exact HL| | | |].
    + intros Z. rewrite EO, Z in E. discriminate.
    + apply trips_smooth. intros. apply HP. rewrite !in_app_iff in *. tauto.
    + unfold os. clear - W. revert Br En W. induction Am as [|a Am IH]; intros [|b Br] [|c En] W; cbn [map combine]; try constructor.
      * cbn [fst snd]. inversion W; assumption.
      * apply IH. inversion W; assumption.
    + apply HP. rewrite !in_app_iff. cbn. tauto.
    + pose proof (locally_singleton _ _ L) as L0. cbv beta in L0. rewrite EO, L0 in E. cbn [rmap omap] in E. assert (K : Some (csqrt (g x)) = Some n) by congruence. injection K as <-.
      exists (fun t => csqrt (g t)). split; [|apply cdiff_csqrt; [apply re_csqrt_pos; exact N|exact D]].
      apply filter_imp with (2 := L). intros t T. rewrite EO, T. reflexivity.
  - destruct W as [W1 W2]. set (os := combine (combine (map (fun p t => v t p) Am) (map (fun p t => v t p) C0)) (map (fun p t => v t p) En)).
    assert (EO : forall t, oscillators (v t) Am C0 En = map (at_t t) os) by (intros; apply oscillators_at).
    apply (of_epsilon (fun t e => tl_epsilon (oscillators (v t) Am C0 En) (v t Eg) (v t Ei) e) wav x n); [|exact E|exact N]. intros e _ K.
    apply csm_ext with (fun t => tl_epsilon (map (at_t t) os) (v t Eg) (v t Ei) e); [intros t; rewrite EO; reflexivity|].
    apply (tl_smooth os (fun t => v t Eg) (fun t => v t Ei)).
    + apply trips_smooth. intros. apply HP. rewrite !in_app_iff in *. tauto.
    + unfold os. clear - W1 W2. revert C0 En W1 W2. induction Am as [|a Am IH]; intros [|b Br] [|c En] W1 W2; cbn [map combine]; try constructor.
      * cbn [fst snd]. inversion W1; inversion W2; subst. split; assumption.
      * apply IH; [inversion W1|inversion W2]; assumption.
    + apply HP. rewrite !in_app_iff. cbn. tauto.
    + apply HP. rewrite !in_app_iff. cbn. tauto.
    + rewrite EO in K. exact K.
  - apply (of_epsilon (fun t e => eps (map (v t) ps) e) wav x n); [|exact E|exact N]. intros e He _.
    destruct (W e He (fun t => map (v t) ps) x) as (g & L & D); [|reflexivity|exists g; split; assumption].
    exists (map (fun p t => v t p) ps). split; [intros t; rewrite map_map; reflexivity|]. apply List.Forall_forall. intros f Hf. apply in_map_iff in Hf as (p & <- & Hp). apply HP. exact Hp.
  - discriminate.
Qed.

(** ** mixing *)
Theorem mix_smooth ema (a b : R -> C) (f : R -> R) d x m : cdiff a x -> cdiff b x -> ex_derive f x -> mix_ok ema (a x) (b x) (f x) d m ->
  exists g, locally x (fun t => overall_ri (a t) (b t) (f t) ema d = Ok (g t)) /\ cdiff g x /\ g x = m.
Proof.
  intros HA HB HF (E & N & BR). unfold overall_ri in *.
  assert (DA : cdiff (fun t => a t * a t)%C x) by exact (cdiff_mult a a x HA HA). assert (DB : cdiff (fun t => b t * b t)%C x) by exact (cdiff_mult b b x HB HB).
  set (ea := fun t => (a t * a t)%C) in *. set (eb := fun t => (b t * b t)%C) in *.
  assert (FIN : forall z : R -> C, cdiff z x -> Ok (csqrt (z x)) = Ok m -> exists g, locally x (fun t => Ok (csqrt (z t)) = Ok (g t)) /\ cdiff g x /\ g x = m).
  { intros z Dz Ez. exists (fun t => csqrt (z t)). split; [apply locally_all; reflexivity|]. assert (K : csqrt (z x) = m) by congruence. split; [|exact K].
    apply cdiff_csqrt; [apply re_csqrt_pos; rewrite K; exact N|exact Dz]. }
  destruct (String.eqb ema "linear").
  - apply (FIN (fun t => E_linear (a t * a t) (b t * b t) (f t))%C); [|exact E]. unfold E_linear.
    apply cdiff_plus; [exact (cdiff_mult (fun t => RtoC (1 - f t)) ea x (cdiff_RtoC (fun t => 1 - f t) x ltac:(dd)) DA)|exact (cdiff_mult (fun t => RtoC (f t)) eb x (cdiff_RtoC _ x HF) DB)].
  - destruct (String.eqb ema "maxwell-garnett").
    + set (top := fun t => (ea t + RtoC (d * (1 - f t) + f t) * (eb t - ea t))%C). set (bot := fun t => (ea t + RtoC (d * (1 - f t)) * (eb t - ea t))%C).
      assert (DD : cdiff (fun t => eb t - ea t)%C x) by exact (cdiff_minus eb ea x DB DA).
      assert (DT : cdiff top x) by exact (cdiff_plus ea _ x DA (cdiff_mult (fun t => RtoC (d * (1 - f t) + f t)) _ x (cdiff_RtoC (fun t => d * (1 - f t) + f t) x ltac:(dd)) DD)).
      assert (DBt : cdiff bot x) by exact (cdiff_plus ea _ x DA (cdiff_mult (fun t => RtoC (d * (1 - f t))) _ x (cdiff_RtoC (fun t => d * (1 - f t)) x ltac:(dd)) DD)).
      unfold E_mg in *. change (Ok (csqrt (ea x * cdiv0 (top x) (bot x))%C) = Ok m) in E.
      assert (NB : bot x <> 0%C).
      { intros Z. unfold cdiv0 in E. destruct (Ceq_dec (bot x) 0); [|contradiction]. assert (K : csqrt (ea x * 0)%C = m) by congruence. rewrite <- K in N. rewrite Cmult_0_r in N.
        apply re_csqrt_pos in N. rewrite Cmod_0 in N. cbn in N. lra. }
      destruct (FIN (fun t => ea t * (top t / bot t))%C) as (g & L & D & G).
      * exact (cdiff_mult ea _ x DA (cdiff_div top bot x NB DT DBt)).
      * rewrite <- E. unfold cdiv0. destruct (Ceq_dec (bot x) 0); [contradiction|reflexivity].
      * exists g. split; [|split; assumption]. apply filter_imp with (2 := filter_and _ _ L (nz_near bot x (cdiff_ccont bot x DBt) NB)). intros t [T1 T2]. rewrite <- T1.
        change (Ok (csqrt (ea t * cdiv0 (top t) (bot t))%C) = Ok (csqrt (ea t * (top t / bot t))%C)). unfold cdiv0. destruct (Ceq_dec (bot t) 0); [contradiction|reflexivity].
    + destruct (String.eqb ema "bruggeman") eqn:EB; [|discriminate]. apply String.eqb_eq in EB. specialize (BR EB).
      set (p := fun t => (ea t * RtoC (1 - f t - d) + eb t * RtoC (f t - d))%C). set (q := fun t => (p t * p t - RtoC (4 * (d - 1)) * (ea t * eb t * RtoC d))%C).
      assert (DP : cdiff p x).
      { apply cdiff_plus; [exact (cdiff_mult ea (fun t => RtoC (1 - f t - d)) x DA (cdiff_RtoC (fun t => 1 - f t - d) x ltac:(dd)))|exact (cdiff_mult eb (fun t => RtoC (f t - d)) x DB (cdiff_RtoC (fun t => f t - d) x ltac:(dd)))]. }
      assert (DQ : cdiff q x).
      { apply cdiff_minus; [exact (cdiff_mult p p x DP DP)|]. exact (cdiff_mult (fun _ => RtoC (4 * (d - 1))) _ x (cdiff_const _ x) (cdiff_mult _ (fun _ => RtoC d) x (cdiff_mult ea eb x DA DB) (cdiff_const _ x))). }
      assert (EQ : bruggeman_root (a x) (b x) (f x) d = q x).
      { unfold bruggeman_root, q, p, ea, eb. rewrite (RtoC_mult (4 * (d - 1)) d). ring. }
      rewrite EQ in BR. apply root_off_cut in BR. pose proof (cdiff_csqrt q x BR DQ) as DS.
      unfold E_bruggeman in *. change (Ok (csqrt (cdiv0 (p x + csqrt (q x))%C (RtoC (2 * (1 - d))))) = Ok m) in E.
      assert (ND : RtoC (2 * (1 - d)) <> 0%C).
      { intros Z. unfold cdiv0 in E. destruct (Ceq_dec (RtoC (2 * (1 - d))) 0); [|contradiction]. assert (K : csqrt (RtoC 0) = m) by congruence. rewrite <- K in N.
        apply re_csqrt_pos in N. rewrite Cmod_0 in N. cbn in N. lra. }
      destruct (FIN (fun t => (p t + csqrt (q t)) / RtoC (2 * (1 - d)))%C) as (g & L & D & G).
      * exact (cdiff_div _ (fun _ => RtoC (2 * (1 - d))) x ND (cdiff_plus p _ x DP DS) (cdiff_const _ x)).
      * rewrite <- E. unfold cdiv0. destruct (Ceq_dec (RtoC (2 * (1 - d))) 0); [contradiction|reflexivity].
      * exists g. split; [|split; assumption]. apply filter_imp with (2 := L). intros t T1. rewrite <- T1.
        change (Ok (csqrt (cdiv0 (p t + csqrt (q t))%C (RtoC (2 * (1 - d))))) = Ok (csqrt ((p t + csqrt (q t)) / RtoC (2 * (1 - d)))%C)). unfold cdiv0. destruct (Ceq_dec (RtoC (2 * (1 - d))) 0); [contradiction|reflexivity].
Qed.
