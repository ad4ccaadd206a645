(** * The examples beside the theorems about what a measurement determines *)

Require Import Reals.
From Coquelicot Require Import Rcomplements Complex.
Require Import List Bool Arith ZArith Lra Lia.
From Verif Require Import Base Cplx M_tmm Spec_optics P_tmm P_tmm2 P_tmm4 P_psidelta P_psidelta2 P_film P_examples M_objective
  Spec_ident P_ident P_ident2 P_ident3 P_cont P_cont2 P_cont3.
Import ListNotations.
Open Scope R_scope.
Open Scope C_scope.

Lemma ex_order : (10 * order_thickness (Re (RtoC (8/5))) (Re (RtoC 1) * sin (rad graz)) 633 = 6330 / (2 * (32 / 25)))%R /\
  transparent (RtoC (8/5)) /\ (Rabs (Re (RtoC 1) * sin (rad graz)) < Re (RtoC (8/5)))%R /\
  exists psi delta, fst (Delta_Psi_TMM [graz] (table 0 (RtoC 1) 0 ([] ++ (RtoC (8/5), quarter_plus 0, 0%R) :: []) 0 graz_back 0) 633 0 false)
    = Ok [(Some psi, Some delta)].
Proof.
  rewrite sin_graz. unfold order_thickness. cbn [Re RtoC fst].
  replace (8 / 5 * (8 / 5) - 1 * (24 / 25) * (1 * (24 / 25)))%R with ((32 / 25) * (32 / 25))%R by lra.
  rewrite sqrt_square by lra. split; [lra|]. split; [split; simpl; lra|].
  split; [rewrite Rabs_right; lra|].
  destruct delta_jumps as (F & A & NS & NP & _).
  destruct (psi_continuous 0 (RtoC 1) 0 graz_film 0 graz_back 0 graz 633 0 false 0 _ _ _ _ F A NS) as (psi & P & _).
  pose proof (g_delta 0) as D. unfold psi_at, delta_at in P, D. cbn [film_at graz_film map fst snd] in P, D. cbn [app].
  rewrite DP_map in *. cbn [map] in *. destruct (DP_one _ _ _ _ _ _ _) as [a b].
  exists psi. eexists. rewrite P, D. reflexivity.
Qed.

Lemma ex_aoi_range : (0 < ex_aoi < 90)%R.
Proof.
  pose proof PI_RGT_0. unfold ex_aoi.
  assert (B : (0 < th35 < PI / 2)%R).
  { pose proof (asin_bound (3/5)). fold th35 in H0. split.
    - apply Rnot_le_lt. intros L. assert (sin th35 <= 0)%R; [|rewrite sin35 in *; lra].
      rewrite <- sin_0. apply sin_incr_1; lra.
    - destruct H0 as [_ [L|E]]; [auto|]. pose proof sin35 as X. rewrite E, sin_PI2 in X. lra. }
  assert (C180 : (0 < 180 / PI)%R) by (apply Rdiv_lt_0_compat; lra).
  split; [apply Rmult_lt_0_compat; lra|].
  replace 90%R with (PI / 2 * (180 / PI))%R by (field; lra). apply Rmult_lt_compat_r; lra.
Qed.

(** an absorbing substrate: both angles are defined *)
Lemma ex_bare refl : exists psi delta, (0 < Re (RtoC 1))%R /\ (0 < ex_aoi < 90)%R /\ passive (2, 1/10)%R /\
  fst (Delta_Psi_TMM [ex_aoi] (table 0 (RtoC 1) 0 [] 0 (2, 1/10)%R 0) 633 0 refl) = Ok [(Some psi, Some delta)].
Proof.
  destruct (brewster 0 (RtoC 1) 0 0 (2, 1/10)%R 0 ex_aoi 633 0 refl) as (psi & od & E & B1 & B2).
  - simpl; lra.
  - apply ex_aoi_range.
  - lra.
  - split; simpl; lra.
  - intros X. apply (f_equal Im) in X. simpl in X. lra.
  - destruct od as [delta|].
    + exists psi, delta. split; [simpl; lra|]. split; [apply ex_aoi_range|]. split; [split; simpl; lra|auto].
    + exfalso. destruct B2 as [_ B2]. specialize (B2 eq_refl). apply B1 in B2 as [B2 _]. simpl in B2. lra.
Qed.

(** tan = 3/4, from index 4 to index 3 *)
Lemma ex_brewster refl : (0 < Re (RtoC 4))%R /\ (0 < ex_aoi < 90)%R /\ passive (RtoC 3) /\ RtoC 3 <> RtoC (Re (RtoC 4)) /\
  fst (Delta_Psi_TMM [ex_aoi] (table 0 (RtoC 4) 0 [] 0 (RtoC 3) 0) 633 0 refl) = Ok [(Some 0%R, None)].
Proof.
  assert (A : (0 < Re (RtoC 4))%R) by (simpl; lra). assert (P : passive (RtoC 3)) by (split; simpl; lra).
  assert (N : RtoC 3 <> RtoC (Re (RtoC 4))) by (intros X; apply RtoC_inj in X; simpl in X; lra).
  split; [auto|]. split; [apply ex_aoi_range|]. split; [auto|]. split; [auto|].
  destruct (brewster 0 (RtoC 4) 0 0 (RtoC 3) 0 ex_aoi 633 0 refl A ex_aoi_range ltac:(lra) P N) as (psi & od & E & B1 & B2).
  assert (psi = 0%R).
  { apply B1. split; [reflexivity|]. rewrite rad_ex. unfold tan. rewrite sin35, cos35. simpl. lra. }
  assert (od = None) by (apply B2; auto). subst. exact E.
Qed.

(** the film of the examples between glass of index 2 and air: s = 1.2 *)
Lemma ex_total : (0 < Re (RtoC 2))%R /\ (0 < ex_aoi < 90)%R /\
  Forall (fun nd => transparent (fst nd) /\ (0 <= snd nd)%R) (nm ex_inner) /\
  passive_film (Re (RtoC 2) * sin (rad ex_aoi)) 633 (nm ex_inner) (RtoC 1) /\ transparent (RtoC 1) /\
  (Re (RtoC 1) < Re (RtoC 2) * sin (rad ex_aoi))%R.
Proof.
  split; [simpl; lra|]. split; [apply ex_aoi_range|]. rewrite nm_ex, rad_ex, sin35. cbn [Re RtoC fst].
  split; [constructor; [split; [split; simpl; lra|simpl; lra]|constructor]|].
  split; [|split; [split; simpl; lra|lra]].
  split; [|split].
  - constructor; [|constructor]. apply film_layer_transparent; try lra.
    + split; simpl; lra.
    + rewrite Rabs_right; simpl; lra.
  - constructor; [|constructor]. cbn [fst]. apply not_crit_gt. simpl. lra.
  - split; simpl; lra.
Qed.

Lemma delta_jumps_ex : exists (nA nB : C) F aoi w x rs ts rp tp,
  Forall (fun l => continuity_pt (snd (fst l)) x) F /\
  coh_tmm (ns (RtoC (Re nA)) (nm (film_at F x)) nB) (ds PInf (nm (film_at F x)) PInf) [(rad aoi, w)]
    = Ok [mkAmp (Some (rs, ts)) (Some (rp, tp))] /\
  rs <> 0 /\ rp <> 0 /\ ~ settles (delta_at 0 nA 0 F 0 nB 0 aoi w 0 false) x.
Proof.
  destruct delta_jumps as (A & B & D & E & F).
  exists (RtoC 1), graz_back, graz_film, graz, 633%R, 0%R. do 4 eexists. eauto 10.
Qed.
