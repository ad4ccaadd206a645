(** * Instances of the admittance method *)

Require Import Reals Lra Lia Psatz List.
From Coquelicot Require Import Coquelicot.
Require Import List.
From Verif Require Import Base Cplx M_tmm Spec_optics Spec_admit P_tmm2 P_tmm3 P_psidelta P_psidelta2 P_film P_examples P_admit P_admit2 P_admit3.
Import ListNotations.
Open Scope R_scope.

Lemma mirror_instance n0 nH nL nB aoi w :
  let s := n0 * sin (rad aoi) in
  0 < n0 -> 0 < nH -> 0 < nL -> 0 < nB -> 0 < w -> cos (rad aoi) <> 0 ->
  s * s < nH * nH -> s * s < nL * nL -> s * s < nB * nB ->
  quarter_mirror n0 nH (10 * w / (4 * normal s nH)) nL (10 * w / (4 * normal s nL)) nB aoi w.
Proof.
  intros s H0 HH HL HB Hw HC SH SL SB.
  pose proof (normal_pos s nH SH). pose proof (normal_pos s nL SL).
  split; [auto|]. split; [auto|]. fold s. split; [auto|].
  split; exists 0%nat; cbn [INR]; field; lra.
Qed.

Lemma ex_mirror : exists dH dL,
  quarter_mirror 1 2 dH (3/2) dL (51/40) ex_aoi 633 /\
  let s := 1 * sin (rad ex_aoi) in s * s * (2 * 2 + 3/2 * (3/2)) < 2 * 2 * (3/2 * (3/2)) .
Proof.
  rewrite rad_ex, sin35. eexists _, _. split; [|cbv zeta; lra].
  apply mirror_instance; rewrite ?rad_ex, ?sin35, ?cos35; lra.
Qed.
Lemma ex_mirror_eq : exists dH dL,
  quarter_mirror 2 2 dH (3/2) dL (51/40) ex_aoi 633 /\
  let s := 2 * sin (rad ex_aoi) in s * s * (2 * 2 + 3/2 * (3/2)) = 2 * 2 * (3/2 * (3/2)) .
Proof.
  rewrite rad_ex, sin35. eexists _, _. split; [|cbv zeta; lra].
  apply mirror_instance; rewrite ?rad_ex, ?sin35, ?cos35; lra.
Qed.
Lemma ex_mirror_above : exists dH dL,
  quarter_mirror (9/4) 2 dH (3/2) dL 2 ex_aoi 633 /\
  let s := 9/4 * sin (rad ex_aoi) in 2 * 2 * (3/2 * (3/2)) < s * s * (2 * 2 + 3/2 * (3/2)).
Proof.
  rewrite rad_ex, sin35. eexists _, _. split; [|cbv zeta; lra].
  apply mirror_instance; rewrite ?rad_ex, ?sin35, ?cos35; lra.
Qed.

(** neither amplitude vanishes for one period on 51/40 *)
Lemma n35 n q : 0 <= q -> n * n - 3/5 * (3/5) = q * q -> normal (3/5) n = q.
Proof. intros Hq E. unfold normal. rewrite E. apply sqrt_square; auto. Qed.

Lemma ex_mirror_nz : mirror_r pS 1 (39/25) (51/40) (51/40) ex_aoi 1 <> 0 /\
                     mirror_r pP 1 (39/25) (51/40) (51/40) ex_aoi 1 <> 0.
Proof.
  unfold mirror_r. rewrite rad_ex, sin35. replace (1 * (3/5)) with (3/5) by lra.
  unfold mirror_admittance, tilted.
  rewrite (n35 1 (4/5)), (n35 (39/25) (36/25)), (n35 (51/40) (9/8)) by lra.
  unfold mismatch. cbn [Nat.mul Nat.add pow].
  split; apply Rmult_integral_contrapositive; split; try lra; apply Rinv_neq_0_compat; lra.
Qed.
Lemma ex_mirror2 : exists dH dL, quarter_mirror 1 (39/25) dH (51/40) dL (51/40) ex_aoi 633.
Proof. eexists _, _. apply mirror_instance; rewrite ?rad_ex, ?sin35, ?cos35; lra. Qed.

(** a half-wave layer on a thin layer *)
Definition half_d : R := 633 / (2 * (36/25)).
Lemma ex_absentee : 
  let s := (RtoC 1 * RtoC (sin (rad ex_aoi)))%C in
  exists front m1 m2 back a a',
  coh_tmm (ns (RtoC 1) ([] ++ (RtoC (39/25), half_d) :: [(RtoC (51/40), 100)]) (RtoC 2))
          (ds PInf ([] ++ (RtoC (39/25), half_d) :: [(RtoC (51/40), 100)]) PInf) [(rad ex_aoi, 633)] = Ok [a] /\
  coh_tmm (ns (RtoC 1) ([] ++ [(RtoC (51/40), 100)]) (RtoC 2))
          (ds PInf ([] ++ [(RtoC (51/40), 100)]) PInf) [(rad ex_aoi, 633)] = Ok [a'] /\
  amp pP a <> None /\ amp pP a' <> None /\
  physical_stack (RtoC 1) ([] ++ (RtoC (39/25), half_d) :: [(RtoC (51/40), 100)]) (RtoC 2) s 633 front ([] ++ m1 :: [m2]) back /\
  cosine front = RtoC (Rabs (cos (rad ex_aoi))) /\ cos (rad ex_aoi) <> 0 /\
  0 <= Re (cosine back) /\ ~ total_reflection s (RtoC 2) /\
  Forall (fun m => cosine m <> RtoC 0 /\ Rabs (Im (phase m)) <= 35) ([] ++ m1 :: [m2]) /\ half_wave m1.
Proof.
  intros s. assert (Es : s = RtoC (3/5)).
  { unfold s. rewrite rad_ex, sin35, <- RtoC_mult. f_equal. lra. }
  assert (Hd : 0 <= half_d) by (unfold half_d; lra).
  assert (S35 : 1 * sin (rad ex_aoi) = 3/5) by (rewrite rad_ex, sin35; lra).
  assert (PF : passive_film (1 * sin (rad ex_aoi)) 633 ([] ++ (RtoC (39/25), half_d) :: [(RtoC (51/40), 100)]) (RtoC 2)).
  { rewrite S35. split; [|split].
    - constructor; [|constructor; [|constructor]]; apply film_layer_transparent; try lra; try (split; simpl; lra);
        cbn [Re fst RtoC]; rewrite Rabs_right; lra.
    - constructor; [|constructor; [|constructor]]; cbn [fst]; apply not_crit_gt; simpl; lra.
    - split; simpl; lra. }
  assert (PF' : passive_film (1 * sin (rad ex_aoi)) 633 ([] ++ [(RtoC (51/40), 100)]) (RtoC 2)).
  { destruct PF as (A1 & A2 & A3). inversion A1; subst. inversion A2; subst. split; auto. }
  destruct (passive_defined' pP 1 _ (RtoC 2) PInf PInf (rad ex_aoi) 633 ltac:(lra) ltac:(lra) cosn0 PF) as (a & r & t & HE & A).
  destruct (passive_defined' pP 1 _ (RtoC 2) PInf PInf (rad ex_aoi) 633 ltac:(lra) ltac:(lra) cosn0 PF') as (a' & r' & t' & HE' & A').
  exists (glass (3/5) 633 1 0), (glass (3/5) 633 (39/25) half_d), (glass (3/5) 633 (51/40) 100), (glass (3/5) 633 2 0), a, a'.
  split; [exact HE|]. split; [exact HE'|]. split; [congruence|]. split; [congruence|].
  split; [|split; [|split; [exact cosn0|split; [|split; [|split]]]]].
  - rewrite Es. split; [reflexivity|]. split; [apply glass_snell; lra|].
    split; [constructor; [apply glass_ok; lra|constructor; [apply glass_ok; lra|constructor]]|].
    split; [reflexivity|apply glass_snell; lra].
  - unfold glass. cbn [cosine]. f_equal. rewrite rad_ex, cos35, (n35 1 (4/5)), Rabs_right by lra. lra.
  - unfold glass. cbn [cosine Re fst RtoC]. apply Rlt_le, Rdiv_lt_0_compat; [apply normal_pos|]; lra.
  - rewrite Es. apply no_TIR; [lra|]. rewrite Rabs_right; lra.
  - assert (G : forall n d, 3/5 * (3/5) < n * n -> 0 < n -> cosine (glass (3/5) 633 n d) <> RtoC 0 /\ Rabs (Im (phase (glass (3/5) 633 n d))) <= 35).
    { intros n d G1 G2. unfold glass. cbn [cosine phase Im snd RtoC]. split; [|rewrite Rabs_R0; lra].
      intros Z. apply RtoC_inj in Z. pose proof (Rdiv_lt_0_compat _ _ (normal_pos _ _ G1) G2). lra. }
    constructor; [apply G; lra|constructor; [apply G; lra|constructor]].
  - unfold half_wave, glass, half_d. cbn [phase]. rewrite (n35 (39/25) (36/25)) by lra.
    replace (2 * PI * (36 / 25) * (633 / (2 * (36 / 25))) / 633) with PI by field.
    unfold csin. cbn [Re Im fst snd RtoC]. rewrite sinh_0, sin_PI. apply C_eq; simpl; ring.
Qed.
