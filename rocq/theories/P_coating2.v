(** * Lemmas: one layer cannot suppress both polarisations; instances *)

Require Import Reals Lra Lia Psatz List.
From Coquelicot Require Import Coquelicot.
Require Import List.
From Verif Require Import Base Cplx M_tmm Spec_optics Spec_admit Spec_coating P_tmm2 P_psidelta P_examples P_admit2 P_admit3 P_admit4 P_coating.
Import ListNotations.
Open Scope R_scope.

Theorem not_both n0 n d r nB aoi w :
  quarter_coating n0 [(n, d, r)] nB aoi w -> sin (rad aoi) <> 0 -> n0 <> nB ->
  ~ (coating_r pS n0 [(n, d, r)] nB aoi = 0 /\ coating_r pP n0 [(n, d, r)] nB aoi = 0).
Proof.
  intros Q SN NE [E1 E2]. apply (antireflection pS _ _ _ _ _ _ _ Q) in E1. apply (antireflection pP _ _ _ _ _ _ _ Q) in E2.
  destruct Q as (H0 & HB & Hw & HC & SB & F). destruct (Forall_inv F) as (Hn & Sn & _). clear F.
  pose proof (s0_lt n0 aoi H0 HC) as S0. set (s := n0 * sin (rad aoi)) in *.
  assert (NS : s <> 0) by (unfold s; apply Rmult_integral_contrapositive; split; lra).
  unfold tilted in E1, E2.
  pose proof (normal_sq s n0 S0) as Q0. pose proof (normal_sq s n Sn) as Q1. pose proof (normal_sq s nB SB) as QB.
  pose proof (normal_pos s n0 S0) as P0. pose proof (normal_pos s n Sn) as P1. pose proof (normal_pos s nB SB) as PB.
  set (a := normal s n0) in *. set (b := normal s n) in *. set (c := normal s nB) in *. clearbody a b c.
  (* b^2 = a c, and b^2/n^4 = a c/(n0^2 nB^2): n^2 = n0 nB *)
  assert (N4 : n * n = n0 * nB).
  { assert (X : (n0 * nB) * (n0 * nB) = (n * n) * (n * n)).
    { assert (Y : b * b * ((n0 * nB) * (n0 * nB)) = a * c * ((n * n) * (n * n))).
      { transitivity (b / (n * n) * (b / (n * n)) * ((n * n) * (n * n) * ((n0 * nB) * (n0 * nB)))); [field; lra|].
        rewrite E2. field. lra. }
      rewrite E1 in Y. apply Rmult_eq_reg_l in Y; auto. apply Rmult_integral_contrapositive; split; lra. }
    assert (F : (n0 * nB - n * n) * (n0 * nB + n * n) = 0) by lra.
    apply Rmult_integral in F as [F|F]; [lra|]. exfalso. nra. }
  (* (n0 nB - s^2)^2 = (n0^2 - s^2)(nB^2 - s^2) *)
  assert (K : (n0 * nB - s * s) * (n0 * nB - s * s) = (n0 * n0 - s * s) * (nB * nB - s * s)).
  { rewrite <- N4, <- Q1, <- Q0, <- QB, E1. ring. }
  assert (G : s * s * ((n0 - nB) * (n0 - nB)) = 0) by lra.
  apply Rmult_integral in G as [G|G]; apply Rmult_integral in G as [G|G]; try lra; contradiction.
Qed.

Lemma coating_instance n0 (l : list (R * R)) nB aoi w :
  let s := n0 * sin (rad aoi) in
  0 < n0 -> 0 < nB -> 0 < w -> cos (rad aoi) <> 0 -> s * s < nB * nB -> Forall (fun x => 0 < fst x /\ s * s < fst x * fst x) l ->
  quarter_coating n0 (map (fun x => (fst x, 10 * w / (4 * normal s (fst x)), snd x)) l) nB aoi w.
Proof.
  intros s H0 HB Hw HC SB F. unfold quarter_coating. fold s. repeat (split; [auto|]).
  apply Forall_map. eapply Forall_impl; [|exact F]. intros (n, r) [Hn Sn]. cbn [fst snd] in *.
  split; auto. split; auto. exists 0%nat. pose proof (normal_pos s n Sn). simpl. field. lra.
Qed.

Lemma ex_three : exists d1 d2 d3, quarter_coating 1 [(39/25, d1, 0); (51/40, d2, 3); (39/25, d3, 0)] 2 ex_aoi 633.
Proof.
  eexists _, _, _. apply (coating_instance 1 [(39/25, 0); (51/40, 3); (39/25, 0)] 2 ex_aoi 633);
    rewrite ?rad_ex, ?sin35, ?cos35; try lra.
  repeat constructor; cbn [fst]; lra.
Qed.

Lemma ex_s_only : exists n d, quarter_coating 1 [(n, d, 0)] (51/40) ex_aoi 633 /\
  coating_r pS 1 [(n, d, 0)] (51/40) ex_aoi = 0 /\ coating_r pP 1 [(n, d, 0)] (51/40) ex_aoi <> 0.
Proof.
  set (n := sqrt (126/100)).
  assert (NN : n * n = 126/100) by (apply sqrt_sqrt; lra).
  assert (Np : 0 < n) by (apply sqrt_lt_R0; lra). clearbody n.
  exists n, (10 * 633 / (4 * normal (1 * sin (rad ex_aoi)) n)).
  assert (Q : quarter_coating 1 [(n, 10 * 633 / (4 * normal (1 * sin (rad ex_aoi)) n), 0)] (51/40) ex_aoi 633).
  { apply (coating_instance 1 [(n, 0)] (51/40) ex_aoi 633);
    rewrite ?rad_ex, ?sin35, ?cos35; try lra.
    constructor; [cbn [fst]; rewrite NN; lra|constructor]. }
  split; [exact Q|].
  assert (S : coating_r pS 1 [(n, 10 * 633 / (4 * normal (1 * sin (rad ex_aoi)) n), 0)] (51/40) ex_aoi = 0).
  { apply (antireflection pS _ _ _ _ _ _ _ Q). rewrite rad_ex, sin35. replace (1 * (3/5)) with (3/5) by lra. unfold tilted.
    rewrite normal_sq, (n35 1 (4/5)), (n35 (51/40) (9/8)), NN by (rewrite ?NN; lra). lra. }
  split; [exact S|]. intros P.
  apply (not_both _ _ _ _ _ _ _ Q); auto; [rewrite rad_ex, sin35; lra|lra].
Qed.
