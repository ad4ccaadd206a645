(** * An opaque film: a case that meets the hypotheses *)

Require Import Reals.
From Coquelicot Require Import Rcomplements Complex.
Require Import List Bool Lia Lra Psatz.
From Verif Require Import Base Cplx M_tmm Spec_optics Spec_opaque P_tmm P_tmm2 P_tmm3 P_tmm4 P_flux P_flux2 P_flux3 P_psidelta P_psidelta2 P_film P_examples P_opaque.
Import ListNotations.
Open Scope R_scope.
Open Scope C_scope.

Definition exF : C := (1, 1)%R.
Definition exI : list (C * R) := [(RtoC 3, 100%R)].

Lemma exF_film : film_layer (1 * sin 0) 600 (exF, 6000%R).
Proof.
  rewrite sin_0, Rmult_0_r. apply film_layer_absorbing; unfold exF; simpl; try lra. split; simpl; lra.
Qed.

Lemma exI_film : film_layer (1 * sin 0) 600 (RtoC 3, 100%R).
Proof.
  rewrite sin_0, Rmult_0_r. apply film_layer_transparent; simpl; try lra.
  - split; simpl; lra.
  - rewrite Rabs_R0. lra.
Qed.

Lemma exF_opaque : opaque_film (1 * sin 0) 600 1 (exF, 6000%R).
Proof.
  rewrite sin_0, Rmult_0_r. exists (mkMedium exF 1 (2 * PI * exF * 1 * RtoC 6000 / RtoC 600)).
  assert (Eph : 2 * PI * exF * 1 * RtoC 6000 / RtoC 600 = (20 * PI, 20 * PI)%R).
  { replace (2 * PI * exF * 1 * RtoC 6000 / RtoC 600) with (exF * RtoC (2 * PI * 6000 / 600)).
    - unfold exF. apply C_eq; simpl; field.
    - rewrite RtoC_div by lra. rewrite !RtoC_mult. unfold Cdiv. ring. }
  assert (PI1 : (3 < PI)%R) by (pose proof PI2_3_2; lra).
  split; [|cbn [cosine phase fst]; rewrite Eph; simpl; lra].
  split; [reflexivity|]. split; [|reflexivity]. split; cbn [idx cosine].
  - intros X; apply (f_equal Re) in X; simpl in X; lra.
  - unfold exF. apply C_eq; simpl; field.
Qed.

Lemma exF_bulk p a r t : coh_tmm (ns (RtoC 1) [] exF) (ds PInf [] PInf) [(0%R, 600%R)] = Ok [a] -> amp p a = Some (r, t) ->
  (2 / 5 <= Cmod r)%R.
Proof.
  intros HC A. rewrite (coh_tmm_one_true _ _ _ _ _ _ _ _ HC) in A. apply tmm_point_waves in A as (_ & _ & U).
  assert (CF : code_cos (RtoC 1 * RtoC (sin 0)) exF = 1).
  { symmetry. apply code_cos_unique.
    - simpl. lra.
    - rewrite sin_0. intros [_ T]. unfold exF in T. simpl in T. rewrite Rabs_right in T; lra.
    - rewrite sin_0. unfold exF. apply C_eq; simpl; field. }
  assert (C1 : code_cos (RtoC 1 * RtoC (sin 0)) 1 = 1).
  { rewrite code_cos_front by apply C1_neq_0. rewrite cos_0, Rabs_R1. reflexivity. }
  set (q := (1 / 5, 2 / 5)%R : C).
  assert (X : match p with pS => - q | pP => q end = r /\ (4 / 5, - (2 / 5))%R = t).
  { apply U. unfold reflection_problem, code_rest. cbn [map app waves].
    unfold continuity, tangential_1, tangential_2, code_end. cbn [idx cosine]. rewrite CF, C1.
    destruct p; unfold q, exF; split; apply C_eq; simpl; field. }
  destruct X as [X _]. assert (E : Cmod r = Cmod q) by (rewrite <- X; destruct p; rewrite ?Cmod_opp; reflexivity).
  rewrite E. pose proof (Cmod_sq q) as Q. unfold q in Q at 3 4 5 6. cbn [Re Im fst snd] in Q.
  pose proof (Cmod_ge_0 q). apply Rnot_lt_le. intros Lt. nra.
Qed.

Lemma exp70_small : (6 * exp (-70) <= 1 / 10)%R.
Proof.
  pose proof exp35_big as B. replace (-70)%R with (- (35) + - (35))%R by ring. rewrite exp_plus, exp_Ropp.
  assert (I : (/ exp 35 <= / 100)%R) by (apply Rinv_le_contravar; lra).
  assert (I0 : (0 < / exp 35)%R) by (apply Rinv_0_lt_compat, exp_pos).
  assert (/ exp 35 * / exp 35 <= / 100 * / 100)%R by (apply Rmult_le_compat; lra). lra.
Qed.

Lemma ex_hidden : exists a rs ts rp tp a' rs' ts' rp' tp' psi psi',
  Forall (film_layer (1 * sin 0) 600) [(exF, 6000%R)] /\ passive (RtoC 2) /\
  Forall (film_layer (1 * sin 0) 600) ((exF, 6000%R) :: exI) /\ passive (3, 4)%R /\
  opaque_film (1 * sin 0) 600 1 (exF, 6000%R) /\
  coh_tmm (ns (RtoC 1) [(exF, 6000%R)] (RtoC 2)) (ds PInf [(exF, 6000%R)] PInf) [(0%R, 600%R)] = Ok [a] /\
  amp pS a = Some (rs, ts) /\ amp pP a = Some (rp, tp) /\
  coh_tmm (ns (RtoC 1) ((exF, 6000%R) :: exI) (3, 4)%R) (ds PInf ((exF, 6000%R) :: exI) PInf) [(0%R, 600%R)] = Ok [a'] /\
  amp pS a' = Some (rs', ts') /\ amp pP a' = Some (rp', tp') /\
  (1 / 4 <= Cmod rs)%R /\ (1 / 4 <= Cmod rs')%R /\
  fst (psi_delta true 0 a) = Some psi /\ fst (psi_delta true 0 a') = Some psi'.
Proof.
  assert (F : Forall (film_layer (1 * sin 0) 600) [(exF, 6000%R)]) by (constructor; [exact exF_film|constructor]).
  assert (F' : Forall (film_layer (1 * sin 0) 600) ((exF, 6000%R) :: exI)).
  { constructor; [exact exF_film|]. constructor; [exact exI_film|constructor]. }
  assert (N2 : passive (RtoC 2)) by (split; simpl; lra).
  assert (N3 : passive (3, 4)%R) by (split; simpl; lra).
  assert (C0 : cos 0 <> 0%R) by (rewrite cos_0; lra).
  assert (NC : forall n : C, passive n -> not_critical (1 * sin 0) n).
  { intros n [P1 P2] E. rewrite sin_0, Rmult_0_r in E. destruct n as [x y]. pose proof (f_equal Re E) as E1. pose proof (f_equal Im E) as E2.
    simpl in *. assert (y = 0)%R by nra. subst. nra. }
  assert (PF : passive_film (1 * sin 0) 600 [(exF, 6000%R)] (RtoC 2)).
  { split; [exact F|]. split; [|exact N2]. constructor; [|constructor]. apply NC. apply exF_film. }
  assert (PF' : passive_film (1 * sin 0) 600 ((exF, 6000%R) :: exI) (3, 4)%R).
  { split; [exact F'|]. split; [|exact N3]. constructor; [|constructor; [|constructor]]; apply NC; [apply exF_film|apply exI_film]. }
  assert (D : forall p inner nN, passive_film (1 * sin 0) 600 inner nN -> exists a r t,
     coh_tmm (ns (RtoC 1) inner nN) (ds PInf inner PInf) [(0%R, 600%R)] = Ok [a] /\ amp p a = Some (r, t)).
  { intros p inner nN Q. destruct (passive_defined' p 1 inner nN PInf PInf 0 600) as (a & r & t & HC & A); try lra; auto.
    exists a, r, t. auto. }
  destruct (D pS _ _ PF) as (a & rs & ts & HC & AS). destruct (D pP _ _ PF) as (a2 & rp & tp & HC2 & AP).
  assert (E : a2 = a) by (pose proof (eq_trans (eq_sym HC2) HC) as E; injection E; auto). subst a2.
  destruct (D pS _ _ PF') as (a' & rs' & ts' & HC' & AS'). destruct (D pP _ _ PF') as (a2' & rp' & tp' & HC2' & AP').
  assert (E : a2' = a') by (pose proof (eq_trans (eq_sym HC2') HC') as E; injection E; auto). subst a2'.
  assert (LOW : forall inner nN a0 r t, Forall (film_layer (1 * sin 0) 600) ((exF, 6000%R) :: inner) -> passive nN ->
     coh_tmm (ns (RtoC 1) ((exF, 6000%R) :: inner) nN) (ds PInf ((exF, 6000%R) :: inner) PInf) [(0%R, 600%R)] = Ok [a0] ->
     amp pS a0 = Some (r, t) -> (1 / 4 <= Cmod r)%R).
  { intros inner nN a0 r t FF NN H A.
    destruct (hidden_common pS 1 exF 6000 inner nN PInf PInf 0 600 a0 r t 1) as (ab & rb & tb & HB & B & X & _); auto; try lra.
    - exact exF_opaque.
    - pose proof (exF_bulk pS ab rb tb HB B) as Y. pose proof exp70_small as Z.
      pose proof (Cmod_triangle (rb - r) r) as T. replace (rb - r + r) with rb in T by ring.
      replace (rb - r) with (- (r - rb)) in T by ring. rewrite Cmod_opp in T. lra. }
  pose proof (LOW [] _ _ _ _ F N2 HC AS) as L1. pose proof (LOW exI _ _ _ _ F' N3 HC' AS') as L2.
  assert (PD : forall a0 r t r2 t2, amp pS a0 = Some (r, t) -> amp pP a0 = Some (r2, t2) -> (1 / 4 <= Cmod r)%R ->
     exists psi, fst (psi_delta true 0 a0) = Some psi).
  { intros a0 r t r2 t2 A1 A2 G. cbn [amp] in A1, A2. unfold psi_delta. rewrite A1, A2. cbn [fst]. unfold psi_of.
    destruct (Ceq_dec r 0) as [Z|_]; [rewrite Z, Cmod_0 in G; lra|]. eexists. reflexivity. }
  destruct (PD a rs ts rp tp AS AP L1) as [psi P]. destruct (PD a' rs' ts' rp' tp' AS' AP' L2) as [psi' P'].
  exists a, rs, ts, rp, tp, a', rs', ts', rp', tp', psi, psi'.
  split; [exact F|]. split; [exact N2|]. split; [exact F'|]. split; [exact N3|]. split; [exact exF_opaque|]. auto 20.
Qed.
