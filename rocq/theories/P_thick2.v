(** * A measured point fits at most two thicknesses of a layer, or all: psi and delta *)

Require Import Reals.
From Coquelicot Require Import Rcomplements Complex.
Require Import List Bool Arith ZArith Lra Lia Psatz.
From Verif Require Import Base Cplx M_tmm Spec_optics P_tmm P_tmm2 P_tmm3 P_tmm4 P_flux P_flux2 P_flux3
  P_psidelta P_psidelta2 Spec_ident P_ident P_ident2 Spec_thick P_thick.
Import ListNotations.
Open Scope R_scope.
Open Scope C_scope.

(** ** psi and delta depend on the ratio only *)
Lemma psi_ratio (rs rp rs' rp' rho : C) : rs <> 0 -> rs' <> 0 -> rp = rho * rs -> rp' = rho * rs' -> psi_of rs rp = psi_of rs' rp'.
Proof.
  intros N N' -> ->. unfold psi_of. destruct (Ceq_dec rs 0); [easy|]. destruct (Ceq_dec rs' 0); [easy|].
  replace (rho * rs / rs) with rho by (field; auto). replace (rho * rs' / rs') with rho by (field; auto). reflexivity.
Qed.
Lemma delta_ratio refl off (rs rp rs' rp' rho : C) : rs <> 0 -> rs' <> 0 -> rp = rho * rs -> rp' = rho * rs' ->
  delta_of refl off rs rp = delta_of refl off rs' rp'.
Proof.
  intros N N' -> ->. unfold delta_of, cdiv at 1 3. destruct (Ceq_dec rs 0); [easy|]. destruct (Ceq_dec rs' 0); [easy|]. cbn [obind].
  replace (- (rho * rs) / rs) with (- rho) by (field; auto). replace (- (rho * rs') / rs') with (- rho) by (field; auto). reflexivity.
Qed.

(** ** splitting a list *)
Lemma pigeon {A} (P Q : A -> Prop) : forall l, NoDup l -> Forall (fun x => P x \/ Q x) l ->
  exists l1 l2, NoDup l1 /\ NoDup l2 /\ incl l1 l /\ incl l2 l /\ Forall P l1 /\ Forall Q l2 /\ (List.length l1 + List.length l2 = List.length l)%nat.
Proof.
  induction l as [|x l IH]; intros N F.
  - exists [], []. repeat split; auto; try constructor; intros y [].
  - inversion N; subst. inversion F; subst. destruct (IH H2 H4) as (l1 & l2 & N1 & N2 & I1 & I2 & F1 & F2 & L).
    destruct H3 as [H3|H3].
    + exists (x :: l1), l2. split; [constructor; auto|]. split; [auto|]. split; [intros y [->|Y]; [left; auto|right; auto]|].
      split; [intros y Y; right; auto|]. split; [constructor; auto|]. split; [auto|]. cbn. lia.
    + exists l1, (x :: l2). split; [auto|]. split; [constructor; auto|]. split; [intros y Y; right; auto|].
      split; [intros y [->|Y]; [left; auto|right; auto]|]. split; [auto|]. split; [constructor; auto|]. cbn. lia.
Qed.
Lemma three_of {A} (l : list A) : (3 <= List.length l)%nat -> NoDup l -> exists x y z, x <> y /\ x <> z /\ y <> z /\ In x l /\ In y l /\ In z l.
Proof.
  destruct l as [|x [|y [|z l]]]; cbn; intros L N; try lia. exists x, y, z.
  inversion N as [|? ? N1 N2]; subst. inversion N2 as [|? ? N3 N4]; subst. cbn in N1, N3. intuition.
Qed.

(** ** the claim *)
Section Film.
Context (tA : R) (nA : C) (rA : R) (pre : list (C * R * R)) (nL : C) (rough : R) (post : list (C * R * R)) (tB : R) (nB : C) (rB : R)
  (aoi w off : R) (refl : bool).
Let s := (Re nA * sin (rad aoi))%R.
Definition gives (d psi delta : R) : Prop :=
  fst (Delta_Psi_TMM [aoi] (table tA nA rA (pre ++ (nL, d, rough) :: post) tB nB rB) w off refl) = Ok [(Some psi, Some delta)].
Let am d := amps (RtoC (Re nA)) (nm pre) nL (d / 10) (nm post) nB (rad aoi) w.
Let zz d := turn (ph_of (RtoC (Re nA)) nL (d / 10) (rad aoi) w).

Lemma gives_am d psi delta : gives d psi delta <-> psi_delta refl off (am d) = (Some psi, Some delta).
Proof.
  unfold gives. rewrite DP_map. cbn [map]. unfold DP_one.
  assert (E : nm (pre ++ (nL, d, rough) :: post) = nm pre ++ (nL, (d / 10)%R) :: nm post) by (unfold nm; rewrite map_app; reflexivity).
  rewrite E. fold (amps (RtoC (Re nA)) (nm pre) nL (d / 10) (nm post) nB (rad aoi) w). fold (am d).
  split; [intros H; injection H; auto|]. intros ->. reflexivity.
Qed.

Lemma fits_ratio d psi delta : gives d psi delta -> exists rs ts rp tp rho,
  amp_s (am d) = Some (rs, ts) /\ amp_p (am d) = Some (rp, tp) /\ rs <> 0 /\ rp <> 0 /\ rp = rho * rs /\
  (rho = ratio psi (delta - off) \/ refl = true /\ rho = Cconj (ratio psi (delta - off))).
Proof.
  intros H. apply gives_am in H. apply psi_delta_Some in H as (rs & ts & rp & tp & A1 & A2 & N1 & N2 & P & D).
  exists rs, ts, rp, tp, (rp / rs). repeat split; auto; [field; auto|].
  destruct (psi_delta_spec off rs rp N1 N2) as (psi' & delta' & P' & D' & _ & _ & E).
  assert (psi' = psi) as -> by congruence. apply ellipsometric_ratio in E.
  destruct refl.
  - destruct (delta_reflect off rs rp delta' D') as (d2 & D2 & _ & CC & _). assert (d2 = delta) as -> by congruence.
    rewrite E. symmetry in CC. destruct (ratio_conj psi _ _ CC) as [EE|EE]; rewrite EE; auto.
  - assert (delta' = delta) as -> by congruence. auto.
Qed.

Lemma turns_differ l d d' : (0 < w)%R -> passive nL -> distinguishable s w nL l -> In d l -> In d' l -> d <> d' -> zz d <> zz d'.
Proof.
  intros W P (ND & Q) I I' N. unfold zz, ph_of. replace (RtoC (Re nA) * RtoC (sin (rad aoi))) with (RtoC s) by (unfold s; apply RtoC_mult).
  assert (N' : (d / 10 <> d' / 10)%R) by lra.
  destruct Q as [(T & S & d0 & F)|(D & F)]; rewrite Forall_forall in F.
  - apply (turn_order s w nL d0); auto; [specialize (F d I)|specialize (F d' I')];
      [replace (10 * (d / 10))%R with d by field|replace (10 * (d' / 10))%R with d' by field]; auto.
  - apply turn_decay; auto; [lra| |]; [specialize (F d I)|specialize (F d' I')];
      [replace (10 * (d / 10))%R with d by field|replace (10 * (d' / 10))%R with d' by field]; auto.
Qed.

Definition fits rho d := exists rs ts rp tp, amp_s (am d) = Some (rs, ts) /\ amp_p (am d) = Some (rp, tp) /\ rp = rho * rs.

(** enough thicknesses with the same psi and delta contain three with the same ratio *)
Lemma three_same l psi delta : NoDup l -> ((if refl then 5 else 3) <= List.length l)%nat -> Forall (fun d => gives d psi delta) l ->
  exists rho d1 d2 d3, d1 <> d2 /\ d1 <> d3 /\ d2 <> d3 /\ In d1 l /\ In d2 l /\ In d3 l /\ fits rho d1 /\ fits rho d2 /\ fits rho d3 /\
    rho <> 0 /\ exists rs ts rp tp, amp_s (am d1) = Some (rs, ts) /\ amp_p (am d1) = Some (rp, tp) /\ rs <> 0.
Proof.
  intros ND L F.
  set (P := fun d => gives d psi delta /\ fits (ratio psi (delta - off)) d).
  set (Q := fun d => gives d psi delta /\ refl = true /\ fits (Cconj (ratio psi (delta - off))) d).
  assert (FF : Forall (fun d => P d \/ Q d) l).
  { revert F. apply Forall_impl. intros d G. destruct (fits_ratio d psi delta G) as (rs & ts & rp & tp & rho & A1 & A2 & _ & _ & E & [->|[RE ->]]).
    - left. split; auto. exists rs, ts, rp, tp. auto.
    - right. split; auto. split; auto. exists rs, ts, rp, tp. auto. }
  destruct (pigeon P Q l ND FF) as (l1 & l2 & N1 & N2 & I1 & I2 & F1 & F2 & LL).
  assert (W : (3 <= List.length l1)%nat \/ (3 <= List.length l2)%nat).
  { destruct refl eqn:RE; [lia|]. left. assert (l2 = []).
    { destruct l2 as [|x l2]; auto. inversion F2 as [|? ? (_ & K & _) _]. discriminate. }
    subst l2. cbn in LL. lia. }
  assert (Z : forall rho l', (3 <= List.length l')%nat -> NoDup l' -> incl l' l -> Forall (fun d => gives d psi delta /\ fits rho d) l' ->
    exists rho d1 d2 d3, d1 <> d2 /\ d1 <> d3 /\ d2 <> d3 /\ In d1 l /\ In d2 l /\ In d3 l /\ fits rho d1 /\ fits rho d2 /\ fits rho d3 /\
    rho <> 0 /\ exists rs ts rp tp, amp_s (am d1) = Some (rs, ts) /\ amp_p (am d1) = Some (rp, tp) /\ rs <> 0).
  { intros rho l' L' N' I' F'. rewrite Forall_forall in F'.
    destruct (three_of l' L' N') as (x & y & z & A1 & A2 & A3 & B1 & B2 & B3).
    destruct (F' x B1) as [G1 H1]. destruct (F' y B2) as [G2 H2]. destruct (F' z B3) as [G3 H3].
    exists rho, x, y, z. do 9 (split; [auto|]).
    destruct (fits_ratio x psi delta G1) as (rs & ts & rp & tp & rho' & C1 & C2 & N1' & N2' & _).
    destruct H1 as (rs' & ts' & rp' & tp' & D1 & D2 & E).
    rewrite C1 in D1. rewrite C2 in D2. injection D1 as <- <-. injection D2 as <- <-. split.
    - intros ->. apply N2'. rewrite E. ring.
    - exists rs, ts, rp, tp. auto. }
  destruct W as [W|W].
  - exact (Z _ l1 W N1 I1 F1).
  - apply (Z (Cconj (ratio psi (delta - off))) l2 W N2 I2). revert F2. apply Forall_impl. intros d (G & _ & H). auto.
Qed.

Theorem thickness_two l psi delta : (0 < w)%R -> passive nL -> distinguishable s w nL l ->
  ((if refl then 5 else 3) <= List.length l)%nat -> Forall (fun d => gives d psi delta) l ->
  forall d psi' delta', gives d psi' delta' -> psi' = psi /\ delta' = delta.
Proof.
  intros W P D L F d psi' delta' G.
  destruct (three_same l psi delta (proj1 D) L F) as (rho & d1 & d2 & d3 & N12 & N13 & N23 & I1 & I2 & I3 & F1 & F2 & F3 & R0 & rs & ts & rp & tp & A1 & A2 & N1).
  assert (All : forall x rs ts rp tp, amp_s (am x) = Some (rs, ts) -> amp_p (am x) = Some (rp, tp) -> rp = rho * rs).
  { intros x. apply (ratio_all (RtoC (Re nA)) (nm pre) nL (nm post) nB (rad aoi) w rho (d1 / 10) (d2 / 10) (d3 / 10)); auto.
    - exact (turns_differ l d1 d2 W P D I1 I2 N12).
    - exact (turns_differ l d1 d3 W P D I1 I3 N13).
    - exact (turns_differ l d2 d3 W P D I2 I3 N23). }
  rewrite Forall_forall in F. pose proof (F d1 I1) as G1. apply gives_am in G1. apply gives_am in G.
  apply psi_delta_Some in G as (rs' & ts' & rp' & tp' & B1 & B2 & M1 & M2 & P' & D').
  unfold psi_delta in G1. rewrite A1, A2 in G1. injection G1 as P1 D1.
  pose proof (All d1 _ _ _ _ A1 A2) as E1. pose proof (All d _ _ _ _ B1 B2) as E2.
  rewrite (psi_ratio rs' rp' rs rp rho) in P' by auto. rewrite (delta_ratio refl off rs' rp' rs rp rho) in D' by auto.
  split; congruence.
Qed.
End Film.

(** ** one film between two media: the thickness does have an effect *)
Lemma fresnel_pm (n0 nL c0 cL S : C) : n0 <> 0 -> nL <> 0 -> c0 <> 0 -> cL <> 0 -> S <> 0 ->
  c0 * c0 = 1 - (S / n0) * (S / n0) -> cL * cL = 1 - (S / nL) * (S / nL) -> n0 * n0 <> nL * nL ->
  let rs := n0 * c0 - nL * cL in let ds := n0 * c0 + nL * cL in
  let rp := nL * c0 - n0 * cL in let dp := nL * c0 + n0 * cL in
  rp * ds <> rs * dp /\ rp * ds <> - (rs * dp).
Proof.
  intros Z0 ZL Y0 YL SZ E0 EL N rs ds rp dp. split; intros E.
  - assert (K : 2 * (c0 * cL) * (nL * nL - n0 * n0) = 0).
    { transitivity (rp * ds - rs * dp); [unfold rs, ds, rp, dp; ring|]. rewrite E. ring. }
    assert (K2 : nL * nL - n0 * n0 = 0).
    { apply (Cmult_reg_l (2 * (c0 * cL))); [apply Cmult_neq_0; [exact C2_neq_0|apply Cmult_neq_0; auto]|]. rewrite K. ring. }
    apply N. transitivity (n0 * n0 + (nL * nL - n0 * n0)); [rewrite K2; ring|ring].
  - assert (K : 2 * (n0 * nL) * (c0 * c0 - cL * cL) = 0).
    { transitivity (rp * ds + rs * dp); [unfold rs, ds, rp, dp; ring|]. rewrite E. ring. }
    assert (K2 : c0 * c0 - cL * cL = 0).
    { apply (Cmult_reg_l (2 * (n0 * nL))); [apply Cmult_neq_0; [exact C2_neq_0|apply Cmult_neq_0; auto]|]. rewrite K. ring. }
    rewrite E0, EL in K2. apply N.
    assert (K3 : S * S * (n0 * n0) = S * S * (nL * nL)).
    { transitivity (n0 * n0 * (nL * nL) * (S / nL * (S / nL))); [field; auto|].
      transitivity (n0 * n0 * (nL * nL) * (S / n0 * (S / n0) + (1 - S / n0 * (S / n0) - (1 - S / nL * (S / nL))))); [ring|].
      rewrite K2. field. auto. }
    apply (Cmult_reg_l (S * S)); [apply Cmult_neq_0; auto|exact K3].
Qed.

Lemma wave_neq (s n n' : C) : n <> 0 -> n' <> 0 -> n * n <> n' * n' -> n * code_cos s n - n' * code_cos s n' <> 0.
Proof.
  intros Z Z' N E. apply N.
  assert (K : n * code_cos s n = n' * code_cos s n') by (transitivity (n * code_cos s n - n' * code_cos s n' + n' * code_cos s n'); [ring|rewrite E; ring]).
  assert (Q : forall n : C, n <> 0 -> n * n = n * code_cos s n * (n * code_cos s n) + s * s).
  { intros m Zm. transitivity (m * m * (code_cos s m * code_cos s m) + s * s); [rewrite code_cos_sq; field; auto|ring]. }
  rewrite (Q n Z), (Q n' Z'), K. reflexivity.
Qed.

(** the amplitudes of one film *)
Lemma single_form p (n0 nL nN : C) th0 lam d r t : amp p (amps n0 [] nL d [] nN th0 lam) = Some (r, t) ->
  let S := n0 * RtoC (sin th0) in
  let f := code_end S n0 in let l := mkMedium nL (code_cos S nL) 0 in let b := code_end S nN in
  let z := turn (ph_of n0 nL d th0 lam) in
  regular f /\ regular l /\ fden p f l <> 0 /\ fden p l b <> 0 /\
  ia p f l * ia p l b + ib p f l * ib p l b * z <> 0 /\
  r * (ia p f l * ia p l b + ib p f l * ib p l b * z) = ib p f l * ia p l b + ia p f l * ib p l b * z.
Proof.
  intros H S f l b z. unfold amps in H. cbn [app] in H. apply tmm_point_iff in H. destruct H as (_ & _ & G & M & Er & _).
  fold S in G, M, Er. fold f in G, M, Er. unfold code_rest in G, M, Er. cbn [map app] in G, M, Er. fold b in G, M, Er.
  change (code_layer S lam true (nL, d)) with (mkMedium nL (code_cos S nL) (ph_of n0 nL d th0 lam)) in G, M, Er.
  set (ph := ph_of n0 nL d th0 lam) in *.
  destruct G as (G1 & G2 & G3 & G4 & _).
  change (tm p f [mkMedium nL (code_cos S nL) ph; b]) with (mmul (imat p f l) (mmul (pmat ph) (imat p l b))) in M, Er.
  destruct (turn_entries (imat p f l) (imat p l b) ph) as [T0 T1]. rewrite T0 in M, Er. rewrite T1 in Er.
  cbn [imat m00 m01 m10 m11] in M, Er. fold z in M, Er.
  split; [exact G1|]. split; [exact G3|]. split; [exact G2|]. split; [exact G4|].
  pose proof (Cmult_neq_0_r _ _ M) as M'. split; [exact M'|]. rewrite Er. pose proof (cexp_neq_0 (- (Ci * ph))). field. auto.
Qed.

Lemma cancel (a b : C) : a <> 0 -> a * b = 0 -> b = 0.
Proof. intros N E. apply (Cmult_reg_l a); auto. rewrite E. ring. Qed.
Lemma minus_0 (a b : C) : a - b = 0 -> a = b.
Proof. intros E. transitivity (a - b + b); [ring|]. rewrite E. ring. Qed.

(** algebra: all coefficients of the quadratic cannot vanish *)
Lemma single_contra (a1 b1 a2 b2 a1' b1' a2' b2' rho : C) :
  rho <> 0 -> a1 <> 0 -> a1' <> 0 -> a2 <> 0 -> a2' <> 0 -> b1 <> 0 -> b2 <> 0 ->
  a1 * a1 - b1 * b1 <> 0 -> b1' * a1 - b1 * a1' <> 0 -> b1' * a1 + b1 * a1' <> 0 ->
  b1' * a2' * (a1 * a2) - rho * (b1 * a2) * (a1' * a2') = 0 ->
  b1' * a2' * (b1 * b2) + a1' * b2' * (a1 * a2) - rho * (b1 * a2 * (b1' * b2') + a1 * b2 * (a1' * a2')) = 0 ->
  a1' * b2' * (b1 * b2) - rho * (a1 * b2) * (b1' * b2') = 0 -> False.
Proof.
  intros R0 A1 A1' A2 A2' B1 B2 N1 N2 N3 Q0 Q1 Q2.
  assert (E0 : b1' * a1 = rho * (b1 * a1')).
  { apply minus_0, (cancel (a2 * a2')); [apply Cmult_neq_0; auto|]. rewrite <- Q0. ring. }
  destruct (Ceq_dec b2' 0) as [Z|Z].
  - subst b2'. assert (E1 : b1' * b1 = rho * (a1 * a1')).
    { apply minus_0, (cancel (a2' * b2)); [apply Cmult_neq_0; auto|]. rewrite <- Q1. ring. }
    apply N1. apply (cancel (rho * a1')); [apply Cmult_neq_0; auto|].
    transitivity (a1 * (rho * (a1 * a1')) - b1 * (rho * (b1 * a1'))); [ring|]. rewrite <- E0, <- E1. ring.
  - assert (E2 : a1' * b1 = rho * (a1 * b1')).
    { apply minus_0, (cancel (b2 * b2')); [apply Cmult_neq_0; auto|]. rewrite <- Q2. ring. }
    assert (K : (b1' * a1 - b1 * a1') * (b1' * a1 + b1 * a1') = 0).
    { transitivity (b1' * a1 * (b1' * a1) - a1' * b1 * (a1' * b1)); [ring|].
      transitivity (b1' * a1 * (rho * (b1 * a1')) - a1' * b1 * (rho * (a1 * b1'))); [rewrite <- E0, <- E2; reflexivity|ring]. }
    apply N3. exact (cancel _ _ N2 K).
Qed.

Theorem single_two tA (nA : C) rA (nL : C) rough tB (nB : C) rB (aoi w off : R) refl l psi delta :
  let s := (Re nA * sin (rad aoi))%R in
  (0 < Re nA)%R -> (0 < aoi < 90)%R -> (0 < w)%R -> passive nL -> passive nB -> nL <> RtoC (Re nA) -> nL <> nB ->
  distinguishable s w nL l -> Forall (fun d => gives tA nA rA [] nL rough [] tB nB rB aoi w off refl d psi delta) l ->
  (List.length l <= if refl then 4 else 2)%nat.
Proof.
  intros s NA AO W PL PB NE1 NE2 D F.
  assert (LL : ((if refl then 5 else 3) <= List.length l)%nat \/ (List.length l <= if refl then 4 else 2)%nat) by (destruct refl; lia).
  destruct LL as [L|L]; [exfalso|exact L].
  destruct (three_same tA nA rA [] nL rough [] tB nB rB aoi w off refl l psi delta (proj1 D) L F)
    as (rho & d1 & d2 & d3 & N12 & N13 & N23 & I1 & I2 & I3 & F1 & F2 & F3 & R0 & _).
  pose proof (turns_differ nA nL aoi w l d1 d2 W PL D I1 I2 N12) as T12.
  pose proof (turns_differ nA nL aoi w l d1 d3 W PL D I1 I3 N13) as T13.
  pose proof (turns_differ nA nL aoi w l d2 d3 W PL D I2 I3 N23) as T23.
  set (n0 := RtoC (Re nA)) in *. set (S := n0 * RtoC (sin (rad aoi))).
  set (f := code_end S n0). set (x := mkMedium nL (code_cos S nL) 0). set (b := code_end S nB).
  set (zz := fun d => turn (ph_of n0 nL (d / 10) (rad aoi) w)) in *. cbv beta in T12, T13, T23.
  assert (Q : forall d, fits nA [] nL [] nB aoi w rho d ->
    (ib pP f x * ia pP x b * (ia pS f x * ia pS x b) - rho * (ib pS f x * ia pS x b) * (ia pP f x * ia pP x b)) +
    (ib pP f x * ia pP x b * (ib pS f x * ib pS x b) + ia pP f x * ib pP x b * (ia pS f x * ia pS x b) -
      rho * (ib pS f x * ia pS x b * (ib pP f x * ib pP x b) + ia pS f x * ib pS x b * (ia pP f x * ia pP x b))) * zz d +
    (ia pP f x * ib pP x b * (ib pS f x * ib pS x b) - rho * (ia pS f x * ib pS x b) * (ib pP f x * ib pP x b)) * (zz d * zz d) = 0).
  { intros d (rs & ts & rp & tp & A1 & A2 & E).
    destruct (single_form pS _ _ _ _ _ _ _ _ A1) as (_ & _ & _ & _ & M1 & E1).
    destruct (single_form pP _ _ _ _ _ _ _ _ A2) as (_ & _ & _ & _ & M2 & E2).
    fold n0 in E1, E2. fold S in E1, E2. fold f in E1, E2. fold x in E1, E2. fold b in E1, E2.
    change (turn (ph_of n0 nL (d / 10) (rad aoi) w)) with (zz d) in E1, E2.
    transitivity ((ib pP f x * ia pP x b + ia pP f x * ib pP x b * zz d) * (ia pS f x * ia pS x b + ib pS f x * ib pS x b * zz d) -
      rho * (ib pS f x * ia pS x b + ia pS f x * ib pS x b * zz d) * (ia pP f x * ia pP x b + ib pP f x * ib pP x b * zz d)); [ring|].
    rewrite <- E1, <- E2, E. ring. }
  destruct (quadratic _ _ _ (zz d1) (zz d2) (zz d3) T12 T13 T23 (Q _ F1) (Q _ F2) (Q _ F3)) as (Q0 & Q1 & Q2).
  destruct F1 as (rs & ts & rp & tp & A1 & A2 & E).
  destruct (single_form pS _ _ _ _ _ _ _ _ A1) as (R1 & R2 & G1 & G2 & _ & _).
  destruct (single_form pP _ _ _ _ _ _ _ _ A2) as (_ & _ & G3 & G4 & _ & _).
  fold n0 in R1, R2, G1, G2, G3, G4. fold S in R1, R2, G1, G2, G3, G4. fold f in R1, R2, G1, G2, G3, G4.
  fold x in R1, R2, G1, G2, G3, G4. fold b in R1, R2, G1, G2, G3, G4.
  unfold regular in R1, R2. cbn [idx cosine f x code_end] in R1, R2.
  assert (Zn0 : n0 <> 0) by (unfold n0; intros Z; apply RtoC_inj in Z; lra).
  assert (ZnL : nL <> 0) by (destruct PL as [P1 _]; intros ->; cbn in P1; lra).
  assert (ZnB : nB <> 0) by (destruct PB as [P1 _]; intros ->; cbn in P1; lra).
  assert (P0 : passive n0) by (split; cbn; lra).
  assert (SQ1 : n0 * n0 <> nL * nL) by (intros K; apply NE1; symmetry; apply passive_sq_inj; auto).
  assert (SQ2 : nL * nL <> nB * nB) by (intros K; apply NE2; apply passive_sq_inj; auto).
  pose proof (Cmult_neq_0_r _ _ R1) as c0z. pose proof (Cmult_neq_0_r _ _ R2) as cLz.
  assert (SZ : S <> 0).
  { unfold S. apply Cmult_neq_0; auto. intros Z. apply RtoC_inj in Z. pose proof (rad_range aoi AO) as RR.
    pose proof (sin_gt_0 (rad aoi)) as SP. pose proof PI_RGT_0. specialize (SP ltac:(lra) ltac:(lra)). lra. }
  destruct (fresnel_pm n0 nL (code_cos S n0) (code_cos S nL) S Zn0 ZnL c0z cLz SZ (code_cos_sq S n0) (code_cos_sq S nL) SQ1) as [K1 K2].
  pose proof (wave_neq S n0 nL Zn0 ZnL SQ1) as V1. pose proof (wave_neq S nL nB ZnL ZnB SQ2) as V2.
  cbn [fden idx cosine f x b code_end] in G1, G2, G3, G4.
  pose proof C2_neq_0 as Z2.
  refine (single_contra (ia pS f x) (ib pS f x) (ia pS x b) (ib pS x b) (ia pP f x) (ib pP f x) (ia pP x b) (ib pP x b) rho
            R0 _ _ _ _ _ _ _ _ _ Q0 Q1 Q2);
    cbn [ia ib idx cosine f x b code_end].
  - intros Z. apply G1. transitivity (2 * (n0 * code_cos S n0) * ((n0 * code_cos S n0 + nL * code_cos S nL) / (2 * (n0 * code_cos S n0)))); [field; auto|rewrite Z; ring].
  - intros Z. apply G3. transitivity (2 * (n0 * code_cos S n0) * ((nL * code_cos S n0 + n0 * code_cos S nL) / (2 * (n0 * code_cos S n0)))); [field; auto|rewrite Z; ring].
  - intros Z. apply G2. transitivity (2 * (nL * code_cos S nL) * ((nL * code_cos S nL + nB * code_cos S nB) / (2 * (nL * code_cos S nL)))); [field; auto|rewrite Z; ring].
  - intros Z. apply G4. transitivity (2 * (nL * code_cos S nL) * ((nB * code_cos S nL + nL * code_cos S nB) / (2 * (nL * code_cos S nL)))); [field; auto|rewrite Z; ring].
  - intros Z. apply V1. transitivity (2 * (n0 * code_cos S n0) * ((n0 * code_cos S n0 - nL * code_cos S nL) / (2 * (n0 * code_cos S n0)))); [field; auto|rewrite Z; ring].
  - intros Z. apply V2. transitivity (2 * (nL * code_cos S nL) * ((nL * code_cos S nL - nB * code_cos S nB) / (2 * (nL * code_cos S nL)))); [field; auto|rewrite Z; ring].
  - intros Z. apply (Cmult_neq_0 _ _ R2 R1). 
    transitivity ((n0 * code_cos S n0) * (n0 * code_cos S n0) * ((n0 * code_cos S n0 + nL * code_cos S nL) / (2 * (n0 * code_cos S n0)) * ((n0 * code_cos S n0 + nL * code_cos S nL) / (2 * (n0 * code_cos S n0))) -
      (n0 * code_cos S n0 - nL * code_cos S nL) / (2 * (n0 * code_cos S n0)) * ((n0 * code_cos S n0 - nL * code_cos S nL) / (2 * (n0 * code_cos S n0)))));
      [field; auto|rewrite Z; ring].
  - intros Z. apply K1. apply minus_0.
    transitivity (2 * (n0 * code_cos S n0) * (2 * (n0 * code_cos S n0)) * ((nL * code_cos S n0 - n0 * code_cos S nL) / (2 * (n0 * code_cos S n0)) * ((n0 * code_cos S n0 + nL * code_cos S nL) / (2 * (n0 * code_cos S n0))) -
      (n0 * code_cos S n0 - nL * code_cos S nL) / (2 * (n0 * code_cos S n0)) * ((nL * code_cos S n0 + n0 * code_cos S nL) / (2 * (n0 * code_cos S n0)))));
      [field; auto|rewrite Z; ring].
  - intros Z. apply K2. apply minus_0.
    transitivity (2 * (n0 * code_cos S n0) * (2 * (n0 * code_cos S n0)) * ((nL * code_cos S n0 - n0 * code_cos S nL) / (2 * (n0 * code_cos S n0)) * ((n0 * code_cos S n0 + nL * code_cos S nL) / (2 * (n0 * code_cos S n0))) +
      (n0 * code_cos S n0 - nL * code_cos S nL) / (2 * (n0 * code_cos S n0)) * ((nL * code_cos S n0 + n0 * code_cos S nL) / (2 * (n0 * code_cos S n0)))));
      [field; auto|rewrite Z; ring].
Qed.
