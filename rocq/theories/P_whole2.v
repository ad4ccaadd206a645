(** * A solvated film on glass, seen at 30 degrees *)

Require Import Reals List Bool ZArith String Lra Lia.
From Coquelicot Require Import Complex.
From Verif Require Import Base Cplx M_tmm Spec_optics M_ema M_disp M_struct
  Spec_struct P_struct P_struct2 M_model Spec_whole.
Import ListNotations.
Open Scope list_scope.
Open Scope R_scope.

(** air | index 3 with 20/27 solvent (glass), a quarter wave thick | glass *)
Definition film_d : R := 633 / (2 * sqrt 15).
Definition wet : structure :=
  simple [layer_c 0 1 0 0 0; layer_c (10 * film_d) 3 0 0 (20 / 27); layer_c 0 (3 / 2) 0 0 0] false "linear".
Definition wet_stack : medium * list medium * medium :=
  (mkMedium (RtoC 1) (RtoC (sqrt 3 / 2)) 0,
   [mkMedium (RtoC 2) (RtoC (sqrt 15 / 4)) (RtoC (PI / 2))],
   mkMedium (RtoC (3 / 2)) (RtoC (sqrt 8 / 3)) 0)%C.

Definition wet_tbl : list slab :=
  [mkSlab 0 (Some (RtoC 1)) 0 0; mkSlab (10 * film_d) (Some (RtoC 3)) 0 (20 / 27); mkSlab 0 (Some (RtoC (3 / 2))) 0 0].
Definition wet_rows : list slab :=
  [mkSlab 0 (Some (RtoC 1)) 0 0; mkSlab (10 * film_d) (Some (RtoC 2)) 0 (20 / 27); mkSlab 0 (Some (RtoC (3 / 2))) 0 0].

Lemma wet_mix : csqrt (E_linear (RtoC 3 * RtoC 3)%C (RtoC (3 / 2) * RtoC (3 / 2))%C (20 / 27)) = RtoC 2.
Proof.
  unfold E_linear. rewrite <- !RtoC_mult, <- RtoC_plus.
  replace ((1 - 20 / 27) * (3 * 3) + 20 / 27 * (3 / 2 * (3 / 2))) with 4 by field.
  rewrite csqrt_nonneg_real by lra. f_equal. replace 4 with (2 * 2) by ring. apply sqrt_square. lra.
Qed.

Lemma wet_rows_at w : rows_at wet w wet_rows.
Proof.
  exists [[mkSlab 0 (Some (RtoC 1)) 0 0]; [mkSlab (10 * film_d) (Some (RtoC 3)) 0 (20 / 27)]; [mkSlab 0 (Some (RtoC (3 / 2))) 0 0]], wet_tbl.
  split; [|split].
  - repeat constructor; eexists; split; reflexivity.
  - reflexivity.
  - right. split; [|split].
    + eexists. split; [right; left; reflexivity|cbn [s_vf]; lra].
    + left; reflexivity.
    + exists (RtoC (3 / 2)). split; [reflexivity|]. split; [reflexivity|].
      intros i Hi. cbn [wet_tbl List.length] in Hi.
      destruct i as [|[|[|i]]]; [| | |lia]; cbn [wet_tbl wet_rows nth s_thick s_rough s_vf s_ri List.length Nat.sub];
        repeat split; auto; intros; try lia; try congruence.
      match goal with H : Some _ = Some _ |- _ => injection H as <- end.
      exists (RtoC 2). split; auto. unfold overall_ri. change (st_ema (with_wavelength wet (Some w))) with "linear"%string.
      cbn [String.eqb Ascii.eqb Bool.eqb]. f_equal. apply wet_mix.
Qed.

Lemma sin30 : rad 30 = PI / 6. Proof. unfold rad. field. Qed.
Lemma sqrt15 : sqrt 15 * sqrt 15 = 15. Proof. apply sqrt_sqrt. lra. Qed.
Lemma sqrt15_pos : 0 < sqrt 15. Proof. apply sqrt_lt_R0. lra. Qed.
Lemma sqrt3_pos : 0 < sqrt 3. Proof. apply sqrt_lt_R0. lra. Qed.
Lemma sqrt8_pos : 0 < sqrt 8. Proof. apply sqrt_lt_R0. lra. Qed.
Lemma sqrt3 : sqrt 3 * sqrt 3 = 3. Proof. apply sqrt_sqrt. lra. Qed.
Lemma sqrt8 : sqrt 8 * sqrt 8 = 8. Proof. apply sqrt_sqrt. lra. Qed.

Ltac nzR := try apply RtoC_inj; let X := fresh in intros X; try apply RtoC_inj in X; lra.

Lemma snell_real (s n c p : R) : n <> 0 -> c * c = 1 - (s / n) * (s / n) -> snell (RtoC s) (mkMedium (RtoC n) (RtoC c) (RtoC p)).
Proof.
  intros N E. assert (RtoC n <> 0%C) by (intros X; apply RtoC_inj in X; auto).
  split; cbn [idx cosine]; auto. rewrite <- RtoC_div by auto. rewrite <- !RtoC_mult, <- RtoC_minus. f_equal. exact E.
Qed.

Lemma wet_lit : lit wet_rows 633 30 (fst (fst wet_stack)) (snd (fst wet_stack)) (snd wet_stack).
Proof.
  pose proof sqrt15. pose proof sqrt15_pos. pose proof sqrt3_pos. pose proof sqrt8_pos. pose proof sqrt3. pose proof sqrt8.
  exists (mkSlab 0 (Some (RtoC 1)) 0 0), [mkSlab (10 * film_d) (Some (RtoC 2)) 0 (20 / 27)], (mkSlab 0 (Some (RtoC (3 / 2))) 0 0),
    (RtoC 1), [(RtoC 2, film_d)], (RtoC (3 / 2)).
  split; [reflexivity|]. split; [reflexivity|]. split; [reflexivity|].
  split; [repeat constructor|]. cbv zeta. rewrite sin30, sin_PI6, cos_PI6. cbn [Re RtoC fst].
  assert (S1 : (RtoC 1 * RtoC (1 / 2) = RtoC (1 / 2))%C) by (rewrite <- RtoC_mult; f_equal; ring). rewrite S1.
  assert (F : 0 <= film_d). { unfold film_d. apply Rlt_le. apply Rdiv_lt_0_compat; lra. }
  unfold physical_stack. repeat match goal with |- _ /\ _ => apply conj end.
  - lra.
  - lra.
  - split; cbn; lra.
  - constructor; [|constructor]. split; [split; cbn; lra|]. split; auto.
    intros X. cbn [fst] in X. rewrite <- !RtoC_mult in X. apply RtoC_inj in X. lra.
  - reflexivity.
  - apply (snell_real (1/2) 1 (sqrt 3 / 2) 0); [lra|]. field_simplify. rewrite pow2_sqrt; lra.
  - constructor; [|constructor]. split; [reflexivity|]. split.
    + apply (snell_real (1/2) 2 (sqrt 15 / 4) (PI/2)); [lra|]. field_simplify. rewrite pow2_sqrt; lra.
    + cbn [phase cosine fst snd]. rewrite <- !RtoC_mult, <- RtoC_div by (intros X; lra). f_equal.
      unfold film_d. field. lra.
  - reflexivity.
  - apply (snell_real (1/2) (3/2) (sqrt 8 / 3) 0); [lra|]. field_simplify. rewrite pow2_sqrt; lra.
  - lra.
  - cbn [cosine wet_stack fst snd]. rewrite Rabs_right by lra. reflexivity.
  - cbn. lra.
  - intros [_ X]. rewrite <- RtoC_div in X by lra. cbn [Re RtoC fst] in X. rewrite Rabs_right in X by lra. lra.
  - constructor; [|constructor]. cbn. rewrite Rabs_R0. lra.
Qed.

Lemma wet_lit_structure : lit_structure wet (633, 30) wet_stack.
Proof. exists wet_rows. split; [apply wet_rows_at|apply wet_lit]. Qed.

Lemma cexp_i_half : cexp (Ci * RtoC (PI / 2))%C = Ci.
Proof.
  replace (Ci * RtoC (PI / 2))%C with ((0, PI / 2) : C) by (apply injective_projections; cbn; ring).
  unfold cexp. cbn [Re Im fst snd]. rewrite exp_0, cos_PI2, sin_PI2. apply injective_projections; cbn; ring.
Qed.
Lemma cexp_mi_half : cexp (- (Ci * RtoC (PI / 2)))%C = (- Ci)%C.
Proof.
  replace (- (Ci * RtoC (PI / 2)))%C with ((0, - (PI / 2)) : C) by (apply injective_projections; cbn; ring).
  unfold cexp. cbn [Re Im fst snd]. rewrite exp_0, cos_neg, sin_neg, cos_PI2, sin_PI2. apply injective_projections; cbn; ring.
Qed.

Lemma Ci_cancel (a b : R) : (Ci * RtoC a = Ci * RtoC b)%C -> a = b.
Proof. intros H. apply (f_equal (@snd R R)) in H. cbn in H. lra. Qed.

Lemma wet_reflecting : reflecting wet_stack.
Proof.
  intros p r t (f & b & [E1 E2] & [E3 E4]) ->. cbn [phase] in E3, E4. rewrite cexp_i_half, cexp_mi_half in E3, E4.
  set (c0 := sqrt 3 / 2) in *. set (c1 := sqrt 15 / 4) in *. set (cB := sqrt 8 / 3) in *.
  assert (K0 : 0 < c0 < 1). { unfold c0. split; [pose proof sqrt3_pos; lra|]. pose proof sqrt3. pose proof sqrt3_pos. nra. }
  assert (KB : 0 < cB < 1). { unfold cB. split; [pose proof sqrt8_pos; lra|]. pose proof sqrt8. pose proof sqrt8_pos. nra. }
  assert (K1 : c1 * c1 = 15 / 16). { unfold c1. pose proof sqrt15. nra. }
  destruct p; cbn [tangential_1 tangential_2 idx cosine wet_stack fst snd] in E1, E2, E3, E4; fold c0 c1 cB in E1, E2, E3, E4.
  - assert (Q : (Ci * RtoC (4 * (c1 * c1)) = Ci * RtoC (3 / 2 * cB * c0))%C).
    { transitivity (RtoC 2 * RtoC c1 * (RtoC 2 * RtoC c1 * (f * Ci - b * - Ci)))%C.
      - transitivity (Ci * (RtoC 2 * RtoC c1 * (RtoC 2 * RtoC c1 * (f + b))))%C; [|ring].
        rewrite <- E1. rewrite !RtoC_mult. change (RtoC 4) with (RtoC (2 * 2)). rewrite RtoC_mult. ring.
      - rewrite E4. transitivity (RtoC (3/2) * RtoC cB * (RtoC 2 * RtoC c1 * (f * Ci + b * - Ci)))%C; [rewrite E3; ring|].
        transitivity (RtoC (3/2) * RtoC cB * Ci * (RtoC 2 * RtoC c1 * (f - b)))%C; [ring|]. rewrite <- E2.
        rewrite !RtoC_mult. ring. }
    apply Ci_cancel in Q. rewrite K1 in Q. nra.
  - assert (Q : (Ci * RtoC (3 / 2 * (c1 * c1)) = Ci * RtoC (4 * cB * c0))%C).
    { transitivity (RtoC (3 / 2) * RtoC 2 * RtoC c1 * (RtoC c1 * (f * Ci - b * - Ci)))%C.
      - transitivity (Ci * (RtoC (3 / 2) * RtoC c1 * RtoC c1 * (RtoC 2 * (f + b))))%C; [|ring].
        rewrite <- E1. rewrite !RtoC_mult. ring.
      - rewrite E4. transitivity (RtoC 2 * RtoC c1 * RtoC cB * (RtoC (3/2) * (t + 0)))%C; [ring|]. rewrite <- E3.
        transitivity (RtoC 2 * RtoC 2 * RtoC cB * Ci * (RtoC c1 * (f - b)))%C; [ring|]. rewrite <- E2.
        change (RtoC 4) with (RtoC (2 * 2)). rewrite !RtoC_mult. ring. }
    apply Ci_cancel in Q. rewrite K1 in Q.
    assert (c0 * c0 = 3 / 4) by (unfold c0; pose proof sqrt3; nra).
    assert (cB * cB = 8 / 9) by (unfold cB; pose proof sqrt8; nra). nra.
Qed.

Lemma wet_ok : slab_ends (st_data wet) /\ List.Forall (fun c => c_default_interface c = true) (st_data wet) /\ st_contract wet <= 0.
Proof.
  split; [|split].
  - do 2 eexists. split; [reflexivity|]. split; [reflexivity|]. split; do 4 eexists; reflexivity.
  - repeat constructor.
  - cbn. lra.
Qed.
