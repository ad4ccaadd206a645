(** * Complex functions used by numpy: exp, cos, sin, arcsin, sqrt, angle.
    Coquelicot only provides the field of complex numbers.  The branches are those
    of numpy (C99 Annex G) for arguments without negative zeros. *)

Require Import Reals Lra Lia Ring Field ZArith.
From Coquelicot Require Import Complex.
Open Scope R_scope.
Open Scope C_scope.

(** [ring] and [field] on C with integer constants *)
Lemma C_morph : ring_morph (RtoC 0) (RtoC 1) Cplus Cmult Cminus Copp (@eq C)
  0%Z 1%Z Z.add Z.mul Z.sub Z.opp Zeq_bool (fun z => RtoC (IZR z)).
Proof.
  constructor; intros; simpl; auto.
  - rewrite plus_IZR, RtoC_plus; auto.
  - rewrite minus_IZR, RtoC_minus; auto.
  - rewrite mult_IZR, RtoC_mult; auto.
  - rewrite opp_IZR, RtoC_opp; auto.
  - apply Zeq_bool_eq in H. subst; auto.
Qed.
Lemma C_complete : forall x y : Z, RtoC (IZR x) = RtoC (IZR y) -> Zeq_bool x y = true.
Proof.
  intros x y H. apply RtoC_inj in H. apply eq_IZR in H. subst.
  apply Zeq_is_eq_bool; auto.
Qed.
Ltac Ccst t :=
  match t with
  | RtoC (IZR ?z) => match isZcst z with true => z | _ => constr:(InitialRing.NotConstant) end
  | RtoC R0 => constr:(0%Z)
  | RtoC R1 => constr:(1%Z)
  | _ => constr:(InitialRing.NotConstant)
  end.
Add Field C_field_cst : C_field_theory
  (morphism C_morph, completeness C_complete, constants [Ccst]).

(** np.exp of a complex number *)
Definition cexp (z : C) : C := (exp (Re z) * cos (Im z), exp (Re z) * sin (Im z))%R.

(** np.cos, np.sin of a complex number *)
Definition ccos (z : C) : C :=
  (cos (Re z) * cosh (Im z), - (sin (Re z) * sinh (Im z)))%R.
Definition csin (z : C) : C :=
  (sin (Re z) * cosh (Im z), cos (Re z) * sinh (Im z))%R.

Definition sgnp (y : R) : R := if Rle_dec 0 y then 1%R else (-1)%R.

(** np.sqrt of a complex number (principal branch, +i on the negative axis) *)
Definition csqrt (z : C) : C :=
  (sqrt ((Cmod z + Re z) / 2), sgnp (Im z) * sqrt ((Cmod z - Re z) / 2))%R.

(** np.angle *)
Definition carg (z : C) : R :=
  let (x, y) := z in
  if Rlt_dec 0 x then atan (y / x)
  else if Rlt_dec x 0 then
         (if Rle_dec 0 y then atan (y / x) + PI else atan (y / x) - PI)
  else if Rlt_dec 0 y then PI / 2
  else if Rlt_dec y 0 then - (PI / 2)
  else 0%R.

(** np.arcsin of a complex number; on the cuts (real, |z|>1) the imaginary part is
    positive (C99 with +0 imaginary part) *)
Definition carcsin (z : C) : C :=
  let p := Cmod (z + 1) in let q := Cmod (z - 1) in
  let A := ((p + q) / 2)%R in
  let B := ((p - q) / 2)%R in
  (asin B, sgnp (Im z) * arcsinh (sqrt (A ^ 2 - 1)))%R.

(** ** Generalities *)
Lemma C_eq (a b : C) : Re a = Re b -> Im a = Im b -> a = b.
Proof. destruct a, b; simpl; intros; subst; reflexivity. Qed.

Lemma sgnp_sq y : (sgnp y * sgnp y = 1)%R.
Proof. unfold sgnp; destruct (Rle_dec 0 y); lra. Qed.
Lemma sgnp_abs y : (sgnp y * y = Rabs y)%R.
Proof.
  unfold sgnp; destruct (Rle_dec 0 y).
  - rewrite Rabs_right; lra.
  - rewrite Rabs_left; lra.
Qed.
Lemma sgnp_mul_abs y : (sgnp y * Rabs y = y)%R.
Proof. rewrite <- sgnp_abs. rewrite <- Rmult_assoc, sgnp_sq. ring. Qed.

Lemma Cmod_sq (z : C) : (Cmod z * Cmod z = Re z * Re z + Im z * Im z)%R.
Proof.
  unfold Cmod. rewrite sqrt_sqrt.
  - destruct z; simpl; ring.
  - destruct z as [a b]; simpl. nra.
Qed.
Lemma Cmod_Re_le z : (Rabs (Re z) <= Cmod z)%R.
Proof.
  rewrite <- (sqrt_Rsqr_abs). unfold Cmod. apply sqrt_le_1_alt.
  destruct z as [a b]; unfold Rsqr; simpl. nra.
Qed.
Lemma Cmod_Re_le1 z : (Re z <= Cmod z)%R.
Proof. eapply Rle_trans; [apply Rle_abs|apply Cmod_Re_le]. Qed.
Lemma Cmod_Re_le2 z : (- Re z <= Cmod z)%R.
Proof.
  eapply Rle_trans; [|apply Cmod_Re_le]. rewrite <- Rabs_Ropp. apply Rle_abs.
Qed.

Lemma Cmod_unique z r : (0 <= r -> r * r = Re z * Re z + Im z * Im z -> Cmod z = r)%R.
Proof.
  intros Hr H. apply Rsqr_inj; auto.
  - apply Cmod_ge_0.
  - unfold Rsqr. rewrite Cmod_sq; auto.
Qed.

Lemma Cmod_sq_conj (z : C) : RtoC (Cmod z * Cmod z) = Cconj z * z.
Proof.
  rewrite Cmod_sq. destruct z as [a b]. apply C_eq; simpl; ring.
Qed.

(** ** exp *)
Lemma cexp_add a b : cexp (a + b) = cexp a * cexp b.
Proof.
  destruct a as [a1 a2], b as [b1 b2]. unfold cexp. simpl.
  rewrite exp_plus, cos_plus, sin_plus. apply C_eq; simpl; ring.
Qed.
Lemma cexp_0 : cexp 0 = 1.
Proof. unfold cexp; simpl. rewrite exp_0, cos_0, sin_0. apply C_eq; simpl; ring. Qed.
Lemma cexp_opp_r z : cexp z * cexp (- z) = 1.
Proof. rewrite <- cexp_add. replace (z + - z) with (RtoC 0) by ring. apply cexp_0. Qed.
Lemma cexp_neq_0 z : cexp z <> 0.
Proof.
  intros H. pose proof (cexp_opp_r z) as E. rewrite H in E.
  replace (RtoC 0 * cexp (- z)) with (RtoC 0) in E by ring.
  apply (f_equal Re) in E. simpl in E. lra.
Qed.
Lemma cexp_opp z : cexp (- z) = / cexp z.
Proof.
  pose proof (cexp_opp_r z). pose proof (cexp_neq_0 z).
  replace (cexp (- z)) with (cexp z * cexp (- z) / cexp z) by (field; auto).
  rewrite H. field; auto.
Qed.
Lemma Cmod_cexp z : Cmod (cexp z) = exp (Re z).
Proof.
  apply Cmod_unique.
  - left; apply exp_pos.
  - unfold cexp; simpl. pose proof (sin2_cos2 (Im z)). unfold Rsqr in H.
    replace (exp (Re z) * exp (Re z))%R
      with (exp (Re z) * exp (Re z) * (sin (Im z) * sin (Im z) + cos (Im z) * cos (Im z)))%R
      by (rewrite H; ring). ring.
Qed.

(** ** sqrt *)
Lemma csqrt_sq z : csqrt z * csqrt z = z.
Proof.
  pose proof (Cmod_Re_le1 z) as H1. pose proof (Cmod_Re_le2 z) as H2.
  pose proof (Cmod_sq z) as H3.
  unfold csqrt. apply C_eq; simpl.
  - set (m := Cmod z) in *. set (s := sgnp (Im z)).
    replace (sqrt ((m + Re z) / 2) * sqrt ((m + Re z) / 2) -
       s * sqrt ((m - Re z) / 2) * (s * sqrt ((m - Re z) / 2)))%R
      with (sqrt ((m + Re z) / 2) * sqrt ((m + Re z) / 2) -
       (s * s) * (sqrt ((m - Re z) / 2) * sqrt ((m - Re z) / 2)))%R by ring.
    unfold s. rewrite sgnp_sq, !sqrt_sqrt by lra. lra.
  - set (m := Cmod z) in *.
    replace (sqrt ((m + Re z) / 2) * (sgnp (Im z) * sqrt ((m - Re z) / 2)) +
       sgnp (Im z) * sqrt ((m - Re z) / 2) * sqrt ((m + Re z) / 2))%R
      with (sgnp (Im z) * (2 * (sqrt ((m + Re z) / 2) * sqrt ((m - Re z) / 2))))%R by ring.
    rewrite <- sqrt_mult by lra.
    replace ((m + Re z) / 2 * ((m - Re z) / 2))%R with (Rsqr (Im z / 2))%R
      by (unfold Rsqr; nra).
    rewrite sqrt_Rsqr_abs. unfold Rdiv. rewrite Rabs_mult, (Rabs_right (/ 2)) by lra.
    pose proof (sgnp_mul_abs (Im z)).
    replace (sgnp (Im z) * (2 * (Rabs (Im z) * / 2)))%R with (sgnp (Im z) * Rabs (Im z))%R by field.
    exact H.
Qed.

Lemma csqrt_Re_nonneg z : (0 <= Re (csqrt z))%R.
Proof. simpl. apply sqrt_pos. Qed.

Lemma csqrt_half_plane z : (0 < Re (csqrt z) \/ Re (csqrt z) = 0 /\ 0 <= Im (csqrt z))%R.
Proof.
  destruct (csqrt_Re_nonneg z) as [H|H]; [left; auto|right; split; auto].
  pose proof (csqrt_sq z) as E. apply (f_equal Im) in E.
  destruct (Rle_dec 0 (Im z)) as [Hz|Hz].
  - simpl. unfold sgnp. destruct (Rle_dec 0 (Im z)); [|contradiction].
    rewrite Rmult_1_l. apply sqrt_pos.
  - exfalso. simpl in E, H. rewrite <- H in E. apply Hz. lra.
Qed.

(** in the closed right half plane (without the lower imaginary axis) the square root
    is determined *)
Lemma half_plane_sq_inj (w v : C) :
  (0 < Re w \/ Re w = 0 /\ 0 <= Im w)%R ->
  (0 < Re v \/ Re v = 0 /\ 0 <= Im v)%R ->
  w * w = v * v -> w = v.
Proof.
  intros Hw Hv E.
  assert (E2 : (w - v) * (w + v) = 0).
  { replace ((w - v) * (w + v)) with (w * w - v * v) by ring. rewrite E. ring. }
  assert (w - v = 0 \/ w + v = 0) as [D|D].
  { destruct (Ceq_dec (w - v) 0); auto. destruct (Ceq_dec (w + v) 0); auto.
    exfalso. apply (Cmult_neq_0 _ _ n n0 E2). }
  - replace w with (w - v + v) by ring. rewrite D. ring.
  - pose proof (f_equal Re D) as R1. pose proof (f_equal Im D) as R2.
    destruct w as [w1 w2], v as [v1 v2]; simpl in *.
    apply C_eq; simpl; lra.
Qed.

Lemma csqrt_unique z w :
  (0 < Re w \/ Re w = 0 /\ 0 <= Im w)%R -> w * w = z -> csqrt z = w.
Proof.
  intros Hw E. apply half_plane_sq_inj; auto.
  - apply csqrt_half_plane.
  - rewrite csqrt_sq; auto.
Qed.

Lemma csqrt_nonneg_real x : (0 <= x)%R -> csqrt (RtoC x) = RtoC (sqrt x).
Proof.
  intros H. apply csqrt_unique.
  - simpl. pose proof (sqrt_pos x). destruct (Rle_lt_or_eq_dec _ _ H0); [left|right]; auto; lra.
  - rewrite <- RtoC_mult, sqrt_sqrt; auto.
Qed.

Lemma csqrt_0 : csqrt 0 = 0.
Proof. rewrite csqrt_nonneg_real by lra. rewrite sqrt_0; reflexivity. Qed.

Lemma csqrt_eq_0 z : csqrt z = 0 -> z = 0.
Proof. intros H. rewrite <- (csqrt_sq z), H. ring. Qed.

Lemma csqrt_Im_nonneg z : (0 <= Im z -> 0 <= Im (csqrt z))%R.
Proof.
  intros H. simpl. unfold sgnp. destruct (Rle_dec 0 (Im z)); [|contradiction].
  rewrite Rmult_1_l. apply sqrt_pos.
Qed.

(** ** angle *)
Lemma carg_bounds z : (- PI < carg z <= PI)%R.
Proof.
  pose proof PI_RGT_0. destruct z as [x y]. unfold carg.
  pose proof (atan_bound (y / x)) as [B1 B2].
  repeat destruct (Rlt_dec _ _); try destruct (Rle_dec _ _); try lra.
  - assert (y / x <= 0)%R.
    { apply Rmult_le_reg_r with (- x)%R; [lra|].
      replace (y / x * - x)%R with (- y)%R by (field; lra). lra. }
    assert (atan (y / x) <= 0)%R.
    { rewrite <- atan_0. destruct H0 as [h|h]; [left; apply atan_increasing; auto|rewrite h; lra]. }
    lra.
  - assert (0 < y / x)%R.
    { apply Rmult_lt_reg_r with (- x)%R; [lra|].
      replace (y / x * - x)%R with (- y)%R by (field; lra). lra. }
    assert (0 < atan (y / x))%R by (rewrite <- atan_0; apply atan_increasing; auto).
    lra.
Qed.

Lemma cos_sin_atan (u : R) :
  (cos (atan u) = / sqrt (1 + u²) /\ sin (atan u) = u / sqrt (1 + u²))%R.
Proof. split; [rewrite cos_atan; unfold Rdiv; ring|apply sin_atan]. Qed.

Lemma carg_polar z : z = (Cmod z * cos (carg z), Cmod z * sin (carg z))%R.
Proof.
  destruct z as [x y]. unfold carg.
  assert (K : (x <> 0)%R -> (sqrt (1 + (y / x)²) * Rabs x = Cmod (x, y))%R).
  { intros Hx. symmetry. apply Cmod_unique.
    - apply Rmult_le_pos; [apply sqrt_pos|apply Rabs_pos].
    - simpl. replace (sqrt (1 + (y / x)²) * Rabs x * (sqrt (1 + (y / x)²) * Rabs x))%R
        with ((sqrt (1 + (y / x)²) * sqrt (1 + (y / x)²)) * (Rabs x * Rabs x))%R by ring.
      rewrite sqrt_sqrt by (unfold Rsqr; nra).
      rewrite <- Rabs_mult, (Rabs_right (x * x)) by nra.
      unfold Rsqr; field; auto. }
  assert (P : (0 < sqrt (1 + (y / x)²))%R).
  { apply sqrt_lt_R0. pose proof (Rle_0_sqr (y/x)); lra. }
  destruct (cos_sin_atan (y / x)) as [Ca Sa].
  destruct (Rlt_dec 0 x).
  - rewrite Ca, Sa, <- K by lra. rewrite Rabs_right by lra.
    apply C_eq; simpl; field; repeat split; lra.
  - destruct (Rlt_dec x 0).
    + destruct (Rle_dec 0 y).
      * rewrite neg_cos, neg_sin, Ca, Sa, <- K by lra. rewrite Rabs_left by lra.
        apply C_eq; simpl; field; repeat split; lra.
      * assert (E1: cos (atan (y/x) - PI) = (- cos (atan (y/x)))%R).
        { rewrite cos_minus, cos_PI, sin_PI. ring. }
        assert (E2: sin (atan (y/x) - PI) = (- sin (atan (y/x)))%R).
        { rewrite sin_minus, cos_PI, sin_PI. ring. }
        rewrite E1, E2, Ca, Sa, <- K by lra. rewrite Rabs_left by lra.
        apply C_eq; simpl; field; repeat split; lra.
    + assert (x = 0)%R by lra. subst x.
      destruct (Rlt_dec 0 y); [|destruct (Rlt_dec y 0)].
      * assert (Cmod (0, y) = y)%R as -> by (apply Cmod_unique; simpl; lra).
        rewrite cos_PI2, sin_PI2. apply C_eq; simpl; lra.
      * assert (Cmod (0, y) = -y)%R as -> by (apply Cmod_unique; simpl; lra).
        rewrite cos_neg, sin_neg, cos_PI2, sin_PI2. apply C_eq; simpl; lra.
      * assert (y = 0)%R by lra. subst y.
        assert (Cmod (0, 0) = 0)%R as -> by (apply Cmod_unique; simpl; lra).
        apply C_eq; simpl; lra.
Qed.

(** cosine and sine together determine an angle in (-pi, pi] *)
Lemma angle_unique a b : (- PI < a <= PI)%R -> (- PI < b <= PI)%R ->
  cos a = cos b -> sin a = sin b -> a = b.
Proof.
  intros Ha Hb Hc Hs. pose proof PI_RGT_0.
  assert (C1 : cos (a - b) = 1%R).
  { rewrite cos_minus, Hc, Hs. pose proof (sin2_cos2 b). unfold Rsqr in H0. lra. }
  assert (S1 : sin (a - b) = 0%R).
  { rewrite sin_minus, Hc, Hs. ring. }
  (* a - b in (-2 PI, 2 PI), half angle in (-PI, PI), sin(half)^2 = 0 *)
  assert (E : (sin ((a - b) / 2) * sin ((a - b) / 2) = 0)%R).
  { pose proof (cos_2a_sin ((a - b) / 2)) as E.
    replace (2 * ((a - b) / 2))%R with (a - b)%R in E by field. nra. }
  assert (E0 : sin ((a - b) / 2) = 0%R) by nra.
  destruct (Rlt_dec 0 ((a - b) / 2)) as [h|h].
  - pose proof (sin_gt_0 ((a - b) / 2) h ltac:(lra)). lra.
  - destruct (Rlt_dec ((a - b) / 2) 0) as [h'|h'].
    + pose proof (sin_lt_0_var ((a - b) / 2) ltac:(lra) h'). lra.
    + lra.
Qed.

Lemma carg_unique z r a : (0 < r -> - PI < a <= PI ->
  z = (r * cos a, r * sin a) -> carg z = a)%R.
Proof.
  intros Hr Ha E.
  assert (M : Cmod z = r).
  { apply Cmod_unique; [lra|]. rewrite E; simpl. pose proof (sin2_cos2 a) as T. unfold Rsqr in T.
    replace (r * cos a * (r * cos a) + r * sin a * (r * sin a))%R with
      (r * r * (sin a * sin a + cos a * cos a))%R by ring. rewrite T; ring. }
  pose proof (carg_polar z) as P. rewrite M in P.
  pose proof (eq_trans (eq_sym E) P) as Q.
  apply angle_unique; auto.
  - apply carg_bounds.
  - apply (f_equal Re) in Q; simpl in Q.
    apply Rmult_eq_reg_l with r; lra.
  - apply (f_equal Im) in Q; simpl in Q.
    apply Rmult_eq_reg_l with r; lra.
Qed.

(** ** sin, cos, arcsin *)
Lemma csin2_ccos2 z : csin z * csin z + ccos z * ccos z = 1.
Proof.
  destruct z as [x y]. unfold csin, ccos; simpl.
  pose proof (sin2_cos2 x) as E. unfold Rsqr in E.
  assert (F : (cosh y * cosh y - sinh y * sinh y = 1)%R).
  { unfold cosh, sinh. assert (exp y * exp (- y) = 1)%R
      by (rewrite <- exp_plus; replace (y + - y)%R with 0%R by ring; apply exp_0).
    field_simplify. nra. }
  apply C_eq; simpl.
  - replace (sin x * cosh y * (sin x * cosh y) - cos x * sinh y * (cos x * sinh y) +
      (cos x * cosh y * (cos x * cosh y) - - (sin x * sinh y) * - (sin x * sinh y)))%R
     with ((sin x * sin x + cos x * cos x) * (cosh y * cosh y - sinh y * sinh y))%R by ring.
    rewrite E, F; ring.
  - ring.
Qed.

Section arcsin.
  Variable z : C.
  Let p := Cmod (z + 1).
  Let q := Cmod (z - 1).
  Let A := ((p + q) / 2)%R.
  Let B := ((p - q) / 2)%R.

  Lemma arcsin_AB : (A * B = Re z)%R /\ (A * A + B * B = Re z * Re z + Im z * Im z + 1)%R.
  Proof.
    pose proof (Cmod_sq (z + 1)) as H1. pose proof (Cmod_sq (z - 1)) as H2.
    destruct z as [x y]. unfold A, B. fold p in H1. fold q in H2. clearbody p q. simpl in *. split; nra.
  Qed.
  Lemma arcsin_A_ge_1 : (1 <= A)%R.
  Proof.
    unfold A, p, q. pose proof (Cmod_triangle (z + 1) (- (z - 1))) as T.
    rewrite Cmod_opp in T. replace (z + 1 + - (z - 1)) with (RtoC 2) in T by (apply C_eq; simpl; ring).
    rewrite Cmod_R, Rabs_right in T by lra. lra.
  Qed.
  Lemma arcsin_B_bound : (-1 <= B <= 1)%R.
  Proof.
    destruct arcsin_AB as [H1 H2]. pose proof arcsin_A_ge_1.
    pose proof (Cmod_triangle (z - 1) (RtoC 2)) as T1.
    pose proof (Cmod_triangle (z + 1) (RtoC (-2))) as T2.
    rewrite Cmod_R in T1, T2. rewrite Rabs_right in T1 by lra. rewrite Rabs_left in T2 by lra.
    replace (z - 1 + 2) with (z + 1) in T1 by (apply C_eq; simpl; ring).
    replace (z + 1 + (-2)%R) with (z - 1) in T2 by (apply C_eq; simpl; ring).
    unfold B, p, q. lra.
  Qed.
  Lemma arcsin_y2 : (Im z * Im z = (A * A - 1) * (1 - B * B))%R.
  Proof. destruct arcsin_AB. nra. Qed.

  Lemma sinh_b : sinh (Im (carcsin z)) = (sgnp (Im z) * sqrt (A ^ 2 - 1))%R.
  Proof.
    change (Im (carcsin z)) with (sgnp (Im z) * arcsinh (sqrt (A ^ 2 - 1)))%R. unfold sgnp.
    destruct (Rle_dec 0 (Im z)).
    - rewrite !Rmult_1_l. apply sinh_arcsinh.
    - replace (-1 * arcsinh (sqrt (A ^ 2 - 1)))%R with (- arcsinh (sqrt (A ^ 2 - 1)))%R by ring.
      assert (O : forall u, sinh (- u) = (- sinh u)%R)
        by (intros; unfold sinh; rewrite Ropp_involutive; field).
      rewrite O, sinh_arcsinh. ring.
  Qed.
  Lemma cosh_b : cosh (Im (carcsin z)) = A.
  Proof.
    pose proof sinh_b as S. pose proof arcsin_A_ge_1 as HA.
    set (b := Im (carcsin z)) in *.
    assert (P : (0 < cosh b)%R) by (unfold cosh; pose proof (exp_pos b); pose proof (exp_pos (- b)); lra).
    assert (F : (cosh b * cosh b - sinh b * sinh b = 1)%R).
    { unfold cosh, sinh. assert (exp b * exp (- b) = 1)%R
      by (rewrite <- exp_plus; replace (b + - b)%R with 0%R by ring; apply exp_0).
      field_simplify. nra. }
    assert (sinh b * sinh b = A ^ 2 - 1)%R.
    { rewrite S. replace (sgnp (Im z) * sqrt (A ^ 2 - 1) * (sgnp (Im z) * sqrt (A ^ 2 - 1)))%R
       with ((sgnp (Im z) * sgnp (Im z)) * (sqrt (A ^ 2 - 1) * sqrt (A ^ 2 - 1)))%R by ring.
      rewrite sgnp_sq, sqrt_sqrt by nra. ring. }
    nra.
  Qed.
  Lemma sin_a : sin (Re (carcsin z)) = B.
  Proof. change (Re (carcsin z)) with (asin B). apply sin_asin. apply arcsin_B_bound. Qed.
  Lemma cos_a : cos (Re (carcsin z)) = sqrt (1 - B * B).
  Proof. change (Re (carcsin z)) with (asin B). rewrite cos_asin by apply arcsin_B_bound. reflexivity. Qed.

  Lemma csin_carcsin : csin (carcsin z) = z.
  Proof.
    unfold csin. rewrite sin_a, cos_a, sinh_b, cosh_b.
    destruct arcsin_AB as [H1 H2]. pose proof arcsin_A_ge_1. pose proof arcsin_B_bound.
    apply C_eq; simpl.
    - lra.
    - replace (sqrt (1 - B * B) * (sgnp (Im z) * sqrt (A * (A * 1) - 1)))%R with
        (sgnp (Im z) * (sqrt (1 - B * B) * sqrt (A * (A * 1) - 1)))%R by ring.
      rewrite <- sqrt_mult by nra.
      replace ((1 - B * B) * (A * (A * 1) - 1))%R with (Rsqr (Im z)) by (unfold Rsqr; rewrite arcsin_y2; ring).
      rewrite sqrt_Rsqr_abs. apply sgnp_mul_abs.
  Qed.

  Lemma ccos_carcsin_sq : ccos (carcsin z) * ccos (carcsin z) = 1 - z * z.
  Proof.
    pose proof (csin2_ccos2 (carcsin z)) as E. rewrite csin_carcsin in E.
    rewrite <- E. ring.
  Qed.
  Lemma ccos_carcsin_Re : (0 <= Re (ccos (carcsin z)))%R.
  Proof.
    unfold ccos. rewrite cos_a, cosh_b. simpl. pose proof arcsin_A_ge_1.
    apply Rmult_le_pos; [apply sqrt_pos|lra].
  Qed.
End arcsin.

(** off the cuts cos(arcsin z) is the principal square root *)
Lemma ccos_carcsin z : (Im z <> 0 \/ -1 <= Re z <= 1)%R ->
  ccos (carcsin z) = csqrt (1 - z * z).
Proof.
  intros H. symmetry. apply csqrt_unique; [|apply ccos_carcsin_sq].
  destruct (ccos_carcsin_Re z) as [P|P]; [left; auto|right].
  split; [auto|].
  pose proof (ccos_carcsin_sq z) as E.
  pose proof (f_equal Re E) as E1. pose proof (f_equal Im E) as E2.
  destruct (ccos (carcsin z)) as [c1 c2]. destruct z as [x y]. simpl in *.
  subst c1.
  assert (X : (x * y = 0)%R) by lra.
  destruct H as [H|H].
  - assert (x = 0)%R by nra. nra.
  - nra.
Qed.

(** on the cut z > 1: the decaying/growing choice made by C99 *)
Lemma ccos_carcsin_cut x : (1 < x)%R -> ccos (carcsin (RtoC x)) = (0, - sqrt (x * x - 1))%R.
Proof.
  intros H.
  assert (M1 : Cmod (RtoC x + 1) = (x + 1)%R).
  { rewrite <- RtoC_plus, Cmod_R, Rabs_right; lra. }
  assert (M2 : Cmod (RtoC x - 1) = (x - 1)%R).
  { rewrite <- RtoC_minus, Cmod_R, Rabs_right; lra. }
  unfold ccos. rewrite sin_a, cos_a, sinh_b, cosh_b. rewrite M1, M2.
  unfold sgnp. simpl Im. destruct (Rle_dec 0 0); [|lra].
  replace ((x + 1 - (x - 1)) / 2)%R with 1%R by field.
  replace ((x + 1 + (x - 1)) / 2)%R with x by field.
  replace (1 - 1 * 1)%R with 0%R by ring. rewrite sqrt_0.
  apply C_eq; simpl; [ring|]. rewrite !Rmult_1_l, Rmult_1_r. reflexivity.
Qed.

Lemma ccos_carcsin_0 : ccos (carcsin 0) = 1.
Proof.
  rewrite ccos_carcsin by (right; simpl; lra).
  replace (1 - 0 * 0) with (RtoC 1) by ring.
  rewrite csqrt_nonneg_real by lra. rewrite sqrt_1. reflexivity.
Qed.
