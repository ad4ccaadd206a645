(** * Proofs: the mixing rules compared, and how they depend on fraction and shape *)

Require Import Reals Lra Psatz String.
From Coquelicot Require Import Complex.
From Verif Require Import Base Cplx M_ema Spec_ema P_ema.
Open Scope string_scope.
Open Scope R_scope.

(** the three rules for real permittivities a (host), b *)
Definition poly (a b f L x : R) : R := (1 - L) * (x * x) - (a * ((1 - f) - L) + b * (f - L)) * x - L * (a * b).
Definition rule (ema : string) (a b f L e : R) : Prop :=
  (ema = "linear" /\ e = (1 - f) * a + f * b) \/
  (ema = "maxwell-garnett" /\ 0 < a + L * (1 - f) * (b - a) /\
     e * (a + L * (1 - f) * (b - a)) = a * (a + (L * (1 - f) + f) * (b - a))) \/
  (ema = "bruggeman" /\ L < 1 /\ poly a b f L e = 0).

Lemma bottom_pos a b f L : 0 < a -> 0 < b -> 0 <= f <= 1 -> 0 <= L <= 1 -> 0 < a + L * (1 - f) * (b - a).
Proof.
  intros Ha Hb Hf HL. assert (0 <= L * (1 - f) <= 1) as Hk.
  { assert (0 <= L * (1 - f)) by (apply Rmult_le_pos; lra).
    assert (L * (1 - f) <= 1 * 1) by (apply Rmult_le_compat; lra). lra. }
  set (k := L * (1 - f)) in *. clearbody k.
  replace (a + k * (b - a)) with ((1 - k) * a + k * b) by ring.
  assert (0 <= (1 - k) * a) by (apply Rmult_le_pos; lra). assert (0 <= k * b) by (apply Rmult_le_pos; lra).
  destruct (Req_dec k 0) as [->|]; [lra|]. assert (0 < k * b) by (apply Rmult_lt_0_compat; lra). lra.
Qed.

Lemma to_rule (n m f L : R) (ema : string) (r : R) :
  0 < n -> 0 < m -> 0 <= f <= 1 -> 0 <= L <= 1 ->
  ema = "linear" \/ ema = "maxwell-garnett" \/ ema = "bruggeman" /\ L < 1 ->
  overall_ri (RtoC n) (RtoC m) f ema L = Ok (RtoC r) ->
  0 < r /\ rule ema (n * n) (m * m) f L (r * r) /\ Rmin n m <= r <= Rmax n m.
Proof.
  intros Hn Hm Hf HL He E.
  destruct (mix_between n m f L ema Hn Hm Hf HL He) as (r' & E' & B). rewrite E in E'.
  assert (r' = r) as -> by (injection E'; auto).
  assert (0 < r) as Hr. { unfold Rmin in B. destruct (Rle_dec n m); lra. }
  split; [exact Hr|]. split; [|exact B].
  destruct He as [->|[->|[-> L1]]]; unfold rule.
  - left. split; [reflexivity|]. unfold overall_ri in E. cbn [String.eqb Ascii.eqb Bool.eqb] in E.
    assert (csqrt (E_linear (RtoC n * RtoC n)%C (RtoC m * RtoC m)%C f) = RtoC r) as K by congruence.
    pose proof (csqrt_sq (E_linear (RtoC n * RtoC n)%C (RtoC m * RtoC m)%C f)) as Q. rewrite K in Q.
    unfold E_linear in Q. rewrite <- ?RtoC_mult, <- ?RtoC_plus in Q. apply (f_equal Re) in Q. cbn [Re RtoC fst] in Q. lra.
  - right; left. split; [reflexivity|]. pose proof (bottom_pos (n * n) (m * m) f L) as P.
    assert (0 < n * n) by nra. assert (0 < m * m) by nra. specialize (P ltac:(lra) ltac:(lra) Hf HL). split; [exact P|].
    destruct (mg_full (RtoC n) (RtoC m) f L) as (z & Ez & _ & U & _). rewrite E in Ez.
    assert (z = RtoC r) as -> by congruence.
    assert (mg_bottom (RtoC n * RtoC n)%C (RtoC m * RtoC m)%C f L <> 0%C) as Nb.
    { unfold mg_bottom. rewrite <- !RtoC_mult, <- RtoC_minus, <- RtoC_mult, <- RtoC_plus. apply RtoC_neq. lra. }
    pose proof (proj2 (U Nb (RtoC r * RtoC r)%C) eq_refl) as R1. unfold maxwell_garnett in R1.
    rewrite <- !RtoC_mult, <- !RtoC_minus, <- ?RtoC_mult, <- ?RtoC_plus, <- ?RtoC_mult in R1.
    apply (f_equal Re) in R1. cbn [Re RtoC fst] in R1. lra.
  - right; right. split; [reflexivity|]. split; [exact L1|].
    destruct (bruggeman_full (RtoC n) (RtoC m) f L) as (z & Ez & _ & U); [lra|]. rewrite E in Ez.
    assert (z = RtoC r) as -> by congruence. unfold bruggeman in U.
    rewrite <- !RtoC_mult, <- !RtoC_minus, <- ?RtoC_mult, <- ?RtoC_plus, <- ?RtoC_mult, <- ?RtoC_plus in U.
    apply (f_equal Re) in U. cbn [Re RtoC fst] in U. unfold poly. lra.
Qed.

Lemma squares_le x y : 0 < x -> 0 < y -> x * x <= y * y -> x <= y.
Proof. intros Hx Hy H. apply Rnot_lt_le. intros K. nra. Qed.
Lemma squares_lt x y : 0 < x -> 0 < y -> x * x < y * y -> x < y.
Proof. intros Hx Hy H. apply Rnot_le_lt. intros K. nra. Qed.

(** the positive root of the Bruggeman polynomial *)
Lemma poly_cross a b f L x e : poly a b f L e = 0 ->
  poly a b f L x * e = (x - e) * ((1 - L) * (x * e) + L * (a * b)).
Proof. intros H. unfold poly in *. 
  replace (((1 - L) * (x * x) - (a * (1 - f - L) + b * (f - L)) * x - L * (a * b)) * e)
    with ((x - e) * ((1 - L) * (x * e) + L * (a * b)) + x * ((1 - L) * (e * e) - (a * (1 - f - L) + b * (f - L)) * e - L * (a * b))) by ring.
  rewrite H. ring.
Qed.
Lemma slope_pos a b L x e : 0 < a -> 0 < b -> 0 <= L < 1 -> 0 < x -> 0 < e -> 0 < (1 - L) * (x * e) + L * (a * b).
Proof.
  intros. assert (0 < (1 - L) * (x * e)) by (apply Rmult_lt_0_compat; [lra|apply Rmult_lt_0_compat; auto]).
  assert (0 <= L * (a * b)) by (apply Rmult_le_pos; [lra|apply Rlt_le, Rmult_lt_0_compat; auto]). lra.
Qed.
Lemma below_root a b f L x e : 0 < a -> 0 < b -> 0 <= L < 1 -> 0 < x -> 0 < e ->
  poly a b f L e = 0 -> poly a b f L x <= 0 -> x <= e.
Proof.
  intros Ha Hb HL Hx He R H. pose proof (poly_cross a b f L x e R) as K. pose proof (slope_pos a b L x e Ha Hb HL Hx He) as S.
  apply Rnot_lt_le. intros C. assert (0 < (x - e) * ((1 - L) * (x * e) + L * (a * b))) by (apply Rmult_lt_0_compat; lra). nra.
Qed.
Lemma above_root a b f L x e : 0 < a -> 0 < b -> 0 <= L < 1 -> 0 < x -> 0 < e ->
  poly a b f L e = 0 -> 0 <= poly a b f L x -> e <= x.
Proof.
  intros Ha Hb HL Hx He R H. pose proof (poly_cross a b f L x e R) as K. pose proof (slope_pos a b L x e Ha Hb HL Hx He) as S.
  apply Rnot_lt_le. intros C. assert (0 < (e - x) * ((1 - L) * (x * e) + L * (a * b))) by (apply Rmult_lt_0_compat; lra). nra.
Qed.
Lemma strictly_below a b f L x e : 0 < a -> 0 < b -> 0 <= L < 1 -> 0 < x -> 0 < e ->
  poly a b f L e = 0 -> poly a b f L x < 0 -> x < e.
Proof.
  intros Ha Hb HL Hx He R H. pose proof (below_root a b f L x e Ha Hb HL Hx He R ltac:(lra)) as K.
  destruct (Req_dec x e) as [->|]; lra.
Qed.

(** ** Wiener bounds *)
Lemma unit_prod x y : 0 <= x -> 0 <= y -> 0 <= x * y.
Proof. exact (Rmult_le_pos x y). Qed.
Lemma wiener a b f L ema e : 0 < a -> 0 < b -> 0 <= f <= 1 -> 0 <= L <= 1 -> 0 < e -> rule ema a b f L e ->
  a * b <= e * ((1 - f) * b + f * a) /\ e <= (1 - f) * a + f * b.
Proof.
  intros Ha Hb Hf HL He.
  assert (0 <= (1 - f) * f * ((b - a) * (b - a))) as Q.
  { apply unit_prod; [apply unit_prod; lra|apply Rle_0_sqr]. }
  intros [(_ & ->)|[(_ & P & H)|(_ & L1 & H)]].
  - split; [|lra]. lra.
  - set (B := a + L * (1 - f) * (b - a)) in *. split.
    + apply Rmult_le_reg_r with B; [exact P|].
      replace (e * ((1 - f) * b + f * a) * B) with (e * B * ((1 - f) * b + f * a)) by ring. rewrite H.
      apply Rminus_le. apply Rle_trans with (- (a * ((1 - L) * ((1 - f) * f * ((b - a) * (b - a)))))).
      * right. unfold B. ring.
      * assert (0 <= a * ((1 - L) * ((1 - f) * f * ((b - a) * (b - a))))) by (apply unit_prod; [lra|apply unit_prod; lra]). lra.
    + apply Rmult_le_reg_r with B; [exact P|]. rewrite H.
      apply Rminus_le. apply Rle_trans with (- (L * ((1 - f) * f * ((b - a) * (b - a))))).
      * right. unfold B. ring.
      * assert (0 <= L * ((1 - f) * f * ((b - a) * (b - a)))) by (apply unit_prod; lra). lra.
  - set (V := (1 - f) * a + f * b). set (W := (1 - f) * b + f * a).
    assert (0 < V) as HV.
    { unfold V. destruct (Req_dec f 0) as [->|]; [lra|]. assert (0 < f * b) by (apply Rmult_lt_0_compat; lra).
      assert (0 <= (1 - f) * a) by (apply unit_prod; lra). lra. }
    assert (0 < W) as HW.
    { unfold W. destruct (Req_dec f 0) as [->|]; [lra|]. assert (0 < f * a) by (apply Rmult_lt_0_compat; lra).
      assert (0 <= (1 - f) * b) by (apply unit_prod; lra). lra. }
    split.
    + assert (a * b / W <= e) as K.
      { apply (below_root a b f L); auto; [lra|apply Rdiv_lt_0_compat; [apply Rmult_lt_0_compat; auto|auto]|].
        apply Rmult_le_reg_r with (W * W); [apply Rmult_lt_0_compat; auto|]. rewrite Rmult_0_l.
        apply Rle_trans with (- (a * b * ((1 - L) * ((1 - f) * f * ((b - a) * (b - a)))))).
        - right. unfold poly. field_simplify; [|lra]. unfold W. ring.
        - assert (0 <= a * b * ((1 - L) * ((1 - f) * f * ((b - a) * (b - a))))).
          { apply unit_prod; [apply unit_prod; lra|apply unit_prod; lra]. } lra. }
      apply Rmult_le_compat_r with (r := W) in K; [|lra]. unfold Rdiv in K. rewrite Rmult_assoc, Rinv_l, Rmult_1_r in K by lra. exact K.
    + apply (above_root a b f L); auto; [lra|].
      apply Rle_trans with (L * ((1 - f) * f * ((b - a) * (b - a)))); [apply unit_prod; lra|].
      right. unfold poly, V. ring.
Qed.

(** ** Maxwell-Garnett and Bruggeman *)
Lemma poly_at_mg a b f L x : 0 < a + L * (1 - f) * (b - a) ->
  x * (a + L * (1 - f) * (b - a)) = a * (a + (L * (1 - f) + f) * (b - a)) ->
  poly a b f L x * ((a + L * (1 - f) * (b - a)) * (a + L * (1 - f) * (b - a))) =
  - (a * (f * f * (1 - f) * L * (1 - L)) * ((b - a) * (b - a))) * (b - a).
Proof.
  intros P H. unfold poly. set (B := a + L * (1 - f) * (b - a)) in *.
  replace (((1 - L) * (x * x) - (a * (1 - f - L) + b * (f - L)) * x - L * (a * b)) * (B * B))
    with ((1 - L) * ((x * B) * (x * B)) - (a * (1 - f - L) + b * (f - L)) * (x * B) * B - L * (a * b) * (B * B)) by ring.
  rewrite H. unfold B. ring.
Qed.
Lemma coefficient_nonneg a f L D : 0 < a -> 0 <= f <= 1 -> 0 <= L < 1 -> 0 <= a * (f * f * (1 - f) * L * (1 - L)) * (D * D).
Proof.
  intros. apply unit_prod; [|apply Rle_0_sqr]. apply unit_prod; [lra|].
  repeat (apply unit_prod; try lra).
Qed.
Lemma mg_below a b f L x e : 0 < a -> 0 < b -> a <= b -> 0 <= f <= 1 -> 0 <= L < 1 -> 0 < x -> 0 < e ->
  rule "maxwell-garnett" a b f L x -> rule "bruggeman" a b f L e -> x <= e.
Proof.
  intros Ha Hb Hab Hf HL Hx He [(K & _)|[(_ & P & H)|(K & _)]]; try discriminate.
  intros [(K & _)|[(K & _)|(_ & _ & R)]]; try discriminate.
  apply (below_root a b f L); auto. pose proof (poly_at_mg a b f L x P H) as E.
  pose proof (coefficient_nonneg a f L (b - a) Ha Hf HL) as Q.
  set (B := a + L * (1 - f) * (b - a)) in *. assert (0 < B * B) by (apply Rmult_lt_0_compat; auto).
  apply Rmult_le_reg_r with (B * B); [auto|]. rewrite E, Rmult_0_l.
  assert (0 <= a * (f * f * (1 - f) * L * (1 - L)) * ((b - a) * (b - a)) * (b - a)) by (apply unit_prod; [exact Q|lra]). lra.
Qed.
Lemma mg_above a b f L x e : 0 < a -> 0 < b -> b <= a -> 0 <= f <= 1 -> 0 <= L < 1 -> 0 < x -> 0 < e ->
  rule "maxwell-garnett" a b f L x -> rule "bruggeman" a b f L e -> e <= x.
Proof.
  intros Ha Hb Hab Hf HL Hx He [(K & _)|[(_ & P & H)|(K & _)]]; try discriminate.
  intros [(K & _)|[(K & _)|(_ & _ & R)]]; try discriminate.
  apply (above_root a b f L); auto. pose proof (poly_at_mg a b f L x P H) as E.
  pose proof (coefficient_nonneg a f L (b - a) Ha Hf HL) as Q.
  set (B := a + L * (1 - f) * (b - a)) in *. assert (0 < B * B) by (apply Rmult_lt_0_compat; auto).
  apply Rmult_le_reg_r with (B * B); [auto|]. rewrite E, Rmult_0_l.
  assert (0 <= a * (f * f * (1 - f) * L * (1 - L)) * ((b - a) * (b - a)) * (a - b)) by (apply unit_prod; [exact Q|lra]). lra.
Qed.

(** ** volume fraction *)
Lemma grows ema a b f1 f2 L e1 e2 : 0 < a -> 0 < b -> a < b -> 0 <= f1 -> f1 < f2 -> f2 <= 1 -> 0 <= L <= 1 -> 0 < e1 -> 0 < e2 ->
  rule ema a b f1 L e1 -> rule ema a b f2 L e2 -> e1 < e2.
Proof.
  intros Ha Hb Hab H1 H12 H2 HL He1 He2 [(-> & E1)|[(-> & P1 & E1)|(-> & L1 & E1)]] [(K & E2)|[(K & P2 & E2)|(K & L2 & E2)]]; try discriminate.
  - subst. nra.
  - assert (0 < a + L * (b - a)) as PK by nra.
    set (B1 := a + L * (1 - f1) * (b - a)) in *. set (B2 := a + L * (1 - f2) * (b - a)) in *.
    apply Rmult_lt_reg_r with (B1 * B2); [apply Rmult_lt_0_compat; auto|].
    replace (e1 * (B1 * B2)) with (e1 * B1 * B2) by ring. replace (e2 * (B1 * B2)) with (e2 * B2 * B1) by ring.
    rewrite E1, E2. apply Rminus_gt_0_lt.
    replace (a * (a + (L * (1 - f2) + f2) * (b - a)) * B1 - a * (a + (L * (1 - f1) + f1) * (b - a)) * B2)
      with (a * ((f2 - f1) * (b - a)) * (a + L * (b - a))) by (unfold B1, B2; ring).
    apply Rmult_lt_0_compat; [apply Rmult_lt_0_compat; [auto|apply Rmult_lt_0_compat; lra]|auto].
  - apply (strictly_below a b f2 L); auto; [lra|].
    assert (poly a b f2 L e1 = poly a b f1 L e1 - (f2 - f1) * (b - a) * e1) as -> by (unfold poly; ring). rewrite E1.
    assert (0 < (f2 - f1) * (b - a) * e1) by (apply Rmult_lt_0_compat; [apply Rmult_lt_0_compat; lra|auto]). lra.
Qed.
Lemma strictly_above a b f L x e : 0 < a -> 0 < b -> 0 <= L < 1 -> 0 < x -> 0 < e ->
  poly a b f L e = 0 -> 0 < poly a b f L x -> e < x.
Proof.
  intros Ha Hb HL Hx He R H. pose proof (above_root a b f L x e Ha Hb HL Hx He R ltac:(lra)) as K.
  destruct (Req_dec x e) as [->|]; lra.
Qed.
Lemma shrinks ema a b f1 f2 L e1 e2 : 0 < a -> 0 < b -> b < a -> 0 <= f1 -> f1 < f2 -> f2 <= 1 -> 0 <= L <= 1 -> 0 < e1 -> 0 < e2 ->
  rule ema a b f1 L e1 -> rule ema a b f2 L e2 -> e2 < e1.
Proof.
  intros Ha Hb Hab H1 H12 H2 HL He1 He2 [(-> & E1)|[(-> & P1 & E1)|(-> & L1 & E1)]] [(K & E2)|[(K & P2 & E2)|(K & L2 & E2)]]; try discriminate.
  - subst. nra.
  - assert (0 < a + L * (b - a)) as PK.
    { pose proof (bottom_pos a b 0 L Ha Hb ltac:(lra) HL) as Z. rewrite Rminus_0_r, Rmult_1_r in Z. exact Z. }
    set (B1 := a + L * (1 - f1) * (b - a)) in *. set (B2 := a + L * (1 - f2) * (b - a)) in *.
    apply Rmult_lt_reg_r with (B1 * B2); [apply Rmult_lt_0_compat; auto|].
    replace (e1 * (B1 * B2)) with (e1 * B1 * B2) by ring. replace (e2 * (B1 * B2)) with (e2 * B2 * B1) by ring.
    rewrite E1, E2. apply Rminus_gt_0_lt.
    replace (a * (a + (L * (1 - f1) + f1) * (b - a)) * B2 - a * (a + (L * (1 - f2) + f2) * (b - a)) * B1)
      with (a * ((f2 - f1) * (a - b)) * (a + L * (b - a))) by (unfold B1, B2; ring).
    apply Rmult_lt_0_compat; [apply Rmult_lt_0_compat; [auto|apply Rmult_lt_0_compat; lra]|auto].
  - apply (strictly_above a b f2 L); auto; [lra|].
    assert (poly a b f2 L e1 = poly a b f1 L e1 + (f2 - f1) * (a - b) * e1) as -> by (unfold poly; ring). rewrite E1.
    assert (0 < (f2 - f1) * (a - b) * e1) by (apply Rmult_lt_0_compat; [apply Rmult_lt_0_compat; lra|auto]). lra.
Qed.
Lemma determines ema a b f1 f2 L e : 0 < a -> 0 < b -> a <> b -> 0 <= L <= 1 -> 0 < e ->
  rule ema a b f1 L e -> rule ema a b f2 L e -> f1 = f2.
Proof.
  intros Ha Hb Hab HL He [(-> & E1)|[(-> & P1 & E1)|(-> & L1 & E1)]] [(K & E2)|[(K & P2 & E2)|(K & L2 & E2)]]; try discriminate.
  - assert ((f1 - f2) * (b - a) = 0) as Z by lra. apply Rmult_integral in Z. destruct Z; lra.
  - assert ((f1 - f2) * ((b - a) * (a + L * (e - a))) = 0) as Z by nra.
    assert (0 < a + L * (e - a)).
    { replace (a + L * (e - a)) with ((1 - L) * a + L * e) by ring.
      assert (0 <= (1 - L) * a) by (apply unit_prod; lra). assert (0 <= L * e) by (apply unit_prod; lra).
      destruct (Req_dec L 0) as [->|]; [lra|]. assert (0 < L * e) by (apply Rmult_lt_0_compat; lra). lra. }
    apply Rmult_integral in Z. destruct Z as [Z|Z]; [lra|]. apply Rmult_integral in Z. destruct Z; lra.
  - assert ((f1 - f2) * ((b - a) * e) = 0) as Z by (unfold poly in *; lra).
    apply Rmult_integral in Z. destruct Z as [Z|Z]; [lra|]. apply Rmult_integral in Z. destruct Z; lra.
Qed.

(** ** depolarisation factor *)
Lemma flattens ema a b f L1 L2 e1 e2 : 0 < a -> 0 < b -> 0 <= f <= 1 -> 0 <= L1 -> L1 <= L2 -> L2 <= 1 -> 0 < e1 -> 0 < e2 ->
  (Rmin a b <= e1 <= Rmax a b) -> rule ema a b f L1 e1 -> rule ema a b f L2 e2 -> e2 <= e1.
Proof.
  intros Ha Hb Hf H1 H12 H2 He1 He2 Bt [(-> & E1)|[(-> & P1 & E1)|(-> & M1 & E1)]] [(K & E2)|[(K & P2 & E2)|(K & M2 & E2)]]; try discriminate.
  - lra.
  - set (B1 := a + L1 * (1 - f) * (b - a)) in *. set (B2 := a + L2 * (1 - f) * (b - a)) in *.
    apply Rmult_le_reg_r with (B1 * B2); [apply Rmult_lt_0_compat; auto|].
    replace (e1 * (B1 * B2)) with (e1 * B1 * B2) by ring. replace (e2 * (B1 * B2)) with (e2 * B2 * B1) by ring.
    rewrite E1, E2. apply Rminus_le.
    replace (a * (a + (L2 * (1 - f) + f) * (b - a)) * B1 - a * (a + (L1 * (1 - f) + f) * (b - a)) * B2)
      with (- (a * ((L2 - L1) * (f * (1 - f) * ((b - a) * (b - a)))))) by (unfold B1, B2; ring).
    assert (0 <= a * ((L2 - L1) * (f * (1 - f) * ((b - a) * (b - a))))).
    { apply unit_prod; [lra|]. apply unit_prod; [lra|]. apply unit_prod; [apply unit_prod; lra|apply Rle_0_sqr]. } lra.
  - apply (above_root a b f L2); auto; [lra|].
    assert (poly a b f L2 e1 = poly a b f L1 e1 + (L2 - L1) * ((e1 - a) * (b - e1))) as -> by (unfold poly; ring). rewrite E1.
    assert (0 <= (e1 - a) * (b - e1)) as Q.
    { unfold Rmin, Rmax in Bt. destruct (Rle_dec a b).
      - apply unit_prod; lra.
      - replace ((e1 - a) * (b - e1)) with ((a - e1) * (e1 - b)) by ring. apply unit_prod; lra. }
    assert (0 <= (L2 - L1) * ((e1 - a) * (b - e1))) by (apply unit_prod; lra). lra.
Qed.

(** ** in terms of refractive indices *)
Lemma ri_wiener (n m f L : R) ema r : 0 < n -> 0 < m -> 0 <= f <= 1 -> 0 <= L <= 1 ->
  ema = "linear" \/ ema = "maxwell-garnett" \/ ema = "bruggeman" /\ L < 1 ->
  overall_ri (RtoC n) (RtoC m) f ema L = Ok (RtoC r) ->
  / ((1 - f) / (n ^ 2) + f / (m ^ 2)) <= r ^ 2 <= (1 - f) * n ^ 2 + f * m ^ 2.
Proof.
  intros Hn Hm Hf HL He E. destruct (to_rule n m f L ema r Hn Hm Hf HL He E) as (Hr & R & _).
  assert (0 < n * n) as Hnn by (apply Rmult_lt_0_compat; auto). assert (0 < m * m) as Hmm by (apply Rmult_lt_0_compat; auto).
  destruct (wiener _ _ _ _ _ _ Hnn Hmm Hf HL (Rmult_lt_0_compat _ _ Hr Hr) R) as (W1 & W2).
  assert (0 < (1 - f) * (m * m) + f * (n * n)) as HW.
  { destruct (Req_dec f 0) as [->|]; [lra|]. assert (0 < f * (n * n)) by (apply Rmult_lt_0_compat; lra).
    assert (0 <= (1 - f) * (m * m)) by (apply unit_prod; lra). lra. }
  split; [|cbn [pow]; lra].
  replace ((1 - f) / n ^ 2 + f / m ^ 2) with (((1 - f) * (m * m) + f * (n * n)) / (n * n * (m * m))) by (field; lra).
  unfold Rdiv. rewrite Rinv_mult, Rinv_inv.
  apply Rmult_le_reg_l with ((1 - f) * (m * m) + f * (n * n)); [exact HW|].
  rewrite <- Rmult_assoc, Rinv_r, Rmult_1_l by lra. cbn [pow]. lra.
Qed.
Lemma ri_order (n m f L r1 r2 r3 : R) : 0 < n -> n <= m -> 0 <= f <= 1 -> 0 <= L < 1 ->
  overall_ri (RtoC n) (RtoC m) f "maxwell-garnett" L = Ok (RtoC r1) ->
  overall_ri (RtoC n) (RtoC m) f "bruggeman" L = Ok (RtoC r2) ->
  overall_ri (RtoC m) (RtoC n) (1 - f) "maxwell-garnett" L = Ok (RtoC r3) ->
  r1 <= r2 <= r3.
Proof.
  intros Hn Hnm Hf HL E1 E2 E3. assert (0 < m) as Hm by lra.
  pose proof E2 as E2'. rewrite bruggeman_swap in E2'.
  destruct (to_rule n m f L _ r1 Hn Hm Hf ltac:(lra) ltac:(auto) E1) as (P1 & R1 & _).
  destruct (to_rule n m f L _ r2 Hn Hm Hf ltac:(lra) ltac:(right; right; split; [reflexivity|lra]) E2) as (P2 & R2 & _).
  destruct (to_rule m n (1 - f) L _ r2 Hm Hn ltac:(lra) ltac:(lra) ltac:(right; right; split; [reflexivity|lra]) E2') as (_ & R2' & _).
  destruct (to_rule m n (1 - f) L _ r3 Hm Hn ltac:(lra) ltac:(lra) ltac:(auto) E3) as (P3 & R3 & _).
  assert (0 < n * n) by (apply Rmult_lt_0_compat; auto). assert (0 < m * m) by (apply Rmult_lt_0_compat; auto).
  assert (n * n <= m * m) by (apply Rmult_le_compat; lra).
  split; apply squares_le; auto.
  - apply (mg_below (n * n) (m * m) f L); auto; apply Rmult_lt_0_compat; auto.
  - apply (mg_above (m * m) (n * n) (1 - f) L); auto; try lra; apply Rmult_lt_0_compat; auto.
Qed.
Lemma ri_grows (n m f1 f2 L : R) ema r1 r2 : 0 < n -> n < m -> 0 <= f1 -> f1 < f2 -> f2 <= 1 -> 0 <= L <= 1 ->
  ema = "linear" \/ ema = "maxwell-garnett" \/ ema = "bruggeman" /\ L < 1 ->
  overall_ri (RtoC n) (RtoC m) f1 ema L = Ok (RtoC r1) -> overall_ri (RtoC n) (RtoC m) f2 ema L = Ok (RtoC r2) -> r1 < r2.
Proof.
  intros Hn Hnm H1 H12 H2 HL He E1 E2. assert (0 < m) as Hm by lra.
  destruct (to_rule n m f1 L _ r1 Hn Hm ltac:(lra) HL He E1) as (P1 & R1 & _).
  destruct (to_rule n m f2 L _ r2 Hn Hm ltac:(lra) HL He E2) as (P2 & R2 & _).
  apply squares_lt; auto. apply (grows ema (n * n) (m * m) f1 f2 L); auto; try (apply Rmult_lt_0_compat; auto; fail).
  apply Rmult_le_0_lt_compat; lra.
Qed.
Lemma ri_shrinks (n m f1 f2 L : R) ema r1 r2 : 0 < m -> m < n -> 0 <= f1 -> f1 < f2 -> f2 <= 1 -> 0 <= L <= 1 ->
  ema = "linear" \/ ema = "maxwell-garnett" \/ ema = "bruggeman" /\ L < 1 ->
  overall_ri (RtoC n) (RtoC m) f1 ema L = Ok (RtoC r1) -> overall_ri (RtoC n) (RtoC m) f2 ema L = Ok (RtoC r2) -> r2 < r1.
Proof.
  intros Hm Hnm H1 H12 H2 HL He E1 E2. assert (0 < n) as Hn by lra.
  destruct (to_rule n m f1 L _ r1 Hn Hm ltac:(lra) HL He E1) as (P1 & R1 & _).
  destruct (to_rule n m f2 L _ r2 Hn Hm ltac:(lra) HL He E2) as (P2 & R2 & _).
  apply squares_lt; auto. apply (shrinks ema (n * n) (m * m) f1 f2 L); auto; try (apply Rmult_lt_0_compat; auto; fail).
  apply Rmult_le_0_lt_compat; lra.
Qed.
Lemma ri_determines (n m f1 f2 L : R) ema z : 0 < n -> 0 < m -> n <> m -> 0 <= f1 <= 1 -> 0 <= f2 <= 1 -> 0 <= L <= 1 ->
  ema = "linear" \/ ema = "maxwell-garnett" \/ ema = "bruggeman" /\ L < 1 ->
  overall_ri (RtoC n) (RtoC m) f1 ema L = Ok z -> overall_ri (RtoC n) (RtoC m) f2 ema L = Ok z -> f1 = f2.
Proof.
  intros Hn Hm Hnm H1 H2 HL He E1 E2.
  destruct (mix_between n m f1 L ema Hn Hm H1 HL He) as (r & Er & _).
  assert (z = RtoC r) as -> by congruence.
  destruct (to_rule n m f1 L _ r Hn Hm H1 HL He E1) as (P1 & R1 & _).
  destruct (to_rule n m f2 L _ r Hn Hm H2 HL He E2) as (P2 & R2 & _).
  apply (determines ema (n * n) (m * m) f1 f2 L (r * r)); auto; try (apply Rmult_lt_0_compat; auto; fail).
  intros K. apply Hnm. assert ((n - m) * (n + m) = 0) as Z by lra. apply Rmult_integral in Z. destruct Z; lra.
Qed.
Lemma ri_flattens (n m f L1 L2 : R) ema r1 r2 : 0 < n -> 0 < m -> 0 <= f <= 1 -> 0 <= L1 -> L1 <= L2 -> L2 <= 1 ->
  ema = "linear" \/ ema = "maxwell-garnett" \/ ema = "bruggeman" /\ L2 < 1 ->
  overall_ri (RtoC n) (RtoC m) f ema L1 = Ok (RtoC r1) -> overall_ri (RtoC n) (RtoC m) f ema L2 = Ok (RtoC r2) -> r2 <= r1.
Proof.
  intros Hn Hm Hf H1 H12 H2 He E1 E2.
  assert (ema = "linear" \/ ema = "maxwell-garnett" \/ ema = "bruggeman" /\ L1 < 1) as He1.
  { destruct He as [->|[->|[-> K]]]; auto. right; right. split; [reflexivity|lra]. }
  destruct (to_rule n m f L1 _ r1 Hn Hm Hf ltac:(lra) He1 E1) as (P1 & R1 & B1).
  destruct (to_rule n m f L2 _ r2 Hn Hm Hf ltac:(lra) He E2) as (P2 & R2 & _).
  apply squares_le; auto. apply (flattens ema (n * n) (m * m) f L1 L2); auto; try (apply Rmult_lt_0_compat; auto; fail).
  unfold Rmin, Rmax in *. destruct (Rle_dec n m) as [Hl|Hl]; destruct (Rle_dec (n * n) (m * m)) as [Hs|Hs].
  - split; apply Rmult_le_compat; lra.
  - exfalso. apply Hs. apply Rmult_le_compat; lra.
  - exfalso. apply Hl. apply squares_le; auto.
  - split; apply Rmult_le_compat; lra.
Qed.

(** host and inclusions exchanged: n = 1, m = 2, half and half *)
Lemma host_matters : exists n m f L r1 r2 : R, 0 < n /\ 0 < m /\ 0 <= f <= 1 /\ 0 <= L <= 1 /\
  overall_ri (RtoC n) (RtoC m) f "maxwell-garnett" L = Ok (RtoC r1) /\
  overall_ri (RtoC m) (RtoC n) (1 - f) "maxwell-garnett" L = Ok (RtoC r2) /\ r1 < r2.
Proof.
  destruct (mix_between 1 2 (1 / 2) (1 / 3) "maxwell-garnett") as (r1 & E1 & _); [lra|lra|lra|lra|auto|].
  destruct (mix_between 2 1 (1 - 1 / 2) (1 / 3) "maxwell-garnett") as (r2 & E2 & _); [lra|lra|lra|lra|auto|].
  destruct (to_rule 1 2 (1 / 2) (1 / 3) "maxwell-garnett" r1) as (P1 & R1 & _); [lra|lra|lra|lra|auto|auto|].
  destruct (to_rule 2 1 (1 - 1 / 2) (1 / 3) "maxwell-garnett" r2) as (P2 & R2 & _); [lra|lra|lra|lra|auto|auto|].
  exists 1, 2, (1 / 2), (1 / 3), r1, r2. repeat (split; [lra|]). split; [exact E1|]. split; [exact E2|].
  destruct R1 as [(K & _)|[(_ & _ & R1)|(K & _)]]; try discriminate.
  destruct R2 as [(K & _)|[(_ & _ & R2)|(K & _)]]; try discriminate.
  apply squares_lt; auto. lra.
Qed.
