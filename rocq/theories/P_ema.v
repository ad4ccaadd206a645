(** * Proofs about effective media *)

Require Import Reals String Lra Psatz.
From Coquelicot Require Import Complex.
From Verif Require Import Base Cplx M_ema Spec_ema.
Open Scope string_scope.
Open Scope R_scope.
Open Scope C_scope.

Lemma RtoC_neq x : x <> 0%R -> RtoC x <> 0.
Proof. intros H E. apply H. apply (f_equal Re) in E. exact E. Qed.

Lemma cdiv0_mul (a b : C) : b <> 0 -> cdiv0 a b * b = a.
Proof. intros H. unfold cdiv0. destruct (Ceq_dec b 0); [contradiction|]. field; auto. Qed.

Lemma cdiv0_0 (a : C) : cdiv0 a 0 = 0.
Proof. unfold cdiv0. destruct (Ceq_dec 0 0); [auto|congruence]. Qed.

Lemma csqrt_right n : right_half n -> csqrt (n * n) = n.
Proof. intros H. apply csqrt_unique; auto. Qed.

Lemma csqrt_passive (e : C) : (0 <= Im e)%R -> passive_index (csqrt e).
Proof. intros H. split; [apply csqrt_Re_nonneg|apply csqrt_Im_nonneg; auto]. Qed.

Lemma Cmul_0 (a b : C) : a * b = 0 -> a = 0 \/ b = 0.
Proof.
  intros H. destruct (Ceq_dec a 0); auto. destruct (Ceq_dec b 0); auto.
  exfalso. exact (Cmult_neq_0 _ _ n n0 H).
Qed.

(** ** linear *)
Lemma linear_full (A B : C) (f d : R) : exists n, overall_ri A B f "linear" d = Ok n /\
  right_half n /\ volume_average (A * A) (B * B) f (n * n).
Proof.
  eexists; split; [reflexivity|]. split; [apply csqrt_half_plane|].
  unfold volume_average. rewrite csqrt_sq. reflexivity.
Qed.

Lemma linear_limits (A B : C) (d : R) :
  (right_half A -> overall_ri A B 0 "linear" d = Ok A) /\
  (right_half B -> overall_ri A B 1 "linear" d = Ok B).
Proof.
  split; intros H; unfold overall_ri; simpl String.eqb; cbv iota; f_equal;
    apply csqrt_unique; auto; unfold E_linear.
  - replace (1 - 0)%R with 1%R by ring. ring.
  - replace (1 - 1)%R with 0%R by ring. ring.
Qed.

(** ** Maxwell-Garnett *)
Lemma mg_unique (e_h e_i e : C) (f L : R) : mg_bottom e_h e_i f L <> 0 ->
  (maxwell_garnett e_h e_i f L e <-> e = E_mg e_h e_i f L).
Proof.
  intros Hb. unfold E_mg. fold (mg_bottom e_h e_i f L).
  set (top := e_h + RtoC (L * (1 - f) + f) * (e_i - e_h)).
  assert (K : maxwell_garnett e_h e_i f L e <-> e * mg_bottom e_h e_i f L = e_h * top).
  { unfold maxwell_garnett, mg_bottom, top.
    rewrite !RtoC_plus, !RtoC_mult, !RtoC_minus.
    split; intros H.
    - apply (f_equal (fun x => x - RtoC f * (e_i - e_h) * (e_h + RtoC L * (e - e_h)))) in H.
      match type of H with ?l = ?r => assert (l = 0) as H1
        by (rewrite H; ring) end.
      match goal with |- ?l = ?r => replace l with (r + ((e - e_h) * (e_h + RtoC L * (e_i - e_h)) -
     RtoC f * (e_i - e_h) * (e_h + RtoC L * (e - e_h)))) by ring end.
      rewrite H1. ring.
    - match goal with |- ?l = ?r => replace l with (r + (e * (e_h + RtoC L * (RtoC 1 - RtoC f) * (e_i - e_h)) -
       e_h * (e_h + (RtoC L * (RtoC 1 - RtoC f) + RtoC f) * (e_i - e_h)))) by ring end.
      rewrite H. ring. }
  rewrite K. split; intros H.
  - assert (cdiv0 top (mg_bottom e_h e_i f L) = top / mg_bottom e_h e_i f L) as ->.
    { unfold cdiv0. destruct Ceq_dec; [contradiction|auto]. }
    replace e with (e * mg_bottom e_h e_i f L / mg_bottom e_h e_i f L) by (field; auto).
    rewrite H. field; auto.
  - rewrite H. rewrite <- Cmult_assoc, cdiv0_mul; auto.
Qed.

Lemma mg_full (A B : C) (f L : R) : exists n, overall_ri A B f "maxwell-garnett" L = Ok n /\
  right_half n /\
  (mg_bottom (A * A) (B * B) f L <> 0 ->
     forall e, maxwell_garnett (A * A) (B * B) f L e <-> e = n * n) /\
  (mg_bottom (A * A) (B * B) f L = 0 -> n = 0).
Proof.
  eexists; split; [reflexivity|]. split; [apply csqrt_half_plane|]. split.
  - intros H e. rewrite csqrt_sq. apply mg_unique; auto.
  - intros H. rewrite <- csqrt_0. f_equal. unfold E_mg, mg_bottom in *. rewrite H, cdiv0_0. ring.
Qed.

Lemma mg_limits (A B : C) (L : R) :
  (right_half A -> mg_bottom (A * A) (B * B) 0 L <> 0 ->
     overall_ri A B 0 "maxwell-garnett" L = Ok A) /\
  (right_half B -> A <> 0 -> overall_ri A B 1 "maxwell-garnett" L = Ok B).
Proof.
  split; intros H Hb; unfold overall_ri; simpl String.eqb; cbv iota; f_equal;
    apply csqrt_unique; auto; unfold E_mg.
  - unfold mg_bottom in Hb.
    replace (L * (1 - 0) + 0)%R with (L * (1 - 0))%R by ring.
    unfold cdiv0. destruct Ceq_dec; [contradiction|]. field; auto.
  - replace (L * (1 - 1) + 1)%R with 1%R by ring. replace (L * (1 - 1))%R with 0%R by ring.
    unfold cdiv0. destruct Ceq_dec as [E|E].
    + exfalso. replace (A * A + 0 * (B * B - A * A)) with (A * A) in E by ring.
      destruct (Cmul_0 _ _ E); auto.
    + field. auto.
Qed.

(** ** Bruggeman *)
Lemma bruggeman_quadratic (e_h e_i e : C) (f L : R) :
  bruggeman e_h e_i f L e <->
  RtoC (1 - L) * (e * e) -
  (e_h * RtoC ((1 - f) - L) + e_i * RtoC (f - L)) * e - RtoC L * (e_h * e_i) = 0.
Proof.
  unfold bruggeman. rewrite !RtoC_minus. split; intros H.
  - match goal with |- ?l = ?r => match type of H with ?h = _ => replace l with (- h) by ring end end.
    rewrite H. ring.
  - match goal with |- ?l = ?r => match type of H with ?h = _ => replace l with (- h) by ring end end.
    rewrite H. ring.
Qed.

Lemma E_bruggeman_root (e_h e_i : C) (f L : R) : (L <> 1)%R ->
  bruggeman e_h e_i f L (E_bruggeman e_h e_i f L).
Proof.
  intros HL. apply bruggeman_quadratic. unfold E_bruggeman, cdiv0.
  set (b := e_h * RtoC ((1 - f) - L) + e_i * RtoC (f - L)).
  set (D := b * b - RtoC (4 * (L - 1)) * (e_h * e_i * RtoC L)).
  destruct Ceq_dec as [E|E].
  { exfalso. revert E. apply RtoC_neq. lra. }
  pose proof (csqrt_sq D) as HS. set (s := csqrt D) in *.
  assert (H1 : RtoC (1 - L) <> 0) by (apply RtoC_neq; lra).
  rewrite RtoC_mult. set (m := RtoC (1 - L)) in *.
  assert (ED : D = b * b + 4 * m * (e_h * e_i * RtoC L)).
  { unfold D, m. replace (4 * (L - 1))%R with (- (4 * (1 - L)))%R by ring.
    rewrite RtoC_opp, RtoC_mult. ring. }
  transitivity ((s * s - b * b - 4 * m * (e_h * e_i * RtoC L)) / (4 * m)).
  - field. auto.
  - rewrite HS, ED. field. auto.
Qed.

Lemma bruggeman_full (A B : C) (f L : R) : (L <> 1)%R ->
  exists n, overall_ri A B f "bruggeman" L = Ok n /\ right_half n /\
  bruggeman (A * A) (B * B) f L (n * n).
Proof.
  intros HL. eexists; split; [reflexivity|]. split; [apply csqrt_half_plane|].
  rewrite csqrt_sq. apply E_bruggeman_root; auto.
Qed.

Lemma bruggeman_one (A B : C) (f : R) : overall_ri A B f "bruggeman" 1 = Ok (RtoC 0).
Proof.
  unfold overall_ri; simpl String.eqb; cbv iota; f_equal.
  rewrite <- csqrt_0. f_equal. unfold E_bruggeman.
  replace (2 * (1 - 1))%R with 0%R by ring. apply cdiv0_0.
Qed.

Lemma bruggeman_swap (A B : C) (f L : R) :
  overall_ri A B f "bruggeman" L = overall_ri B A (1 - f) "bruggeman" L.
Proof.
  unfold overall_ri; simpl String.eqb; cbv iota; f_equal; f_equal.
  unfold E_bruggeman.
  replace (1 - (1 - f) - L)%R with (f - L)%R by ring.
  replace (B * B * RtoC (f - L) + A * A * RtoC (1 - f - L))
    with (A * A * RtoC (1 - f - L) + B * B * RtoC (f - L)) by ring.
  replace (B * B * (A * A) * RtoC L) with (A * A * (B * B) * RtoC L) by ring.
  reflexivity.
Qed.

Lemma csqrt_sq_neg (w : C) : (Re w < 0)%R -> csqrt (w * w) = - w.
Proof.
  intros H. apply csqrt_unique.
  - left. destruct w; simpl in *. lra.
  - ring.
Qed.

(** the radicand at vf = 0 is a perfect square *)
Lemma radicand_0 (e_h e_i : C) (L : R) :
  let b := e_h * RtoC ((1 - 0) - L) + e_i * RtoC (0 - L) in
  b * b - RtoC (4 * (L - 1)) * (e_h * e_i * RtoC L) = weighted e_h e_i L * weighted e_h e_i L.
Proof.
  intros b. unfold b, weighted. rewrite !RtoC_mult, !RtoC_minus. ring.
Qed.

Lemma E_bruggeman_0 (e_h e_i : C) (L : R) : (L <> 1)%R -> right_half (weighted e_h e_i L) ->
  E_bruggeman e_h e_i 0 L = e_h.
Proof.
  intros HL H. unfold E_bruggeman. rewrite radicand_0, csqrt_right by auto.
  unfold cdiv0. destruct Ceq_dec as [E|E].
  { exfalso. revert E. apply RtoC_neq. lra. }
  assert (H1 : RtoC (1 - L) <> 0) by (apply RtoC_neq; lra).
  unfold weighted. revert H1. rewrite !RtoC_mult, !RtoC_minus. intros H1. field. auto.
Qed.

Lemma E_bruggeman_0_neg (e_h e_i : C) (L : R) : (L <> 1)%R ->
  (Re (weighted e_h e_i L) < 0)%R ->
  E_bruggeman e_h e_i 0 L = RtoC (- L / (1 - L)) * e_i.
Proof.
  intros HL H. unfold E_bruggeman. rewrite radicand_0, csqrt_sq_neg by auto.
  unfold cdiv0. destruct Ceq_dec as [E|E].
  { exfalso. revert E. apply RtoC_neq. lra. }
  assert (H1 : RtoC (1 - L) <> 0) by (apply RtoC_neq; lra).
  rewrite (RtoC_div (- L) (1 - L)) by lra. rewrite RtoC_opp.
  unfold weighted. revert H1. rewrite !RtoC_mult, !RtoC_minus. intros H1. field. auto.
Qed.

Lemma bruggeman_limit (A B : C) (L : R) : (L <> 1)%R -> right_half A ->
  right_half (weighted (A * A) (B * B) L) ->
  overall_ri A B 0 "bruggeman" L = Ok A.
Proof.
  intros HL HA H. unfold overall_ri; simpl String.eqb; cbv iota; f_equal.
  rewrite E_bruggeman_0 by auto. apply csqrt_right; auto.
Qed.

Lemma bruggeman_limit_neg (A B : C) (L : R) : (L <> 1)%R ->
  (Re (weighted (A * A)%C (B * B)%C L) < 0)%R ->
  exists n, overall_ri A B 0 "bruggeman" L = Ok n /\ n * n = RtoC (- L / (1 - L)) * (B * B).
Proof.
  intros HL H. eexists; split; [reflexivity|]. rewrite csqrt_sq, E_bruggeman_0_neg by auto. reflexivity.
Qed.

(** ** self mixing *)
Lemma self_mix (A : C) (f L : R) (ema : string) : right_half A ->
  ema = "linear" \/ ema = "maxwell-garnett" \/ ema = "bruggeman" /\ (L <> 1)%R /\ (0 < Re (A * A)%C)%R ->
  overall_ri A A f ema L = Ok A.
Proof.
  intros HA [->|[->|[-> [HL HR]]]]; unfold overall_ri; simpl String.eqb; cbv iota; f_equal;
    apply csqrt_unique; auto; symmetry.
  - unfold E_linear. rewrite RtoC_minus. ring.
  - unfold E_mg. replace (A * A - A * A) with (RtoC 0) by ring.
    rewrite !Cmult_0_r, !Cplus_0_r. unfold cdiv0. destruct Ceq_dec as [E|E].
    + rewrite E. ring.
    + field. intros E'. apply E. rewrite E'. ring.
  - unfold E_bruggeman.
    match goal with |- context [csqrt ?z] => replace (csqrt z) with (A * A) end.
    2:{ symmetry. apply csqrt_unique; auto. rewrite !RtoC_mult, !RtoC_minus. ring. }
    unfold cdiv0. destruct Ceq_dec as [E|E].
    { exfalso. revert E. apply RtoC_neq. lra. }
    assert (H1 : RtoC (1 - L) <> 0) by (apply RtoC_neq; lra).
    revert H1. rewrite !RtoC_mult, !RtoC_minus. intros H1. field. auto.
Qed.

Lemma ema_names (A B : C) (f L : R) (ema : string) :
  (overall_ri A B f ema L = Raise RuntimeError <->
   ema <> "linear" /\ ema <> "maxwell-garnett" /\ ema <> "bruggeman") /\
  (forall e, overall_ri A B f ema L = Raise e -> e = RuntimeError).
Proof.
  unfold overall_ri.
  destruct (String.eqb_spec ema "linear"); [split; [split; [discriminate|tauto]|discriminate]|].
  destruct (String.eqb_spec ema "maxwell-garnett"); [split; [split; [discriminate|tauto]|discriminate]|].
  destruct (String.eqb_spec ema "bruggeman"); [split; [split; [discriminate|tauto]|discriminate]|].
  split; [tauto|congruence].
Qed.

(** ** bounds for real permittivities *)
Lemma E_linear_between (a b f : R) : (0 <= f <= 1)%R ->
  exists e, E_linear (RtoC a) (RtoC b) f = RtoC e /\ (Rmin a b <= e <= Rmax a b)%R.
Proof.
  intros Hf. exists ((1 - f) * a + f * b)%R. split.
  - unfold E_linear. rewrite RtoC_plus, !RtoC_mult. reflexivity.
  - pose proof (Rmin_l a b). pose proof (Rmin_r a b). pose proof (Rmax_l a b). pose proof (Rmax_r a b). nra.
Qed.

Lemma between_l (a b e : R) : (0 <= (e - a) * (b - a) -> 0 <= (b - e) * (b - a) -> (a = b -> e = a) -> Rmin a b <= e <= Rmax a b)%R.
Proof.
  intros H1 H2 H3. destruct (Rtotal_order a b) as [H|[H|H]].
  - rewrite Rmin_left, Rmax_right by lra. split; nra.
  - rewrite Rmin_left, Rmax_right by lra. rewrite H3; auto. lra.
  - rewrite Rmin_right, Rmax_left by lra. split; nra.
Qed.

Lemma E_mg_between (a b f L : R) :
  (0 < a)%R -> (0 < b)%R -> (0 <= f <= 1)%R -> (0 <= L <= 1)%R ->
  exists e, E_mg (RtoC a) (RtoC b) f L = RtoC e /\ (Rmin a b <= e <= Rmax a b)%R.
Proof.
  intros Ha Hb Hf HL.
  set (k := (L * (1 - f))%R).
  assert (Hk : (0 <= k <= 1)%R) by (unfold k; nra).
  assert (Hbot : (0 < a + k * (b - a))%R) by nra.
  exists (a * ((a + (k + f) * (b - a)) / (a + k * (b - a))))%R. split.
  - unfold E_mg, cdiv0. fold k.
    rewrite <- RtoC_minus, <- !RtoC_mult, <- !RtoC_plus.
    destruct Ceq_dec as [E|E].
    + exfalso. revert E. apply RtoC_neq. lra.
    + rewrite <- RtoC_div by lra. rewrite <- RtoC_mult. reflexivity.
  - apply between_l; auto.
    + replace ((a * ((a + (k + f) * (b - a)) / (a + k * (b - a))) - a) * (b - a))%R
        with (a * f * ((b - a) * (b - a)) / (a + k * (b - a)))%R by (field; lra).
      apply Rmult_le_pos; [|left; apply Rinv_0_lt_compat; auto].
      apply Rmult_le_pos; [nra|apply Rle_0_sqr].
    + replace ((b - a * ((a + (k + f) * (b - a)) / (a + k * (b - a)))) * (b - a))%R
        with ((1 - f) * (a * (1 - L) + L * b) * ((b - a) * (b - a)) / (a + k * (b - a)))%R
        by (unfold k in *; field; lra).
      apply Rmult_le_pos; [|left; apply Rinv_0_lt_compat; auto].
      apply Rmult_le_pos; [|apply Rle_0_sqr].
      apply Rmult_le_pos; [lra|]. apply Rplus_le_le_0_compat; apply Rmult_le_pos; lra.
    + intros E. rewrite E. field. lra.
Qed.

Lemma E_bruggeman_between (a b f L : R) : (0 < a)%R -> (0 < b)%R -> (0 <= f <= 1)%R -> (0 <= L < 1)%R ->
  exists e, E_bruggeman (RtoC a) (RtoC b) f L = RtoC e /\ (Rmin a b <= e <= Rmax a b)%R.
Proof.
  intros Ha Hb Hf HL.
  set (c := (a * ((1 - f) - L) + b * (f - L))%R).
  set (D := (c * c - 4 * (L - 1) * (a * b * L))%R).
  assert (Hab : (0 < a * b)%R) by nra.
  assert (HDc : (0 <= D - c * c)%R).
  { unfold D. replace (c * c - 4 * (L - 1) * (a * b * L) - c * c)%R
      with (4 * ((1 - L) * L * (a * b)))%R by ring.
    apply Rmult_le_pos; [lra|]. apply Rmult_le_pos; [nra|lra]. }
  assert (HD : (0 <= D)%R) by (pose proof (Rle_0_sqr c); unfold Rsqr in *; lra).
  set (e := ((c + sqrt D) / (2 * (1 - L)))%R).
  assert (EE : E_bruggeman (RtoC a) (RtoC b) f L = RtoC e).
  { unfold E_bruggeman. rewrite <- !RtoC_mult, <- RtoC_plus. fold c.
    rewrite <- !RtoC_mult, <- RtoC_minus. fold D. rewrite csqrt_nonneg_real by auto.
    unfold cdiv0. destruct Ceq_dec as [E|E].
    - exfalso. revert E. apply RtoC_neq. lra.
    - rewrite <- RtoC_plus, <- RtoC_div by lra. reflexivity. }
  exists e. split; auto.
  pose proof (E_bruggeman_root (RtoC a) (RtoC b) f L) as HR.
  assert (L <> 1)%R as HL1 by lra. specialize (HR HL1). rewrite EE in HR. unfold bruggeman in HR.
  rewrite <- !RtoC_minus, <- !RtoC_mult, <- !RtoC_plus, <- !RtoC_mult, <- RtoC_plus in HR.
  apply (f_equal Re) in HR. cbn [Re RtoC fst] in HR.
  (* e > 0 *)
  assert (He : (0 < e)%R).
  { unfold e. apply Rdiv_lt_0_compat; [|lra].
    destruct (Req_dec L 0) as [H0|H0].
    - assert (0 < c)%R by (unfold c; rewrite H0; nra). pose proof (sqrt_pos D). lra.
    - assert (c * c < D)%R.
      { unfold D. assert (0 < (1 - L) * L * (a * b))%R.
        { apply Rmult_lt_0_compat; [apply Rmult_lt_0_compat; lra|auto]. }
        replace (4 * (L - 1) * (a * b * L))%R with (- (4 * ((1 - L) * L * (a * b))))%R by ring. lra. }
      assert (Rabs c < sqrt D)%R.
      { rewrite <- sqrt_Rsqr_abs. apply sqrt_lt_1; [apply Rle_0_sqr|lra|unfold Rsqr; lra]. }
      destruct (Rabs_def2 _ _ H1). lra. }
  clearbody e. clear EE c D HDc HD HL1.
  assert (S1 : forall x y, (0 < x -> 0 < y -> 0 < x + L * (y - x))%R).
  { intros x y Hx Hy. nra. }
  pose proof (S1 e b He Hb) as P1. pose proof (S1 e a He Ha) as P2.
  set (p1 := (e + L * (b - e))%R) in *. set (p2 := (e + L * (a - e))%R) in *. clearbody p1 p2.
  split.
  - apply Rnot_lt_le. intros Hlt.
    assert (e < a /\ e < b)%R as [H1 H2].
    { pose proof (Rmin_l a b). pose proof (Rmin_r a b). split; lra. }
    destruct (Req_dec f 1) as [->|Hf1].
    + assert (0 < 1 * (b - e) * p2)%R by (apply Rmult_lt_0_compat; lra). nra.
    + assert (0 < (1 - f) * (a - e) * p1)%R by (apply Rmult_lt_0_compat; [apply Rmult_lt_0_compat; lra|lra]).
      assert (0 <= f * (b - e) * p2)%R by (apply Rmult_le_pos; [apply Rmult_le_pos; lra|lra]). lra.
  - apply Rnot_lt_le. intros Hlt.
    assert (a < e /\ b < e)%R as [H1 H2].
    { pose proof (Rmax_l a b). pose proof (Rmax_r a b). split; lra. }
    destruct (Req_dec f 1) as [->|Hf1].
    + assert (0 < 1 * (e - b) * p2)%R by (apply Rmult_lt_0_compat; lra). nra.
    + assert (0 < (1 - f) * (e - a) * p1)%R by (apply Rmult_lt_0_compat; [apply Rmult_lt_0_compat; lra|lra]).
      assert (0 <= f * (e - b) * p2)%R by (apply Rmult_le_pos; [apply Rmult_le_pos; lra|lra]). lra.
Qed.

Lemma mix_between (n m f L : R) (ema : string) :
  (0 < n)%R -> (0 < m)%R -> (0 <= f <= 1)%R -> (0 <= L <= 1)%R ->
  ema = "linear" \/ ema = "maxwell-garnett" \/ ema = "bruggeman" /\ (L < 1)%R ->
  exists r, overall_ri (RtoC n) (RtoC m) f ema L = Ok (RtoC r) /\
    (Rmin n m <= r <= Rmax n m)%R.
Proof.
  intros Hn Hm Hf HL He.
  assert (K : exists e, (if (ema =? "linear")%string then E_linear (RtoC (n * n)) (RtoC (m * m)) f
     else if (ema =? "maxwell-garnett")%string then E_mg (RtoC (n * n)) (RtoC (m * m)) f L
     else E_bruggeman (RtoC (n * n)) (RtoC (m * m)) f L) = RtoC e /\
     (Rmin (n * n) (m * m) <= e <= Rmax (n * n) (m * m))%R).
  { assert (0 < n * n)%R by nra. assert (0 < m * m)%R by nra.
    destruct He as [->|[->|[-> He]]]; simpl String.eqb; cbv iota.
    - apply E_linear_between; auto.
    - apply E_mg_between; auto.
    - apply E_bruggeman_between; auto. lra. }
  destruct K as [e [E [B1 B2]]].
  assert (Hpos : (0 < Rmin n m)%R) by (apply Rmin_pos; auto).
  assert (M1 : Rmin (n * n) (m * m) = (Rmin n m * Rmin n m)%R).
  { destruct (Rle_dec n m); [rewrite !(Rmin_left n m), Rmin_left by nra|rewrite !(Rmin_right n m), Rmin_right by nra]; auto. }
  assert (M2 : Rmax (n * n) (m * m) = (Rmax n m * Rmax n m)%R).
  { destruct (Rle_dec n m); [rewrite !(Rmax_right n m), Rmax_right by nra|rewrite !(Rmax_left n m), Rmax_left by nra]; auto. }
  assert (Hmax : (0 < Rmax n m)%R) by (pose proof (Rmax_l n m); lra).
  exists (sqrt e). split.
  - unfold overall_ri. rewrite <- !RtoC_mult.
    destruct He as [->|[->|[-> He]]]; simpl String.eqb in *; cbv iota in *; rewrite E;
      rewrite csqrt_nonneg_real; auto; nra.
  - rewrite M1 in B1. rewrite M2 in B2. split.
    + rewrite <- (sqrt_square (Rmin n m)) by lra. apply sqrt_le_1; nra.
    + rewrite <- (sqrt_square (Rmax n m)) by lra. apply sqrt_le_1; nra.
Qed.

(** ** passivity *)
Lemma passive_sq (n : C) : passive_index n -> (0 <= Im (n * n)%C)%R.
Proof. destruct n as [x y]. intros [H1 H2]. simpl in *. nra. Qed.

Lemma linear_passive (A B : C) (f L : R) : passive_index A -> passive_index B -> (0 <= f <= 1)%R ->
  exists n, overall_ri A B f "linear" L = Ok n /\ passive_index n.
Proof.
  intros HA HB Hf. eexists; split; [reflexivity|]. apply csqrt_passive.
  apply passive_sq in HA, HB. unfold E_linear.
  set (a := A * A) in *. set (b := B * B) in *. clearbody a b.
  destruct a as [a1 a2], b as [b1 b2]; simpl in *. nra.
Qed.

Lemma mg_Im (a1 a2 b1 b2 k f : R) : (0 <= a2 -> 0 <= b2 -> 0 <= k -> 0 <= f -> k + f <= 1 ->
  0 <= (1-k)*(1-k-f)*(a1*a1+a2*a2)*a2 + (1-k-f)*k*(2*a1*a2*b1 - b2*(a1*a1-a2*a2))
     + (1-k)*(k+f)*(a1*a1+a2*a2)*b2 + k*(k+f)*(b1*b1+b2*b2)*a2)%R.
Proof.
  intros Ha Hb Hk Hf Hkf.
  set (q := (1 - k - f)%R). set (p := (1 - k)%R). set (s := (k + f)%R).
  assert (Hp : (0 <= p)%R) by (unfold p; lra). assert (Hq : (0 <= q)%R) by (unfold q; lra).
  assert (Hs : (0 <= s)%R) by (unfold s; lra).
  assert (Hd : (q * k <= p * s)%R) by (unfold p, q, s; nra).
  replace (p * q * (a1 * a1 + a2 * a2) * a2 + q * k * (2 * a1 * a2 * b1 - b2 * (a1 * a1 - a2 * a2)) +
   p * s * (a1 * a1 + a2 * a2) * b2 + k * s * (b1 * b1 + b2 * b2) * a2)%R
    with (a2 * (p * q * (a1 * a1) + 2 * (q * k) * (a1 * b1) + k * s * (b1 * b1))
          + b2 * (p * s - q * k) * (a1 * a1) + b2 * (p * s + q * k) * (a2 * a2)
          + p * q * (a2 * a2) * a2 + k * s * (b2 * b2) * a2)%R by ring.
  assert (Hqk : (0 <= q * k)%R) by (apply Rmult_le_pos; auto).
  assert (Hps : (0 <= p * s)%R) by (apply Rmult_le_pos; auto).
  assert (Q : (0 <= p * q * (a1 * a1) + 2 * (q * k) * (a1 * b1) + k * s * (b1 * b1))%R).
  { (* q p >= q q?  p = q + f, s = k + f *)
    replace (p * q * (a1 * a1) + 2 * (q * k) * (a1 * b1) + k * s * (b1 * b1))%R
      with ((q * a1 + k * b1) * (q * a1 + k * b1) + f * q * (a1 * a1) + f * k * (b1 * b1))%R
      by (unfold p, q, s; ring).
    pose proof (Rle_0_sqr (q * a1 + k * b1)). pose proof (Rle_0_sqr a1). pose proof (Rle_0_sqr b1).
    unfold Rsqr in *.
    assert (0 <= f * q * (a1 * a1))%R by (apply Rmult_le_pos; [apply Rmult_le_pos|]; auto).
    assert (0 <= f * k * (b1 * b1))%R by (apply Rmult_le_pos; [apply Rmult_le_pos|]; auto).
    lra. }
  pose proof (Rle_0_sqr a1). pose proof (Rle_0_sqr a2). pose proof (Rle_0_sqr b2). unfold Rsqr in *.
  set (A1 := (a1 * a1)%R) in *. set (A2 := (a2 * a2)%R) in *. set (B2 := (b2 * b2)%R) in *.
  set (QQ := (p * q * A1 + 2 * (q * k) * (a1 * b1) + k * s * (b1 * b1))%R) in *. clearbody A1 A2 B2 QQ p q s.
  repeat apply Rplus_le_le_0_compat; repeat apply Rmult_le_pos; auto; lra.
Qed.

Lemma mg_passive (A B : C) (f L : R) : passive_index A -> passive_index B ->
  (0 <= f <= 1)%R -> (0 <= L <= 1)%R ->
  exists n, overall_ri A B f "maxwell-garnett" L = Ok n /\ passive_index n.
Proof.
  intros HA HB Hf HL. eexists; split; [reflexivity|]. apply csqrt_passive.
  apply passive_sq in HA, HB. unfold E_mg.
  set (a := A * A) in *. set (b := B * B) in *. clearbody a b.
  set (k := (L * (1 - f))%R).
  assert (Hk : (0 <= k)%R) by (unfold k; nra). assert (Hkf : (k + f <= 1)%R) by (unfold k; nra).
  clearbody k. unfold cdiv0. destruct Ceq_dec as [E|E].
  - rewrite Cmult_0_r. simpl. lra.
  - pose proof (mg_Im (Re a) (Im a) (Re b) (Im b) k f HA HB Hk (proj1 Hf) Hkf) as HI.
    set (bot := a + RtoC k * (b - a)) in *.
    assert (Hm : (0 < Re bot * Re bot + Im bot * Im bot)%R).
    { pose proof (Rle_0_sqr (Re bot)). pose proof (Rle_0_sqr (Im bot)). unfold Rsqr in *.
      destruct (Req_dec (Re bot) 0) as [H1|H1].
      - destruct (Req_dec (Im bot) 0) as [H2|H2].
        + exfalso. apply E. apply C_eq; auto.
        + assert (0 < Im bot * Im bot)%R by nra. lra.
      - assert (0 < Re bot * Re bot)%R by nra. lra. }
    set (mm := (Re bot * Re bot + Im bot * Im bot)%R) in *.
    assert (Im (a * ((a + RtoC (k + f) * (b - a)) / bot)) =
      (((1-k)*(1-k-f)*(Re a*Re a+Im a*Im a)*Im a + (1-k-f)*k*(2*Re a*Im a*Re b - Im b*(Re a*Re a-Im a*Im a))
     + (1-k)*(k+f)*(Re a*Re a+Im a*Im a)*Im b + k*(k+f)*(Re b*Re b+Im b*Im b)*Im a) / mm)%R) as ->.
    { unfold bot, mm in *. clear - Hm.
      destruct a as [a1 a2], b as [b1 b2]; simpl in *. field. lra. }
    apply Rmult_le_pos; auto. left; apply Rinv_0_lt_compat; auto.
Qed.

(** ** nm / eV *)
Lemma nm_eV_spec (x : R) : (x <> 0)%R -> exists y, nm_eV_conversion x = Some y /\
  (y <> 0)%R /\ nm_eV_conversion y = Some x /\ (x * y = 1239841984055 / 1000000000)%R.
Proof.
  intros H. unfold nm_eV_conversion. destruct (Req_EM_T x 0); [contradiction|].
  eexists; split; [reflexivity|].
  assert (Hy : (1239841984055 / 1000000000 / x <> 0)%R).
  { unfold Rdiv. repeat apply Rmult_integral_contrapositive_currified; try lra; apply Rinv_neq_0_compat; lra. }
  split; auto. split.
  - destruct Req_EM_T; [contradiction|]. f_equal. field. lra.
  - field. auto.
Qed.

Lemma nm_eV_decreasing (x1 x2 : R) : (0 < x1 < x2)%R -> exists y1 y2,
  nm_eV_conversion x1 = Some y1 /\ nm_eV_conversion x2 = Some y2 /\ (0 < y2 < y1)%R.
Proof.
  intros H. unfold nm_eV_conversion.
  destruct (Req_EM_T x1 0); [lra|]. destruct (Req_EM_T x2 0); [lra|].
  do 2 eexists; split; [reflexivity|]; split; [reflexivity|]. split.
  - apply Rdiv_lt_0_compat; lra.
  - apply Rmult_lt_compat_l; [lra|]. apply Rinv_lt_contravar; nra.
Qed.

(** ** which root of the Bruggeman equation is returned *)

(** a root of the equation lies in the double sector spanned by the two permittivities *)
Lemma bruggeman_moebius (X Y : C) (f L : R) : (0 <= f <= 1)%R ->
  RtoC (1 - f) * Y * (1 + RtoC L * X) + RtoC f * X * (1 + RtoC L * Y) = 0 ->
  (0 < Im X)%R -> (0 < Im Y)%R -> False.
Proof.
  intros Hf H HX HY.
  assert (K : (RtoC (1 - f) * Y * (1 + RtoC L * X) + RtoC f * X * (1 + RtoC L * Y)) *
     (Cconj (1 + RtoC L * X) * Cconj (1 + RtoC L * Y)) = 0) by (rewrite H; ring).
  apply (f_equal Im) in K.
  destruct X as [x1 x2], Y as [y1 y2]; simpl in HX, HY, K.
  assert (E : ((1 - f) * y2 * ((1 + L * x1) * (1 + L * x1) + L * x2 * (L * x2)) +
    f * x2 * ((1 + L * y1) * (1 + L * y1) + L * y2 * (L * y2)) = 0)%R) by (rewrite <- K; ring).
  assert (P : forall a b, (0 < b -> 0 < (1 + L * a) * (1 + L * a) + L * b * (L * b))%R).
  { intros a b Hb. pose proof (Rle_0_sqr (1 + L * a)) as Q1. pose proof (Rle_0_sqr (L * b)) as Q2.
    unfold Rsqr in *. destruct (Req_dec L 0) as [->|H0].
    - replace ((1 + 0 * a) * (1 + 0 * a) + 0 * b * (0 * b))%R with 1%R by ring. lra.
    - assert (0 < L * b * (L * b))%R; [|lra].
      assert (L * b <> 0)%R by (apply Rmult_integral_contrapositive_currified; lra).
      apply Rsqr_pos_lt in H1. exact H1. }
  pose proof (P x1 x2 HX) as P1. pose proof (P y1 y2 HY) as P2.
  set (p := ((1 + L * x1) * (1 + L * x1) + L * x2 * (L * x2))%R) in *.
  set (q := ((1 + L * y1) * (1 + L * y1) + L * y2 * (L * y2))%R) in *. clearbody p q.
  assert (Hy : (0 < y2 * p)%R) by nra. assert (Hx : (0 < x2 * q)%R) by nra.
  rewrite (Rmult_assoc (1 - f)), (Rmult_assoc f) in E.
  set (u := (y2 * p)%R) in *. set (v := (x2 * q)%R) in *. clearbody u v.
  destruct (Rle_dec f (1 / 2)); nra.
Qed.

Lemma Im_div_pos (a e : C) : e <> 0 -> (0 < Im (a * Cconj e)%C)%R -> (0 < Im (a / e - 1)%C)%R.
Proof.
  intros He H.
  assert (Hm : (0 < Re e * Re e + Im e * Im e)%R).
  { pose proof (Rle_0_sqr (Re e)) as Q1. pose proof (Rle_0_sqr (Im e)) as Q2. unfold Rsqr in *.
    destruct (Req_dec (Re e) 0) as [H1|H1].
    - destruct (Req_dec (Im e) 0) as [H2|H2].
      + exfalso. apply He. apply C_eq; auto.
      + assert (0 < Im e * Im e)%R by nra. lra.
    - assert (0 < Re e * Re e)%R by nra. lra. }
  destruct a as [a1 a2], e as [e1 e2]; simpl in *.
  match goal with |- (0 < ?x)%R =>
    replace x with ((a1 * - e2 + a2 * e1) / (e1 * e1 + e2 * e2))%R by (field; lra) end.
  apply Rdiv_lt_0_compat; auto.
Qed.

Lemma bruggeman_sector (e_h e_i e : C) (f L : R) : (0 <= f <= 1)%R -> bruggeman e_h e_i f L e ->
  e <> 0 ->
  (~ (0 < Im (e_h * Cconj e)%C /\ 0 < Im (e_i * Cconj e)%C)%R) /\
  (~ (Im (e_h * Cconj e)%C < 0 /\ Im (e_i * Cconj e)%C < 0)%R).
Proof.
  intros Hf H He. split; intros [H1 H2].
  - apply (bruggeman_moebius (e_i / e - 1) (e_h / e - 1) f L Hf).
    + unfold bruggeman in H. transitivity ((RtoC (1 - f) * (e_h - e) * (e + RtoC L * (e_i - e)) +
      RtoC f * (e_i - e) * (e + RtoC L * (e_h - e))) / (e * e)).
      * field; auto.
      * rewrite H. field; auto.
    + apply Im_div_pos; auto.
    + apply Im_div_pos; auto.
  - (* conjugate everything *)
    assert (Hc : Cconj e <> 0).
    { intros E. apply He. pose proof (f_equal Re E). pose proof (f_equal Im E).
      destruct e; simpl in *. apply C_eq; simpl; lra. }
    assert (CR : forall r, Cconj (RtoC r) = RtoC r) by (intros; apply C_eq; simpl; ring).
    assert (Hb : bruggeman (Cconj e_h) (Cconj e_i) f L (Cconj e)).
    { unfold bruggeman in *. apply (f_equal Cconj) in H.
      rewrite <- (CR 0%R), <- H. clear. destruct e_h, e_i, e. apply C_eq; simpl; ring. }
    apply (bruggeman_moebius (Cconj e_i / Cconj e - 1) (Cconj e_h / Cconj e - 1) f L Hf).
    + unfold bruggeman in Hb. transitivity ((RtoC (1 - f) * (Cconj e_h - Cconj e) * (Cconj e + RtoC L * (Cconj e_i - Cconj e)) +
      RtoC f * (Cconj e_i - Cconj e) * (Cconj e + RtoC L * (Cconj e_h - Cconj e))) / (Cconj e * Cconj e)).
      * field; auto.
      * rewrite Hb. field; auto.
    + apply Im_div_pos; auto. destruct e_i, e; simpl in *. lra.
    + apply Im_div_pos; auto. destruct e_h, e; simpl in *. lra.
Qed.

(** the other root *)
Lemma bruggeman_other_root (e_h e_i : C) (f L : R) : (L < 1)%R -> exists e2,
  bruggeman e_h e_i f L e2 /\
  RtoC (1 - L) * (E_bruggeman e_h e_i f L * e2) = - (RtoC L * (e_h * e_i)) /\
  (Re e2 <= Re (E_bruggeman e_h e_i f L))%R.
Proof.
  intros HL.
  set (b := e_h * RtoC ((1 - f) - L) + e_i * RtoC (f - L)).
  set (D := b * b - RtoC (4 * (L - 1)) * (e_h * e_i * RtoC L)).
  pose proof (csqrt_sq D) as HS. pose proof (csqrt_Re_nonneg D) as HRe. set (s := csqrt D) in *.
  assert (H1 : RtoC (1 - L) <> 0) by (apply RtoC_neq; lra).
  assert (E1 : E_bruggeman e_h e_i f L = (b + s) / (2 * RtoC (1 - L))).
  { unfold E_bruggeman, cdiv0. fold b. fold D. fold s. destruct Ceq_dec as [E|E].
    - exfalso. revert E. apply RtoC_neq. lra.
    - rewrite RtoC_mult. reflexivity. }
  assert (ED : D = b * b + 4 * RtoC (1 - L) * (e_h * e_i * RtoC L)).
  { unfold D. replace (4 * (L - 1))%R with (- (4 * (1 - L)))%R by ring.
    rewrite RtoC_opp, RtoC_mult. ring. }
  exists ((b - s) / (2 * RtoC (1 - L))). rewrite E1. clear E1. split; [|split].
  - apply bruggeman_quadratic. fold b.
    transitivity ((s * s - b * b - 4 * RtoC (1 - L) * (e_h * e_i * RtoC L)) / (4 * RtoC (1 - L))).
    + field. auto.
    + rewrite HS, ED. field. auto.
  - transitivity ((b * b - s * s) / (4 * RtoC (1 - L))).
    + field. auto.
    + rewrite HS, ED. field. auto.
  - set (v := RtoC (1 - L)) in *.
    replace ((b - s) / (2 * v)) with ((b + s) / (2 * v) - s / v) by (field; auto).
    assert (s / v = RtoC (/ (1 - L)) * s) as ->.
    { unfold v. rewrite RtoC_inv by lra. field. auto. }
    clearbody s b. destruct s as [s1 s2]. set (w := (b + (s1, s2)) / (2 * v)). destruct w as [w1 w2].
    simpl in *. assert (0 < / (1 - L))%R by (apply Rinv_0_lt_compat; lra). nra.
Qed.

Lemma bruggeman_dielectric_Im (e_h e_i : C) (f L : R) : (0 <= f <= 1)%R -> (0 <= L < 1)%R ->
  (0 < Re e_h)%R -> (0 <= Im e_h)%R -> (0 < Re e_i)%R -> (0 <= Im e_i)%R ->
  (0 <= Im (E_bruggeman e_h e_i f L))%R.
Proof.
  intros Hf HL Hh1 Hh2 Hi1 Hi2. apply Rnot_lt_le. intros Hneg.
  destruct (bruggeman_other_root e_h e_i f L) as [e2 [R2 [PR LE]]]; [lra|].
  pose proof (E_bruggeman_root e_h e_i f L) as R1.
  assert (HL1 : (L <> 1)%R) by lra. specialize (R1 HL1).
  set (e1 := E_bruggeman e_h e_i f L) in *. clearbody e1.
  assert (N1 : e1 <> 0) by (intros E; rewrite E in Hneg; simpl in Hneg; lra).
  destruct (bruggeman_sector _ _ _ _ _ Hf R1 N1) as [S1 _].
  assert (Re1 : (Re e1 < 0)%R).
  { apply Rnot_le_lt. intros Hp. apply S1. destruct e1 as [x y], e_h as [h1 h2], e_i as [i1 i2]; simpl in *.
    split; nra. }
  assert (Re2 : (Re e2 < 0)%R) by lra.
  assert (N2 : e2 <> 0) by (intros E; rewrite E in Re2; simpl in Re2; lra).
  destruct (bruggeman_sector _ _ _ _ _ Hf R2 N2) as [_ S2].
  assert (Im2 : (Im e2 <= 0)%R).
  { apply Rnot_lt_le. intros Hp. apply S2. destruct e2 as [x y], e_h as [h1 h2], e_i as [i1 i2]; simpl in *.
    split; nra. }
  apply (f_equal Im) in PR.
  destruct e1 as [x1 y1], e2 as [x2 y2], e_h as [h1 h2], e_i as [i1 i2]; simpl in *.
  assert (0 < y1 * x2)%R by nra. assert (0 <= x1 * y2)%R by nra.
  assert (0 <= h1 * i2 + h2 * i1)%R by nra.
  assert (0 < (1 - L) * (x1 * y2 + y1 * x2))%R by (apply Rmult_lt_0_compat; lra).
  assert (0 <= L * (h1 * i2 + h2 * i1))%R by (apply Rmult_le_pos; lra).
  lra.
Qed.

Lemma bruggeman_dielectric (A B : C) (f L : R) : (0 <= f <= 1)%R -> (0 <= L < 1)%R ->
  (0 <= Im A < Re A)%R -> (0 <= Im B < Re B)%R ->
  exists n, overall_ri A B f "bruggeman" L = Ok n /\ passive_index n.
Proof.
  intros Hf HL HA HB. eexists; split; [reflexivity|]. apply csqrt_passive.
  destruct A as [a1 a2], B as [b1 b2]. simpl in HA, HB.
  apply bruggeman_dielectric_Im; auto; simpl; nra.
Qed.

Lemma bruggeman_metals_Im (e_h e_i : C) (f L : R) : (0 <= f <= 1)%R -> (0 < L < 1)%R ->
  (Re e_h < 0)%R -> (0 < Im e_h)%R -> (Re e_i < 0)%R -> (0 < Im e_i)%R ->
  (Im (E_bruggeman e_h e_i f L) < 0)%R.
Proof.
  intros Hf HL Hh1 Hh2 Hi1 Hi2. apply Rnot_le_lt. intros Hpos.
  destruct (bruggeman_other_root e_h e_i f L) as [e2 [R2 [PR LE]]]; [lra|].
  pose proof (E_bruggeman_root e_h e_i f L) as R1.
  assert (HL1 : (L <> 1)%R) by lra. specialize (R1 HL1).
  set (e1 := E_bruggeman e_h e_i f L) in *. clearbody e1.
  apply (f_equal Im) in PR.
  assert (Hprod : (Im (e_h * e_i)%C < 0)%R).
  { destruct e_h as [h1 h2], e_i as [i1 i2]; simpl in *. nra. }
  assert (PRI : (0 < Im (e1 * e2)%C)%R).
  { set (u := e1 * e2) in *. set (v := e_h * e_i) in *. destruct u as [u1 u2], v as [v1 v2].
    simpl in *. assert (0 < - (L * v2))%R by nra. nra. }
  assert (N1 : e1 <> 0) by (intros E; rewrite E, Cmult_0_l in PRI; simpl in PRI; lra).
  assert (N2 : e2 <> 0) by (intros E; rewrite E, Cmult_0_r in PRI; simpl in PRI; lra).
  destruct (bruggeman_sector _ _ _ _ _ Hf R1 N1) as [S1 _].
  destruct (bruggeman_sector _ _ _ _ _ Hf R2 N2) as [_ S2].
  assert (Re1 : (Re e1 < 0)%R).
  { apply Rnot_le_lt. intros Hp. apply S1.
    assert (0 < Re e1 \/ 0 < Im e1)%R as Hs.
    { destruct (Req_dec (Re e1) 0); [|lra]. destruct (Req_dec (Im e1) 0); [|lra].
      exfalso. apply N1. apply C_eq; auto. }
    destruct e1 as [x y], e_h as [h1 h2], e_i as [i1 i2]; simpl in *.
    destruct Hs; split; nra. }
  assert (Re2 : (Re e2 < 0)%R) by lra.
  assert (Im2 : (0 < Im e2)%R).
  { apply Rnot_le_lt. intros Hp. apply S2.
    destruct e2 as [x y], e_h as [h1 h2], e_i as [i1 i2]; simpl in *. split; nra. }
  destruct e1 as [x1 y1], e2 as [x2 y2]; simpl in *. nra.
Qed.

Lemma csqrt_Im_neg (e : C) : (Im e < 0)%R -> (Im (csqrt e) < 0)%R.
Proof.
  intros H. pose proof (csqrt_sq e) as S. pose proof (csqrt_Re_nonneg e) as P.
  apply (f_equal Im) in S. set (w := csqrt e) in *. clearbody w. destruct w as [x y]; simpl in *. nra.
Qed.

Lemma bruggeman_metals (A B : C) (f L : R) : (0 <= f <= 1)%R -> (0 < L < 1)%R ->
  (0 < Re A < Im A)%R -> (0 < Re B < Im B)%R ->
  exists n, overall_ri A B f "bruggeman" L = Ok n /\ (Im n < 0)%R.
Proof.
  intros Hf HL HA HB. eexists; split; [reflexivity|]. apply csqrt_Im_neg.
  destruct A as [a1 a2], B as [b1 b2]. simpl in HA, HB.
  apply bruggeman_metals_Im; auto; simpl; nra.
Qed.
