(** * Proofs about the objective: values *)

Require Import Reals List Bool ZArith String Lra Lia FunctionalExtensionality.
From Coquelicot Require Import Complex.
From Verif Require Import Base M_tmm P_tmm M_disp P_disp M_struct M_model P_struct P_model M_data Spec_data P_data
  M_objective Spec_objective P_objective.
Import ListNotations.
Open Scope list_scope.
Open Scope R_scope.

(** ** evaluation *)
Lemma wavelength_aoi_measured sel X : Forall2 measured sel X ->
  wavelength_aoi (A1 (map p_wav sel)) (A1 (map p_aoi sel)) = Ok X.
Proof.
  intros F. unfold wavelength_aoi. rewrite !map_length, Nat.eqb_refl.
  assert (mapM (fun x : num * num => olift2 pair (fst x) (snd x)) (combine (map p_wav sel) (map p_aoi sel)) = Some X) as ->; auto.
  induction F as [|x [w a] sel X [E1 E2] F IH]; auto.
  cbn [map combine mapM fst snd] in *. rewrite E1, E2. cbn [olift2 obind]. rewrite IH. reflexivity.
Qed.

Lemma evaluate_data sy o sel X st : has_data sy o sel X ->
  evaluate sy o st = match call_model sy (ob_model o) X st with
    | (Ok (psi, delta), st') => (Ok (psi, delta, map p_psi sel, map p_delta sel), st')
    | (Raise e, st') => (Raise e, st') end.
Proof.
  intros (pts & m & H & Hm & K & F).
  destruct (getters _ _ _ _ _ H Hm K) as (_ & _ & _ & _ & G & _).
  unfold evaluate. rewrite G. unfold columns, bind at 1, lift at 1. unfold bind at 1, lift at 1.
  rewrite (wavelength_aoi_measured _ _ F). unfold bind, lift, ret, column.
  destruct (call_model sy (ob_model o) X st) as [[[psi delta]|e] st']; reflexivity.
Qed.

Lemma call_model_length sy m X st psi delta st' : call_model sy m X st = (Ok (psi, delta), st') ->
  List.length psi = List.length X /\ List.length delta = List.length X.
Proof.
  unfold call_model. destruct (model _ _ _ _ _ _) as [r s] eqn:E. intros H.
  assert (r = Ok (psi, delta)) by congruence. subst r.
  apply batch_pointwise in E. tauto.
Qed.

Lemma residuals_after sy o v st : bind (setp sy o v) (fun _ => residuals sy o None) st = residuals sy o v st.
Proof. unfold residuals, bind. destruct (setp sy o v st) as [[[]|e] s]; reflexivity. Qed.
Lemma chisqr_after sy o v st : chisqr sy o v st = bind (residuals sy o v) (fun res => ret (nsum (map (omap (fun x => x * x)) res))) st.
Proof.
  unfold bind. rewrite <- residuals_after. unfold chisqr, bind. destruct (setp sy o v st) as [[[]|e] s]; reflexivity.
Qed.

Lemma circ_distance_nums a b : distance a b (olift2 (fun x y => circular_distance x y 360) a b).
Proof.
  destruct a as [a|], b as [b|]; cbn [distance olift2]; auto. eexists. split; [reflexivity|]. split.
  - intros H. apply circ_is_distance; auto. lra.
  - intros H. unfold circular_distance. apply Rmin_right. lra.
Qed.
Lemma minus_nums a b : minus a b (olift2 Rminus a b).
Proof. destruct a, b; cbn; auto. Qed.

Lemma nth_error_map2 {A B D} (f : A -> B -> D) l : forall m i a b, nth_error l i = Some a -> nth_error m i = Some b ->
  nth_error (map2 f l m) i = Some (f a b).
Proof.
  induction l as [|x l IH]; intros [|y m] [|i] a b H1 H2; try discriminate; cbn [map2 nth_error] in *; [congruence|auto].
Qed.

Lemma map2_same (f : num -> num -> num) a b : List.length a = List.length b -> List.length (map2 f a b) = List.length a.
Proof. intros E. etransitivity; [apply map2_length|]. rewrite <- E. apply Nat.min_id. Qed.

Theorem residuals_spec sy o v st st1 sel X psi delta : has_data sy o sel X -> setp sy o v st = (Ok tt, st1) ->
  predicts sy st1 (ob_model o) X psi delta ->
  exists rpsi rdelta, fst (residuals sy o v st) = Ok (rpsi ++ rdelta) /\
    List.length rpsi = List.length sel /\ List.length rdelta = List.length sel /\
    List.length psi = List.length sel /\ List.length delta = List.length sel /\
    forall i x p d, nth_error sel i = Some x -> nth_error psi i = Some p -> nth_error delta i = Some d ->
      exists a b, nth_error rpsi i = Some a /\ minus p (p_psi x) a /\
                  nth_error rdelta i = Some b /\ distance d (p_delta x) b.
Proof.
  intros HD HS HP. unfold predicts in HP.
  destruct (call_model sy (ob_model o) X st1) as [r st2] eqn:E. cbn [fst] in HP. subst r.
  destruct (call_model_length _ _ _ _ _ _ _ E) as [L1 L2].
  assert (LX : List.length X = List.length sel).
  { destruct HD as (_ & _ & _ & _ & _ & F). symmetry. eapply F2_length; eauto. }
  exists (map2 (olift2 Rminus) psi (map p_psi sel)),
    (map2 (olift2 (fun x y => circular_distance x y 360)) delta (map p_delta sel)).
  split.
  { unfold residuals, bind at 1. rewrite HS. unfold bind at 1. rewrite (evaluate_data _ _ _ _ _ HD), E.
    unfold bind, lift, zip_columns, ret. rewrite !map_length, L1, L2, LX, !Nat.eqb_refl. reflexivity. }
  assert (K : forall (f : num -> num -> num) a b, List.length a = List.length sel -> List.length b = List.length sel ->
    List.length (map2 f a b) = List.length sel).
  { intros f a b A B. etransitivity; [apply map2_length|]. rewrite A, B. apply Nat.min_id. }
  split; [apply K; [congruence|apply map_length]|]. split; [apply K; [congruence|apply map_length]|].
  split; [congruence|]. split; [congruence|].
  intros i x p d Hx Hp Hd. do 2 eexists.
  split; [apply nth_error_map2; [exact Hp|apply map_nth_error; exact Hx]|]. split; [apply minus_nums|].
  split; [apply nth_error_map2; [exact Hd|apply map_nth_error; exact Hx]|]. apply circ_distance_nums.
Qed.

Theorem residuals_raise sy o v st st1 sel X e : has_data sy o sel X -> setp sy o v st = (Ok tt, st1) ->
  fst (call_model sy (ob_model o) X st1) = Raise e -> fst (residuals sy o v st) = Raise e.
Proof.
  intros HD HS HP. unfold residuals, bind at 1. rewrite HS. unfold bind at 1. rewrite (evaluate_data _ _ _ _ _ HD).
  destruct (call_model sy (ob_model o) X st1) as [r st2]. cbn [fst] in HP. subst r. reflexivity.
Qed.

(** ** chisqr *)
Lemma nsum_some l : nsum (map Some l) = Some (sum l).
Proof. unfold nsum. induction l as [|x l IH]; cbn [map fold_right sum]; auto. rewrite IH. reflexivity. Qed.
Lemma nsum_none l : In None l -> nsum l = None.
Proof.
  unfold nsum. induction l as [|x l IH]; [intros []|]. intros [->|H]; cbn [fold_right]; auto.
  rewrite IH by auto. destruct x; reflexivity.
Qed.
Lemma sum_sq_nonneg l : 0 <= sum (map (fun x => x ^ 2) l).
Proof. induction l as [|x l IH]; cbn [map sum]; [lra|]. pose proof (pow2_ge_0 x). lra. Qed.
Lemma sum_sq_zero l : sum (map (fun x => x ^ 2) l) = 0 <-> forall x, In x l -> x = 0.
Proof.
  induction l as [|x l IH]; cbn [map sum]; [split; auto; intros _ y []|].
  pose proof (pow2_ge_0 x). pose proof (sum_sq_nonneg l). split.
  - intros E y [<-|Hy]; [|apply IH; [lra|auto]]. assert (x ^ 2 = 0) by lra. nra.
  - intros Q. rewrite (Q x) by (left; auto). rewrite (proj2 IH); [ring|]. intros y Hy; apply Q; right; auto.
Qed.
Lemma sq_map l : map (omap (fun x => x * x)) (map Some l) = map Some (map (fun x => x ^ 2) l).
Proof. rewrite !map_map. apply map_ext. intros x. cbn [omap]. f_equal. ring. Qed.

Theorem chisqr_spec sy o v st :
  (forall r, fst (residuals sy o v st) = Ok (map Some r) ->
     fst (chisqr sy o v st) = Ok (Some (sum (map (fun x => x ^ 2) r)))) /\
  (forall r, fst (residuals sy o v st) = Ok r -> In None r -> fst (chisqr sy o v st) = Ok None) /\
  (forall e, fst (residuals sy o v st) = Raise e -> fst (chisqr sy o v st) = Raise e) /\
  (forall c, fst (chisqr sy o v st) = Ok (Some c) -> 0 <= c).
Proof.
  rewrite chisqr_after. unfold bind. destruct (residuals sy o v st) as [[r0|e0] s]; cbn [fst].
  - split; [|split; [|split]].
    + intros r E. assert (r0 = map Some r) by congruence. subst r0. unfold ret. cbn [fst]. rewrite sq_map, nsum_some. reflexivity.
    + intros r E I. assert (r0 = r) by congruence. subst r0. unfold ret. cbn [fst]. rewrite nsum_none; auto.
      apply in_map_iff. exists None. auto.
    + discriminate.
    + intros c. unfold ret. cbn [fst]. intros E. assert (E' : nsum (map (omap (fun x => x * x)) r0) = Some c) by congruence.
      clear E. revert c E'. unfold nsum. induction r0 as [|x l IH]; cbn [map fold_right]; intros c E.
      * assert (c = 0) by congruence. lra.
      * destruct (fold_right _ _ _) as [y|]; [|destruct x; discriminate]. destruct x as [x|]; [|discriminate].
        cbn [omap olift2] in E. assert (c = x * x + y) by congruence. specialize (IH y eq_refl). nra.
  - split; [discriminate|]. split; [discriminate|]. split; [congruence|discriminate].
Qed.

Lemma all_finite l : (exists xs, l = map Some xs) \/ @In num None l.
Proof.
  induction l as [|[x|] l IH]; [left; exists []; auto| |right; left; auto].
  destruct IH as [[xs ->]|H]; [left; exists (x :: xs); auto|right; right; auto].
Qed.

Lemma chisqr_some_inv sy o v st c : fst (chisqr sy o v st) = Ok (Some c) ->
  exists r, fst (residuals sy o v st) = Ok (map Some r) /\ c = sum (map (fun x => x ^ 2) r).
Proof.
  intros H. destruct (chisqr_spec sy o v st) as (S1 & S2 & S3 & _).
  destruct (fst (residuals sy o v st)) as [r|e] eqn:E.
  - destruct (all_finite r) as [[xs ->]|I].
    + exists xs. split; auto. specialize (S1 xs eq_refl). congruence.
    + specialize (S2 r eq_refl I). congruence.
  - specialize (S3 e eq_refl). congruence.
Qed.

Theorem chisqr_zero sy o v st st1 sel X psi delta c : has_data sy o sel X -> setp sy o v st = (Ok tt, st1) ->
  predicts sy st1 (ob_model o) X psi delta ->
  fst (chisqr sy o v st) = Ok (Some c) ->
  (forall i x y d, nth_error sel i = Some x -> p_delta x = Some y -> nth_error delta i = Some (Some d) -> Rabs (d - y) <= 360) ->
  (c = 0 <-> forall i x, nth_error sel i = Some x -> exists p d y,
     nth_error psi i = Some (Some p) /\ p_psi x = Some p /\
     nth_error delta i = Some (Some d) /\ p_delta x = Some y /\ exists k : Z, d - y = IZR k * 360).
Proof.
  intros HD HS HP HC HB.
  destruct (residuals_spec _ _ _ _ _ _ _ _ _ HD HS HP) as (rpsi & rdelta & R0 & L1 & L2 & L3 & L4 & N).
  destruct (chisqr_some_inv _ _ _ _ _ HC) as (r & R1 & ->). rewrite R0 in R1.
  assert (R2 : rpsi ++ rdelta = map Some r) by congruence. clear R0 R1.
  assert (G : forall z, In z (rpsi ++ rdelta) -> exists w, z = Some w /\ In w r).
  { intros z Hz. rewrite R2 in Hz. apply in_map_iff in Hz as (w & <- & Hw). eauto. }
  rewrite sum_sq_zero. split.
  - intros Z i x Hx.
    destruct (nth_error psi i) as [p|] eqn:Ep;
      [|apply nth_error_None in Ep; assert (nth_error sel i = None) by (apply nth_error_None; lia); congruence].
    destruct (nth_error delta i) as [d|] eqn:Ed;
      [|apply nth_error_None in Ed; assert (nth_error sel i = None) by (apply nth_error_None; lia); congruence].
    destruct (N i x p d Hx Ep Ed) as (a & b & A1 & A2 & B1 & B2).
    apply nth_error_In in A1. apply nth_error_In in B1.
    destruct (G a) as (wa & -> & Wa); [apply in_or_app; auto|].
    destruct (G b) as (wb & -> & Wb); [apply in_or_app; auto|].
    apply Z in Wa. apply Z in Wb. subst wa wb.
    unfold minus, distance in *. destruct p as [p|]; [|discriminate]. destruct d as [d|]; [|discriminate].
    destruct (p_psi x) as [px|]; [|discriminate]. destruct (p_delta x) as [y|] eqn:Ey; [|discriminate].
    assert (p - px = 0) by congruence. assert (px = p) by lra. subst px.
    destruct B2 as (d0 & D1 & D2 & _). assert (d0 = 0) by congruence. subst d0.
    exists p, d, y. split; auto. split; auto. split; auto. split; auto.
    destruct (D2 (HB i x y d Hx Ey Ed)) as [(k & K) _]. exists (- k)%Z. rewrite opp_IZR.
    destruct (Req_dec (d - y + IZR k * 360) 0) as [Q|Q]; [lra|]. apply Rabs_no_R0 in Q. congruence.
  - intros Q w Hw.
    assert (I : In (Some w) (rpsi ++ rdelta)) by (rewrite R2; apply in_map; auto).
    apply in_app_or in I as [I|I]; apply In_nth_error in I as [i Hi].
    + assert (Hs : exists x, nth_error sel i = Some x).
      { destruct (nth_error sel i) eqn:E; eauto. apply nth_error_None in E.
        assert (nth_error rpsi i = None) by (apply nth_error_None; lia). congruence. }
      destruct Hs as [x Hx]. destruct (Q i x Hx) as (p & d & y & P1 & P2 & P3 & P4 & _).
      destruct (N i x _ _ Hx P1 P3) as (a & b & A1 & A2 & _). rewrite P2 in A2. cbn in A2.
      assert (Some w = Some (p - p)) by congruence. assert (w = p - p) by congruence. lra.
    + assert (Hs : exists x, nth_error sel i = Some x).
      { destruct (nth_error sel i) eqn:E; eauto. apply nth_error_None in E.
        assert (nth_error rdelta i = None) by (apply nth_error_None; lia). congruence. }
      destruct Hs as [x Hx]. destruct (Q i x Hx) as (p & d & y & P1 & P2 & P3 & P4 & k & K).
      destruct (N i x _ _ Hx P1 P3) as (a & b & _ & _ & B1 & B2). rewrite P4 in B2.
      destruct B2 as (d0 & D1 & D2 & _). assert (d0 = w) by congruence. subst d0.
      destruct (D2 (HB i x y d Hx P4 P3)) as [(j & J) M]. specialize (M (- k)%Z). rewrite opp_IZR, K in M.
      replace (IZR k * 360 + - IZR k * 360) with 0 in M by ring. rewrite Rabs_R0 in M.
      assert (0 <= w) by (rewrite J; apply Rabs_pos). lra.
Qed.

(** ** logl *)
Lemma all_some_map l : all_some (map Some l) = Some l.
Proof. unfold all_some. induction l as [|x l IH]; cbn [map mapM]; auto. rewrite IH. reflexivity. Qed.
Lemma all_some_none l : In None l -> all_some l = None.
Proof.
  unfold all_some. induction l as [|x l IH]; [intros []|]. intros [->|H]; cbn [mapM]; auto.
  rewrite IH by auto. destruct x; reflexivity.
Qed.
Lemma Rsum_sum l : Rsum l = sum l.
Proof. unfold Rsum. induction l; cbn [fold_right sum]; congruence. Qed.

Lemma residuals_inv sy o v st res st' : residuals sy o v st = (Ok res, st') ->
  exists st1 psi delta psi_d delta_d, setp sy o v st = (Ok tt, st1) /\
    evaluate sy o st1 = (Ok (psi, delta, psi_d, delta_d), st') /\
    res = map2 (olift2 Rminus) psi psi_d ++ map2 (olift2 (fun x y => circular_distance x y 360)) delta delta_d /\
    List.length psi = List.length psi_d /\ List.length delta = List.length delta_d.
Proof.
  unfold residuals, bind. destruct (setp sy o v st) as [[[]|e] st1]; [|discriminate].
  destruct (evaluate sy o st1) as [[[[[psi delta] psi_d] delta_d]|e] st2] eqn:EV; [|discriminate].
  unfold lift, zip_columns. destruct (Nat.eqb_spec (List.length delta) (List.length delta_d)); [|discriminate].
  destruct (Nat.eqb_spec (List.length psi) (List.length psi_d)); [|discriminate].
  unfold ret. intros H. do 5 eexists. split; [reflexivity|].
  assert (st2 = st') by congruence. subst st2. split; [exact EV|].
  split; [injection H as <-; reflexivity|auto].
Qed.

Lemma evaluate_store sy o st r st' : evaluate sy o st = (r, st') -> st_store st' = st_store st /\ st_flips st' = st_flips st.
Proof.
  intros E. destruct (frames_evaluate (fun _ => False) sy o st) as [F1 F2]. rewrite E in F1, F2. cbn [snd] in *.
  split; auto. apply functional_extensionality. intros q. apply F1. tauto.
Qed.

(** what logl computes, given one evaluation *)
Lemma logl_eval sy o v st res st' st1 psi delta psi_d delta_d : residuals sy o v st = (Ok res, st') ->
  setp sy o v st = (Ok tt, st1) -> evaluate sy o st1 = (Ok (psi, delta, psi_d, delta_d), st') ->
  fst (logl sy o v st) = match all_some (map2 (logl_term (weighted o)) (variances sy st1 o psi delta) res) with
    | Some l => Ok (- (1 / 2) * Rsum l) | None => Raise RuntimeError end.
Proof.
  intros HR HS HE. unfold logl, bind at 1. rewrite HS. unfold bind at 1. rewrite HE.
  destruct (evaluate_store _ _ _ _ _ HE) as [S1 S2].
  assert (V : variances sy st' o psi delta = variances sy st1 o psi delta) by (unfold variances, value; rewrite S1; reflexivity).
  rewrite V. unfold bind.
  assert (R1 : fst (residuals sy o None st1) = Ok res).
  { pose proof (residuals_after sy o v st) as A. unfold bind in A. rewrite HS, HR in A. rewrite A. reflexivity. }
  assert (R2 : fst (residuals sy o None st') = Ok res).
  { rewrite <- R1. apply respects_residuals0. apply same_store; auto. }
  destruct (residuals sy o None st') as [r s]. cbn [fst] in R2. subst r.
  destruct (all_some _); reflexivity.
Qed.

Theorem logl_spec sy o v st st1 sel X psi delta : has_data sy o sel X -> setp sy o v st = (Ok tt, st1) ->
  predicts sy st1 (ob_model o) X psi delta ->
  (forall ms rs, psi ++ delta = map Some ms -> fst (residuals sy o v st) = Ok (map Some rs) ->
     fst (logl sy o v st) = Ok (- (1 / 2) * sum (map (fun mr => term sy st1 o (fst mr) (snd mr)) (combine ms rs)))) /\
  (forall r, fst (residuals sy o v st) = Ok r -> In None r -> fst (logl sy o v st) = Raise RuntimeError).
Proof.
  intros HD HS HP. unfold predicts in HP.
  destruct (call_model sy (ob_model o) X st1) as [r0 st2] eqn:E. cbn [fst] in HP. subst r0.
  assert (HE : evaluate sy o st1 = (Ok (psi, delta, map p_psi sel, map p_delta sel), st2))
    by (rewrite (evaluate_data _ _ _ _ _ HD), E; reflexivity).
  assert (INV : forall res, fst (residuals sy o v st) = Ok res -> residuals sy o v st = (Ok res, st2) /\
     List.length res = List.length (psi ++ delta)).
  { intros res H. destruct (residuals sy o v st) as [r s] eqn:ER. cbn [fst] in H. subst r.
    destruct (residuals_inv _ _ _ _ _ _ ER) as (s1 & a & b & c & d & Q1 & Q2 & Q3 & Q4 & Q5).
    assert (s1 = st1) by congruence. subst s1. rewrite HE in Q2.
    assert (s = st2) by congruence. subst s. split; auto.
    assert (a = psi) by congruence. assert (b = delta) by congruence. subst a b.
    rewrite Q3, !app_length. f_equal; apply map2_same; auto. }
  split.
  - intros ms rs Hm Hr. destruct (INV _ Hr) as [HR HL].
    rewrite (logl_eval _ _ _ _ _ _ _ _ _ _ _ HR HS HE).
    assert (V : map2 (logl_term (weighted o)) (variances sy st1 o psi delta) (map Some rs) =
       map Some (map (fun mr => term sy st1 o (fst mr) (snd mr)) (combine ms rs))).
    { unfold variances. rewrite Hm. clear.
      assert (K : forall (f : num -> num), (forall m, f (Some m) = Some (variance sy st1 o m)) -> forall ms rs,
        map2 (logl_term (weighted o)) (map f (map Some ms)) (map Some rs) =
        map Some (map (fun mr => term sy st1 o (fst mr) (snd mr)) (combine ms rs))).
      { intros f Hf. induction ms0 as [|m ms0 IH]; intros [|r rs0]; cbn [map map2 combine]; auto.
        rewrite IH. f_equal. rewrite Hf. unfold logl_term, term, weighted. cbn [olift2 fst snd]. f_equal. ring. }
      destruct (ob_lnsigma o) as [p|] eqn:L; apply K; intros m; unfold variance; rewrite L; auto.
      cbn [omap]. f_equal. ring. }
    rewrite V, all_some_map, Rsum_sum. reflexivity.
  - intros r Hr I. destruct (INV _ Hr) as [HR HL]. rewrite (logl_eval _ _ _ _ _ _ _ _ _ _ _ HR HS HE).
    rewrite all_some_none; auto.
    assert (LV : List.length (variances sy st1 o psi delta) = List.length r).
    { unfold variances. destruct (ob_lnsigma o); rewrite map_length; auto. }
    clear - I LV. revert LV. generalize (variances sy st1 o psi delta) as l. induction r as [|x r IH]; [destruct I|].
    intros [|y l] L; [discriminate|]. cbn [map2]. destruct I as [->|I]; [left; destruct y; reflexivity|].
    right. apply IH; auto.
Qed.

Theorem logl_plain sy o v st : ob_lnsigma o = None -> weighted o = false ->
  (forall c, fst (chisqr sy o v st) = Ok (Some c) -> fst (logl sy o v st) = Ok (- c / 2)) /\
  (fst (chisqr sy o v st) = Ok None -> fst (logl sy o v st) = Raise RuntimeError).
Proof.
  intros L W. split.
  - intros c H. destruct (chisqr_some_inv _ _ _ _ _ H) as (rs & R0 & ->).
    destruct (residuals sy o v st) as [r s] eqn:ER. cbn [fst] in R0. subst r.
    destruct (residuals_inv _ _ _ _ _ _ ER) as (st1 & psi & delta & c1 & c2 & Q1 & Q2 & Q3 & Q4 & Q5).
    rewrite (logl_eval _ _ _ _ _ _ _ _ _ _ _ ER Q1 Q2).
    assert (LL : List.length (psi ++ delta) = List.length rs).
    { rewrite <- (map_length Some rs), Q3, !app_length. f_equal; symmetry; apply map2_same; auto. }
    assert (V : map2 (logl_term (weighted o)) (variances sy st1 o psi delta) (map Some rs) = map Some (map (fun x => x ^ 2) rs)).
    { unfold variances. rewrite L, W. clear - LL. revert LL. generalize (psi ++ delta) as l. intros l. revert l.
      induction rs as [|x rs IH]; intros [|y l] E; try discriminate; cbn [map map2]; auto.
      rewrite IH by (simpl in E; lia). f_equal. unfold logl_term. cbn [olift2]. f_equal. field. }
    rewrite V, all_some_map, Rsum_sum. f_equal. field.
  - intros H. rewrite chisqr_after in H. unfold bind in H.
    destruct (residuals sy o v st) as [[r|e] s] eqn:ER; cbn [fst] in H; [|discriminate].
    unfold ret in H. cbn [fst] in H.
    destruct (residuals_inv _ _ _ _ _ _ ER) as (st1 & psi & delta & c1 & c2 & Q1 & Q2 & Q3 & Q4 & Q5).
    rewrite (logl_eval _ _ _ _ _ _ _ _ _ _ _ ER Q1 Q2).
    destruct (all_finite r) as [[xs ->]|I].
    { rewrite sq_map, nsum_some in H. discriminate. }
    rewrite all_some_none; auto.
    assert (LV : List.length (variances sy st1 o psi delta) = List.length r).
    { unfold variances. rewrite L, map_length, Q3, !app_length. f_equal; symmetry; apply map2_same; auto. }
    clear - I LV. revert LV. generalize (variances sy st1 o psi delta) as l. induction r as [|x r IH]; [destruct I|].
    intros [|y l] E; [discriminate|]. cbn [map2]. destruct I as [->|I]; [left; destruct y; reflexivity|].
    right. apply IH; auto.
Qed.

(** ** logp, logpost *)
Lemma logp_eval sy o v st st1 : setp sy o v st = (Ok tt, st1) ->
  logp sy o v st = logp_now sy o st1.
Proof. intros H. unfold logp, bind. rewrite H. reflexivity. Qed.

Lemma nth_error_all {A} (l : list A) : forall m, (forall i, nth_error l i = nth_error m i) -> l = m.
Proof.
  induction l as [|x l IH]; intros [|y m] H; auto; try (specialize (H 0%nat); discriminate).
  f_equal; [specialize (H 0%nat); cbn in H; congruence|]. apply IH. intros i. exact (H (S i)).
Qed.

Theorem logp_spec sy o bs v st : well_formed sy -> intervals sy o bs -> (forall b, In b bs -> fst b < snd b) ->
  List.length v = List.length (varying_parameters sy o) ->
  (Forall2 (fun x b => fst b <= x <= snd b) v bs ->
     fst (logp sy o (Some v) st) = Ok (Some (- sum (map (fun b => ln (snd b - fst b)) bs)))) /\
  (~ Forall2 (fun x b => fst b <= x <= snd b) v bs -> fst (logp sy o (Some v) st) = Ok None).
Proof.
  intros WF HI HB L. destruct (setp_varying sy o v st WF L) as (st1 & S & V & _).
  rewrite (logp_eval _ _ _ _ _ S). unfold logp_now. cbn [fst]. unfold intervals in HI.
  assert (V2 : map (value sy st1) (varying_parameters sy o) = v).
  { apply nth_error_all. intros i. destruct (nth_error (varying_parameters sy o) i) as [p|] eqn:E.
    - rewrite (map_nth_error _ _ _ E). destruct (nth_error v i) as [x|] eqn:Ex.
      + f_equal. eapply V; eauto.
      + apply nth_error_None in Ex. assert (nth_error (varying_parameters sy o) i = None) by (apply nth_error_None; lia). congruence.
    - apply nth_error_None in E. transitivity (@None R); [|symmetry]; apply nth_error_None; rewrite ?map_length; lia. }
  assert (E : map (fun p => bounds_logp (p_bounds (sy_params sy p)) (value sy st1 p)) (varying_parameters sy o) =
    map2 (fun x b => bounds_logp (Interval (fst b) (snd b)) x) v bs).
  { rewrite <- V2. clear V V2 L S. revert bs HI HB. induction (varying_parameters sy o) as [|p ps IH]; intros [|b bs] HI HB;
      try discriminate; auto. cbn [map map2] in *. f_equal.
    - f_equal. congruence.
    - apply IH; [congruence|]. intros; apply HB; right; auto. }
  rewrite E. assert (LB : List.length v = List.length bs).
  { rewrite L, <- (map_length (fun p => p_bounds (sy_params sy p))), HI, map_length. reflexivity. }
  clear E V V2 L HI S. split.
  - intros F. f_equal. induction F as [|x b v bs [H1 H2] F IH]; cbn [map2 map sum nsum fold_right].
    + f_equal. ring.
    + assert (IH' : nsum (map2 (fun x b => bounds_logp (Interval (fst b) (snd b)) x) v bs) = Some (- sum (map (fun b => ln (snd b - fst b)) bs))).
      { apply IH; [intros; apply HB; right; auto|simpl in LB; lia]. }
      unfold nsum in IH'. rewrite IH'. cbn [bounds_logp]. destruct Rle_dec; [|contradiction]. destruct Rle_dec; [|contradiction].
      unfold oln. destruct (Rlt_dec 0 (snd b - fst b)) as [Q|Q]; [|exfalso; apply Q; specialize (HB b (or_introl eq_refl)); lra].
      cbn [omap olift2]. f_equal. ring.
  - intros N. f_equal. apply nsum_none. revert bs HB LB N. induction v as [|x v IH]; intros [|b bs] HB LB N; try discriminate.
    + exfalso; apply N; constructor.
    + cbn [map2]. destruct (Rle_dec (fst b) x) as [Q1|Q1].
      * destruct (Rle_dec x (snd b)) as [Q2|Q2].
        -- right. apply IH; [intros; apply HB; right; auto|simpl in LB; lia|]. intros F. apply N. constructor; auto.
        -- left. cbn [bounds_logp]. destruct Rle_dec; auto. destruct Rle_dec; [contradiction|reflexivity].
      * left. cbn [bounds_logp]. destruct Rle_dec; [contradiction|reflexivity].
Qed.

Lemma logp_store sy o v st r st' : logp sy o v st = (r, st') -> st' = snd (setp sy o v st).
Proof. unfold logp, bind. destruct (setp sy o v st) as [[[]|e] s]; cbn [snd]; congruence. Qed.

Theorem logpost_spec sy o v st :
  (forall a b, fst (logp sy o v st) = Ok (Some a) -> fst (logl sy o v st) = Ok b ->
     fst (logpost sy o v st) = Ok (Some (a + b))) /\
  (forall a e, fst (logp sy o v st) = Ok (Some a) -> fst (logl sy o v st) = Raise e ->
     fst (logpost sy o v st) = Raise e) /\
  (fst (logp sy o v st) = Ok None ->
     fst (logpost sy o v st) = Ok None /\ st_wavelengths (snd (logpost sy o v st)) = st_wavelengths st /\
     forall ext h, logpost (other_model sy ext h) o v st = logpost sy o v st) /\
  (forall e, fst (logp sy o v st) = Raise e -> fst (logpost sy o v st) = Raise e).
Proof.
  assert (W : st_wavelengths (snd (setp sy o v st)) = st_wavelengths st).
  { unfold setp. destruct v as [v|]; auto. destruct (Nat.eqb _ _); auto. destruct (Nat.eqb _ _); auto. }
  unfold logpost, logp, logl, bind. destruct (setp sy o v st) as [[[]|e] s] eqn:S; cbn [setp fst snd] in *.
  - split; [|split; [|split]].
    + intros a b Ha Hb. assert (Ha' : nsum (map (fun p => bounds_logp (p_bounds (sy_params sy p)) (value sy s p)) (varying_parameters sy o)) = Some a) by congruence.
      rewrite Ha'. destruct (evaluate sy o s) as [[[[[psi delta] x] y]|e] s'] eqn:E; [|discriminate].
      destruct (residuals sy o None s') as [[res|e] s2] eqn:R; [|discriminate].
      destruct (all_some _); [|discriminate]. cbn in *. congruence.
    + intros a e Ha Hb. assert (Ha' : nsum (map (fun p => bounds_logp (p_bounds (sy_params sy p)) (value sy s p)) (varying_parameters sy o)) = Some a) by congruence.
      rewrite Ha'. destruct (evaluate sy o s) as [[[[[psi delta] x] y]|e0] s'] eqn:E; [|cbn in *; congruence].
      destruct (residuals sy o None s') as [[res|e0] s2] eqn:R; [|cbn in *; congruence].
      destruct (all_some _); [discriminate|]. cbn in *. congruence.
    + intros Ha. assert (Ha' : nsum (map (fun p => bounds_logp (p_bounds (sy_params sy p)) (value sy s p)) (varying_parameters sy o)) = None) by congruence.
      rewrite Ha'. split; auto. split; auto. intros ext h.
      change (setp (other_model sy ext h) o v st) with (setp sy o v st). rewrite S.
      change (varying_parameters (other_model sy ext h) o) with (varying_parameters sy o).
      change (value (other_model sy ext h) s) with (value sy s). cbn [other_model sy_params]. rewrite Ha'. reflexivity.
    + discriminate.
  - split; [discriminate|]. split; [discriminate|]. split; [discriminate|]. auto.
Qed.

Theorem extra_ignored sy o f v st :
  residuals sy (with_extra o f) v st = residuals sy o v st /\ chisqr sy (with_extra o f) v st = chisqr sy o v st /\
  logp sy (with_extra o f) v st = logp sy o v st /\ logl sy (with_extra o f) v st = logl sy o v st /\
  logpost sy (with_extra o f) v st = logpost sy o v st.
Proof. repeat split. Qed.

(** ** prior_transform *)
Theorem prior_spec sy o bs u : intervals sy o bs -> List.length u = List.length (varying_parameters sy o) ->
  exists xs, prior_transform sy o u = Ok xs /\ List.length xs = List.length (varying_parameters sy o) /\
    forall i b q x, nth_error bs i = Some b -> nth_error u i = Some q -> nth_error xs i = Some x ->
      (fst b <= snd b -> 0 <= q <= 1 -> fst b <= x <= snd b) /\ (q = 0 -> x = fst b) /\ (q = 1 -> x = snd b).
Proof.
  intros HI L. unfold prior_transform. rewrite L, Nat.leb_refl. eexists. split; [reflexivity|].
  split; [rewrite map2_length; lia|]. intros i b q x Hb Hq Hx.
  assert (Hp : exists p, nth_error (varying_parameters sy o) i = Some p /\ p_bounds (sy_params sy p) = Interval (fst b) (snd b)).
  { unfold intervals in HI. pose proof (map_nth_error (fun b => Interval (fst b) (snd b)) _ _ Hb) as M. rewrite <- HI in M.
    destruct (nth_error (varying_parameters sy o) i) as [p|] eqn:E.
    - exists p. split; auto. rewrite (map_nth_error _ _ _ E) in M. congruence.
    - apply nth_error_None in E. assert (Z : nth_error (map (fun p => p_bounds (sy_params sy p)) (varying_parameters sy o)) i = None)
        by (apply nth_error_None; rewrite map_length; auto). congruence. }
  destruct Hp as (p & P1 & P2). rewrite (nth_error_map2 _ _ _ _ _ _ P1 Hq), P2 in Hx. cbn [bounds_invcdf] in Hx.
  assert (x = q * (snd b - fst b) + fst b) by congruence. subst x.
  split; [intros; nra|]. split; intros ->; ring.
Qed.

Theorem prior_increasing sy o bs u u' xs xs' i b q q' x x' : intervals sy o bs ->
  prior_transform sy o u = Ok xs -> prior_transform sy o u' = Ok xs' ->
  nth_error bs i = Some b -> fst b < snd b -> nth_error u i = Some q -> nth_error u' i = Some q' ->
  nth_error xs i = Some x -> nth_error xs' i = Some x' -> (q < q' <-> x < x').
Proof.
  intros HI. unfold prior_transform. destruct (Nat.leb _ (List.length u)); [|discriminate].
  destruct (Nat.leb _ (List.length u')); [|discriminate]. intros H1 H2 Hb HB Hq Hq' Hx Hx'.
  injection H1 as <-. injection H2 as <-.
  assert (Hp : exists p, nth_error (varying_parameters sy o) i = Some p /\ p_bounds (sy_params sy p) = Interval (fst b) (snd b)).
  { unfold intervals in HI. pose proof (map_nth_error (fun b => Interval (fst b) (snd b)) _ _ Hb) as M. rewrite <- HI in M.
    destruct (nth_error (varying_parameters sy o) i) as [p|] eqn:E.
    - exists p. split; auto. rewrite (map_nth_error _ _ _ E) in M. congruence.
    - apply nth_error_None in E. assert (Z : nth_error (map (fun p => p_bounds (sy_params sy p)) (varying_parameters sy o)) i = None)
        by (apply nth_error_None; rewrite map_length; auto). congruence. }
  destruct Hp as (p & P1 & P2). rewrite (nth_error_map2 _ _ _ _ _ _ P1 Hq), P2 in Hx. rewrite (nth_error_map2 _ _ _ _ _ _ P1 Hq'), P2 in Hx'.
  cbn [bounds_invcdf] in *. assert (x = q * (snd b - fst b) + fst b) by congruence.
  assert (x' = q' * (snd b - fst b) + fst b) by congruence. subst x x'. split; intros; nra.
Qed.

Theorem prior_short sy o u : (List.length u < List.length (varying_parameters sy o))%nat ->
  prior_transform sy o u = Raise IndexError.
Proof. intros L. unfold prior_transform. destruct (Nat.leb_spec (List.length (varying_parameters sy o)) (List.length u)); [lia|reflexivity]. Qed.

(** ** a second objective *)
Lemma nth_update_same {A} (l : list A) i f d : nth i (update l i f) d = match nth_error l i with Some x => f x | None => d end.
Proof. revert i. induction l as [|x l IH]; intros [|i]; cbn [update nth nth_error]; auto. Qed.
Lemma nth_update_ne {A} (l : list A) i j f d : i <> j -> nth j (update l i f) d = nth j l d.
Proof. revert i j. induction l as [|x l IH]; intros [|i] [|j] N; cbn [update nth]; auto; try contradiction. Qed.

Theorem second_objective sy m1 d1 l1 w1 x1 m2 d2 l2 w2 x2 st :
  m1 <> m2 \/ ds_flipped d1 = ds_flipped d2 ->
  let '(o1, st1) := new_objective m1 d1 l1 w1 x1 st in
  let '(o2, st2) := new_objective m2 d2 l2 w2 x2 st1 in
  fst (residuals sy o1 None st2) = fst (residuals sy o1 None st1) /\
  fst (chisqr sy o1 None st2) = fst (chisqr sy o1 None st1) /\
  fst (logp sy o1 None st2) = fst (logp sy o1 None st1) /\
  fst (logl sy o1 None st2) = fst (logl sy o1 None st1) /\
  fst (logpost sy o1 None st2) = fst (logpost sy o1 None st1).
Proof.
  intros H. unfold new_objective. apply only_parameters; auto. cbn [ob_model st_flips].
  destruct (Nat.eq_dec m1 m2) as [<-|N].
  - destruct H as [H|H]; [contradiction|]. rewrite !nth_update_same.
    destruct (nth_error (st_flips st) m1) as [x|] eqn:E.
    + rewrite nth_error_update, E. cbn. congruence.
    + rewrite nth_error_update, E. reflexivity.
  - rewrite nth_update_ne; auto.
Qed.
