(** * Chi-squared is a parabola in delta_offset *)

Require Import Reals List Bool Lra Lia ZArith Psatz.
From Verif Require Import Base M_disp M_struct M_model M_data M_objective Spec_data Spec_objective P_objective P_objective2 Spec_offset P_offset.
Import ListNotations.
Open Scope list_scope.
Open Scope R_scope.

Lemma sum_app a b : sum (a ++ b) = sum a + sum b.
Proof. induction a as [|x a IH]; cbn; [ring|rewrite IH; ring]. Qed.

Lemma circle_le a b d : circle_distance 360 a b d -> 0 <= d <= Rabs (a - b).
Proof.
  intros [[k ->] H]. split; [apply Rabs_pos|]. specialize (H 0%Z). rewrite Rmult_0_l, Rplus_0_r in H. exact H.
Qed.
Lemma circle_near a b d : circle_distance 360 a b d -> Rabs (a - b) <= 180 -> d = Rabs (a - b).
Proof.
  intros H B. pose proof (circle_le a b d H) as [P L]. destruct H as [[k ->] _]. apply Rle_antisym; [exact L|].
  destruct (Z.eq_dec k 0) as [->|N]; [rewrite Rmult_0_l, Rplus_0_r; lra|].
  apply Rle_trans with 180; [exact B|].
  assert (K : 1 <= Rabs (IZR k)). { rewrite <- abs_IZR. apply (IZR_le 1). lia. }
  pose proof (Rabs_triang_inv (IZR k * 360) (- (a - b))) as T. rewrite Rabs_Ropp, Rabs_mult, (Rabs_pos_eq 360) in T by lra.
  replace (IZR k * 360 - - (a - b)) with (a - b + IZR k * 360) in T by ring. lra.
Qed.

(** distances, one for each point *)
Definition distances (delta measured ds : list R) : Prop :=
  List.length ds = List.length measured /\ forall i a b, nth_error delta i = Some a -> nth_error measured i = Some b ->
    exists d, nth_error ds i = Some d /\ distance (Some a) (Some b) (Some d).

Section Values.
Context (sy : system) (o : objective) (st st1 : state) (v : option (list R)) (sel : list point) (X : list (R * R)) (pm dm psi delta : list R).
Context (HD : has_data sy o sel X) (Epm : map p_psi sel = map Some pm) (Edm : map p_delta sel = map Some dm).
Context (HS : setp sy o v st = (Ok tt, st1)) (HP : predicts sy st1 (ob_model o) X (map Some psi) (map Some delta)).

Lemma lengths : List.length pm = List.length sel /\ List.length dm = List.length sel /\ List.length psi = List.length sel /\ List.length delta = List.length sel.
Proof.
  destruct (residuals_spec sy o v st st1 _ X _ _ HD HS HP) as (rp & rd & _ & _ & _ & E3 & E4 & _). rewrite map_length in E3, E4.
  apply (f_equal (@List.length _)) in Epm. apply (f_equal (@List.length _)) in Edm. rewrite !map_length in Epm, Edm. repeat split; congruence.
Qed.

Lemma chisqr_value : exists ds, distances delta dm ds /\
  fst (residuals sy o v st) = Ok (map Some (map2 Rminus psi pm ++ ds)) /\
  fst (chisqr sy o v st) = Ok (Some (sum (map (fun x => x ^ 2) (map2 Rminus psi pm)) + sum (map (fun x => x ^ 2) ds))).
Proof.
  destruct lengths as (L1 & L2 & L3 & L4).
  destruct (residuals_spec sy o v st st1 _ X _ _ HD HS HP) as (rp & rd & E & E1 & E2 & _ & _ & N).
  assert (AT : forall i, (i < List.length sel)%nat -> exists p d a b, nth_error psi i = Some p /\ nth_error delta i = Some d /\
    nth_error pm i = Some a /\ nth_error dm i = Some b /\ nth_error rp i = Some (Some (p - a)) /\ exists e, nth_error rd i = Some (Some e) /\ distance (Some d) (Some b) (Some e)).
  { intros i Hi. destruct (nth_error psi i) as [p|] eqn:Hp; [|apply nth_error_None in Hp; lia].
    destruct (nth_error delta i) as [d|] eqn:Hd; [|apply nth_error_None in Hd; lia].
    destruct (nth_error pm i) as [a|] eqn:Ha; [|apply nth_error_None in Ha; lia].
    destruct (nth_error dm i) as [b|] eqn:Hb; [|apply nth_error_None in Hb; lia].
    destruct (nth_error sel i) as [x|] eqn:Hx; [|apply nth_error_None in Hx; lia].
    assert (Xp : p_psi x = Some a).
    { pose proof (map_nth_error p_psi _ _ Hx) as Q. rewrite Epm, (map_nth_error _ _ _ Ha) in Q. congruence. }
    assert (Xd : p_delta x = Some b).
    { pose proof (map_nth_error p_delta _ _ Hx) as Q. rewrite Edm, (map_nth_error _ _ _ Hb) in Q. congruence. }
    destruct (N i x (Some p) (Some d) Hx (map_nth_error _ _ _ Hp) (map_nth_error _ _ _ Hd)) as (u & w & U1 & U2 & W1 & W2).
    rewrite Xp in U2. rewrite Xd in W2. cbn [minus] in U2. subst u. exists p, d, a, b. do 4 (split; [reflexivity|]). split; [exact U1|].
    pose proof W2 as W3. cbn [distance] in W2. destruct W2 as (e & -> & _). exists e. split; [exact W1|exact W3]. }
  assert (K : exists ds, rd = map Some ds).
  { assert (G : forall r : list num, (forall i, (i < List.length r)%nat -> exists a, nth_error r i = Some (Some a)) -> exists l, r = map Some l).
    { clear. induction r as [|a r IH]; intros H; [exists []; reflexivity|].
      destruct IH as [l ->]; [intros i Hi; exact (H (Datatypes.S i) ltac:(cbn; lia))|].
      destruct (H 0%nat ltac:(cbn; lia)) as [x Hx]. cbn in Hx. injection Hx as ->. exists (x :: l). reflexivity. }
    apply G. intros i Hi. destruct (AT i ltac:(lia)) as (_ & _ & _ & _ & _ & _ & _ & _ & _ & e & He & _). exists e. exact He. }
  destruct K as [ds ->]. rewrite map_length in E2.
  assert (M2 : forall (a b : list R) i x y, nth_error a i = Some x -> nth_error b i = Some y -> nth_error (map2 Rminus a b) i = Some (x - y)).
  { clear. induction a as [|u a IH]; intros [|w b] [|i] x y H1 H2; cbn in *; try discriminate; [congruence|apply IH; auto]. }
  assert (LM : forall (a b : list R), List.length a = List.length b -> List.length (map2 Rminus a b) = List.length b).
  { clear. induction a as [|u a IH]; intros [|w b] H; cbn in *; try discriminate; [reflexivity|rewrite IH; lia]. }
  assert (RP : rp = map Some (map2 Rminus psi pm)).
  { apply nth_ext with (d := None) (d' := None); [rewrite map_length, LM; congruence|]. intros i Hi.
    destruct (AT i ltac:(lia)) as (p & d & a & b & A1 & _ & A3 & _ & A5 & _). rewrite (nth_error_nth _ _ _ A5).
    symmetry. apply nth_error_nth. apply map_nth_error. apply M2; auto. }
  exists ds. split.
  - split; [congruence|]. intros i d b Hd Hb.
    assert (Hi : (i < List.length sel)%nat) by (rewrite <- L2; apply nth_error_Some; congruence).
    destruct (AT i Hi) as (p & d' & a & b' & _ & A2 & _ & A4 & _ & e & A6 & A7). rewrite Hd in A2. injection A2 as <-. rewrite Hb in A4. injection A4 as <-.
    exists e. split; [|exact A7]. rewrite nth_error_map in A6. destruct (nth_error ds i); [|discriminate]. cbn in A6. congruence.
  - rewrite RP, <- map_app in E. split; [exact E|]. destruct (chisqr_spec sy o v st) as (C & _). rewrite (C _ E), map_app, sum_app. reflexivity.
Qed.
End Values.

(** sums of squares of distances *)
Lemma squares_le : forall delta dm ds, List.length delta = List.length dm -> distances delta dm ds -> 
  Forall2 (fun a b => Rabs (a - b) <= 360) delta dm ->
  sum (map (fun x => x ^ 2) ds) <= sum (map (fun x => x ^ 2) (map2 Rminus delta dm)) /\
  (Forall2 (fun a b => Rabs (a - b) <= 180) delta dm -> sum (map (fun x => x ^ 2) ds) = sum (map (fun x => x ^ 2) (map2 Rminus delta dm))).
Proof.
  induction delta as [|a delta IH]; intros [|b dm] ds L [L' H] F; try discriminate.
  - destruct ds; [|discriminate]. cbn. split; [lra|reflexivity].
  - inversion F as [|? ? ? ? F1 F2]. subst. destruct ds as [|d ds]; [discriminate|].
    destruct (IH dm ds ltac:(cbn in L; lia)) as [I1 I2]; [split; [cbn in L'; lia|]|exact F2|].
    { intros i x y Hx Hy. apply (H (Datatypes.S i) x y); auto. }
    destruct (H 0%nat a b eq_refl eq_refl) as (e & He & D). cbn in He. injection He as <-. cbn [distance] in D. destruct D as (e & Ee & D & _). injection Ee as <-.
    specialize (D F1). pose proof (circle_le _ _ _ D) as [P1 P2].
    assert (SQ : d ^ 2 <= (a - b) ^ 2). { rewrite <- (pow2_abs (a - b)). apply pow_incr. lra. }
    cbn [map2 map sum]. split; [lra|]. intros G. inversion G as [|? ? ? ? G1 G2]. subst. rewrite (I2 G2), (circle_near _ _ _ D G1), pow2_abs. reflexivity.
Qed.

(** the parabola *)
Lemma parabola : forall delta dm c, List.length delta = List.length dm ->
  sum (map (fun x => x ^ 2) (map2 Rminus (map (fun x => x + c) delta) dm)) =
  sum (map (fun x => x ^ 2) (map2 Rminus delta dm)) - 2 * c * sum (errors dm delta) + INR (List.length dm) * c ^ 2.
Proof.
  induction delta as [|a delta IH]; intros [|b dm] c L; try discriminate; [cbn; ring|].
  cbn in L. unfold errors. cbn [map map2 sum]. rewrite IH by lia. fold (errors dm delta). cbn [List.length]. rewrite S_INR. ring.
Qed.

Lemma mean_centre delta dm c : List.length delta = List.length dm -> (0 < List.length dm)%nat ->
  sum (map (fun x => x ^ 2) (map2 Rminus (map (fun x => x + c) delta) dm)) =
  sum (map (fun x => x ^ 2) (map2 Rminus (map (fun x => x + mean (errors dm delta)) delta) dm)) + INR (List.length dm) * (c - mean (errors dm delta)) ^ 2.
Proof.
  intros L P. rewrite !parabola by exact L. unfold mean.
  assert (LE : List.length (errors dm delta) = List.length dm).
  { revert delta L. clear P. induction dm as [|b dm IH]; intros [|a delta] L; try discriminate; [reflexivity|]. cbn in *. rewrite IH; lia. }
  rewrite LE. apply lt_0_INR in P. field. lra.
Qed.

(** the mean lies between the extremes *)
Lemma mean_between l lo hi : (0 < List.length l)%nat -> Forall (fun x => lo <= x <= hi) l -> lo <= mean l <= hi.
Proof.
  intros P F. assert (S : INR (List.length l) * lo <= sum l <= INR (List.length l) * hi).
  { clear P. induction F as [|x l Hx F IH]; [cbn; lra|]. cbn [List.length sum]. rewrite S_INR. lra. }
  apply lt_0_INR in P. unfold mean. split; apply Rmult_le_reg_r with (INR (List.length l)); auto; field_simplify; try lra.
Qed.

Lemma abs_in x m : Rabs x <= m -> - m <= x <= m.
Proof. unfold Rabs. destruct (Rcase_abs x); lra. Qed.

Lemma range_of_mean delta dm c : List.length delta = List.length dm -> (0 < List.length dm)%nat ->
  Forall2 (fun a b => Rabs (a - b) <= 180) (map (fun x => x + c) delta) dm ->
  Forall2 (fun a b => Rabs (a - b) <= 360) (map (fun x => x + mean (errors dm delta)) delta) dm.
Proof.
  intros L P F.
  assert (B : - 180 + c <= mean (errors dm delta) <= 180 + c).
  { apply mean_between.
    - destruct dm, delta; cbn in *; try discriminate; lia.
    - clear P. revert dm L F. induction delta as [|a delta IH]; intros [|b dm] L F; try discriminate; unfold errors; cbn [map2]; constructor.
      + inversion F as [|? ? ? ? F1 F2]. apply abs_in in F1. lra.
      + apply IH; [cbn in L; lia|]. inversion F; auto. }
  clear P. revert B. generalize (mean (errors dm delta)). intros M B. revert dm L F.
  induction delta as [|a delta IH]; intros [|b dm] L F; try discriminate; cbn [map]; constructor.
  - inversion F as [|? ? ? ? F1 F2]. apply abs_in in F1. apply Rabs_le. lra.
  - apply IH; [cbn in L; lia|]. inversion F; auto.
Qed.

Lemma shifted_some c l : shifted c (map Some l) = map Some (map (fun x => x + c) l).
Proof. unfold shifted. rewrite !map_map. reflexivity. Qed.

Section Fit.
Context (sy : system) (o : objective) (st st1 : state) (v : option (list R)) (sel : list point) (X : list (R * R)) (pm dm psi delta : list R).
Context (HD : has_data sy o sel X) (Epm : map p_psi sel = map Some pm) (Edm : map p_delta sel = map Some dm).
Context (HS : setp sy o v st = (Ok tt, st1)) (HP : predicts sy st1 (ob_model o) X (map Some psi) (map Some delta)).

Lemma other_offset v' c st2 : setp sy o v' st = (Ok tt, st2) -> moved_offset sy (ob_model o) c st1 st2 ->
  predicts sy st2 (ob_model o) X (map Some psi) (map Some (map (fun x => x + c) delta)).
Proof. intros _ H. pose proof (prediction_moves _ _ _ _ _ _ _ _ H HP) as Q. rewrite shifted_some in Q. exact Q. Qed.

Theorem chisqr_offset v' c st2 : setp sy o v' st = (Ok tt, st2) -> moved_offset sy (ob_model o) c st1 st2 ->
  Forall2 (fun a b => Rabs (a + c - b) <= 180) delta dm ->
  fst (chisqr sy o v' st) = Ok (Some (sum (map (fun x => x ^ 2) (errors pm psi)) + sum (map (fun x => (x - c) ^ 2) (errors dm delta)))).
Proof.
  intros S2 MV F. pose proof (other_offset v' c st2 S2 MV) as P2.
  destruct (lengths sy o st st1 v sel X pm dm psi delta HD Epm Edm HS HP) as (L1 & L2 & L3 & L4).
  destruct (chisqr_value sy o st st2 v' sel X pm dm psi _ HD Epm Edm S2 P2) as (ds & D & _ & C). rewrite C. f_equal. f_equal.
  assert (F' : forall k l, Forall2 (fun a b => Rabs (a + k - b) <= l) delta dm -> Forall2 (fun a b => Rabs (a - b) <= l) (map (fun x => x + k) delta) dm).
  { intros k l. clear. induction 1; cbn [map]; constructor; auto. }
  destruct (squares_le (map (fun x => x + c) delta) dm ds) as [_ SQ]; [rewrite map_length; congruence|exact D| |].
  { assert (G : Forall2 (fun a b => Rabs (a + c - b) <= 360) delta dm); [|apply F'; exact G].
    revert F. clear. induction 1 as [|x y a b H F IH]; constructor; [lra|exact IH]. }
  rewrite (SQ (F' _ _ F)). f_equal.
  - unfold errors. assert (LL : List.length psi = List.length pm) by congruence. revert LL. clear. revert pm. induction psi as [|a l IH]; intros [|b m] LL; cbn in *; try discriminate; [reflexivity|].
    rewrite (IH m) by lia. ring.
  - unfold errors. assert (LL : List.length delta = List.length dm) by congruence. revert LL. clear. revert dm. induction delta as [|a l IH]; intros [|b m] LL; cbn in *; try discriminate; [reflexivity|].
    rewrite (IH m) by lia. ring.
Qed.

Theorem best_offset v' c st2 v0 st0 : (0 < List.length sel)%nat ->
  setp sy o v' st = (Ok tt, st2) -> moved_offset sy (ob_model o) c st1 st2 ->
  setp sy o v0 st = (Ok tt, st0) -> moved_offset sy (ob_model o) (mean (errors dm delta)) st1 st0 ->
  Forall2 (fun a b => Rabs (a + c - b) <= 180) delta dm ->
  exists x0 x, fst (chisqr sy o v0 st) = Ok (Some x0) /\ fst (chisqr sy o v' st) = Ok (Some x) /\
    x0 + INR (List.length sel) * (c - mean (errors dm delta)) ^ 2 <= x.
Proof.
  intros NE S2 MV S0 MV0 F. pose proof (other_offset v' c st2 S2 MV) as P2. pose proof (other_offset v0 _ st0 S0 MV0) as P0.
  destruct (lengths sy o st st1 v sel X pm dm psi delta HD Epm Edm HS HP) as (L1 & L2 & L3 & L4).
  destruct (chisqr_value sy o st st2 v' sel X pm dm psi _ HD Epm Edm S2 P2) as (ds & D & _ & C).
  destruct (chisqr_value sy o st st0 v0 sel X pm dm psi _ HD Epm Edm S0 P0) as (d0 & D0 & _ & C0).
  assert (F' : forall k l, Forall2 (fun a b => Rabs (a + k - b) <= l) delta dm -> Forall2 (fun a b => Rabs (a - b) <= l) (map (fun x => x + k) delta) dm).
  { intros k l. clear. induction 1; cbn [map]; constructor; auto. }
  assert (LL : List.length delta = List.length dm) by congruence.
  assert (G : Forall2 (fun a b => Rabs (a + c - b) <= 360) delta dm).
  { revert F. clear. induction 1 as [|x y a b H F IH]; constructor; [lra|exact IH]. }
  destruct (squares_le (map (fun x => x + c) delta) dm ds) as [_ SQ]; [rewrite map_length; congruence|exact D|apply F'; exact G|].
  destruct (squares_le (map (fun x => x + mean (errors dm delta)) delta) dm d0) as [SQ0 _]; [rewrite map_length; congruence|exact D0| |].
  { apply range_of_mean with c; [exact LL|lia|apply F'; exact F]. }
  do 2 eexists. split; [exact C0|]. split; [exact C|]. rewrite (SQ (F' _ _ F)), (mean_centre delta dm c LL) by lia. rewrite <- L2. lra.
Qed.
End Fit.
