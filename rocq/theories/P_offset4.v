(** * Perfect fits with a free delta_offset *)

Require Import Reals List Bool Lra Lia ZArith Psatz.
From Verif Require Import Base M_disp M_struct M_model M_data M_objective Spec_data Spec_objective P_objective P_objective2 Spec_offset Spec_offset2 P_offset P_offset2.
Import ListNotations.
Open Scope list_scope.
Open Scope R_scope.

Lemma distance_0 a b d : distance (Some a) (Some b) (Some d) -> (d = 0 <-> same_or_turn a b).
Proof.
  cbn [distance]. intros (d' & E & N & F). injection E as <-.
  destruct (Rle_or_lt (Rabs (a - b)) 360) as [L|L].
  - specialize (N L). destruct N as [[k Ek] M]. split.
    + intros ->. symmetry in Ek. assert (Z : a - b + IZR k * 360 = 0) by (destruct (Req_dec (a - b + IZR k * 360) 0) as [H|H]; [exact H|apply Rabs_no_R0 in H; lra]).
      assert (K : (Z.abs k <= 1)%Z).
      { apply le_IZR. rewrite abs_IZR. replace (a - b) with (- (IZR k * 360)) in L by lra.
        rewrite Rabs_Ropp, Rabs_mult, (Rabs_pos_eq 360) in L by lra. lra. }
      assert (C : (k = 0 \/ k = 1 \/ k = -1)%Z) by lia. unfold same_or_turn.
      destruct C as [->|[->| ->]]; [left; lra|right; right; lra|right; left; lra].
    + intros S. assert (P : 0 <= d) by (rewrite Ek; apply Rabs_pos). apply Rle_antisym; [|exact P].
      destruct S as [->|[->| ->]].
      * specialize (M 0%Z). rewrite Rmult_0_l, Rplus_0_r, Rminus_eq_0, Rabs_R0 in M. exact M.
      * specialize (M (-1)%Z). replace (b + 360 - b + -1 * 360) with 0 in M by ring. rewrite Rabs_R0 in M. exact M.
      * specialize (M 1%Z). replace (b - 360 - b + 1 * 360) with 0 in M by ring. rewrite Rabs_R0 in M. exact M.
  - rewrite (F L). split; [intros; lra|]. intros S. exfalso.
    destruct S as [->|[->| ->]]; [rewrite Rminus_eq_0, Rabs_R0 in L|replace (b + 360 - b) with 360 in L by ring; rewrite Rabs_pos_eq in L|replace (b - 360 - b) with (-360) in L by ring; rewrite Rabs_left in L]; lra.
Qed.

Lemma squares_0 l : sum (map (fun x => x ^ 2) l) = 0 <-> Forall (fun x => x = 0) l.
Proof.
  assert (P : forall m, 0 <= sum (map (fun x : R => x ^ 2) m)).
  { induction m as [|x m IH]; cbn [map sum]; [lra|]. pose proof (pow2_ge_0 x). lra. }
  induction l as [|x l IH]; cbn [map sum].
  - split; [constructor|reflexivity].
  - specialize (P l). pose proof (pow2_ge_0 x) as Q. split.
    + intros H. constructor; [|apply IH; lra]. apply Rsqr_0_uniq. unfold Rsqr. replace (x * x) with (x ^ 2) by ring. lra.
    + intros H. inversion H; subst. rewrite (proj2 IH) by auto. ring.
Qed.
Lemma squares_pos l : 0 <= sum (map (fun x : R => x ^ 2) l).
Proof. induction l as [|x m IH]; cbn [map sum]; [lra|]. pose proof (pow2_ge_0 x). lra. Qed.

Lemma minus_0 a : forall b, List.length a = List.length b -> (Forall (fun x => x = 0) (map2 Rminus a b) <-> b = a).
Proof.
  induction a as [|x a IH]; intros [|y b] L; try discriminate; cbn [map2].
  - split; auto.
  - injection L as L. split.
    + intros H. inversion H; subst. f_equal; [lra|apply IH; auto].
    + intros E. injection E as -> E. constructor; [lra|]. apply IH; auto.
Qed.

Lemma distances_0 delta : forall dm ds, List.length delta = List.length dm -> distances delta dm ds ->
  (Forall (fun x => x = 0) ds <-> Forall2 same_or_turn delta dm).
Proof.
  induction delta as [|a delta IH]; intros [|b dm] ds L [L2 D]; try discriminate.
  - destruct ds; [|discriminate]. split; constructor.
  - destruct ds as [|d ds]; [discriminate|]. injection L as L. cbn in L2. injection L2 as L2.
    destruct (D 0%nat a b eq_refl eq_refl) as (d' & E & Hd). cbn in E. injection E as <-.
    assert (D' : distances delta dm ds) by (split; [exact L2|intros i u w U W; exact (D (S i) u w U W)]).
    specialize (IH dm ds L D'). split; intros H; inversion H; subst; constructor; try (apply IH; assumption).
    + apply (distance_0 _ _ _ Hd). reflexivity.
    + apply (distance_0 _ _ _ Hd). assumption.
Qed.

Section Fit.
Context (sy : system) (o : objective) (st st1 : state) (v : option (list R)) (sel : list point) (X : list (R * R)) (pm dm psi delta : list R).
Context (HD : has_data sy o sel X) (Epm : map p_psi sel = map Some pm) (Edm : map p_delta sel = map Some dm).
Context (HS : setp sy o v st = (Ok tt, st1)) (HP : predicts sy st1 (ob_model o) X (map Some psi) (map Some delta)).

Theorem perfect_offset v' c st2 : setp sy o v' st = (Ok tt, st2) -> moved_offset sy (ob_model o) c st1 st2 ->
  (fst (chisqr sy o v' st) = Ok (Some 0) <-> pm = psi /\ Forall2 (fun a b => same_or_turn (a + c) b) delta dm).
Proof.
  intros S2 MV. pose proof (other_offset sy o st st1 X psi delta HP v' c st2 S2 MV) as P2.
  destruct (lengths sy o st st1 v sel X pm dm psi delta HD Epm Edm HS HP) as (L1 & L2 & L3 & L4).
  destruct (chisqr_value sy o st st2 v' sel X pm dm psi _ HD Epm Edm S2 P2) as (ds & D & _ & C). rewrite C.
  pose proof (squares_pos (map2 Rminus psi pm)) as Q1. pose proof (squares_pos ds) as Q2.
  assert (LL : List.length (map (fun x => x + c) delta) = List.length dm) by (rewrite map_length; congruence).
  pose proof (distances_0 _ dm ds LL D) as K.
  assert (K' : Forall2 same_or_turn (map (fun x => x + c) delta) dm <-> Forall2 (fun a b => same_or_turn (a + c) b) delta dm).
  { clear. revert dm. induction delta as [|a l IH]; intros [|b dm]; cbn [map]; split; intros H; inversion H; subst; constructor; auto; apply IH; auto. }
  rewrite <- K', <- K, <- squares_0.
  assert (LM : List.length psi = List.length pm) by congruence. rewrite <- (minus_0 psi pm LM), <- squares_0. split.
  - intros E. assert (E' : sum (map (fun x => x ^ 2) (map2 Rminus psi pm)) + sum (map (fun x => x ^ 2) ds) = 0) by congruence. split; lra.
  - intros [-> ->]. rewrite Rplus_0_l. reflexivity.
Qed.

(** two offsets that both fit perfectly are the same up to whole turns; within one turn there is only one *)
Theorem perfect_unique v1 c1 t1 v2 c2 t2 : (0 < List.length sel)%nat ->
  setp sy o v1 st = (Ok tt, t1) -> moved_offset sy (ob_model o) c1 st1 t1 ->
  setp sy o v2 st = (Ok tt, t2) -> moved_offset sy (ob_model o) c2 st1 t2 ->
  fst (chisqr sy o v1 st) = Ok (Some 0) -> fst (chisqr sy o v2 st) = Ok (Some 0) ->
  (exists k : Z, c1 - c2 = IZR k * 360) /\ (Rabs (c1 - c2) < 360 -> c1 = c2).
Proof.
  intros NE S1 M1 S2 M2 E1 E2. apply (perfect_offset v1 c1 t1 S1 M1) in E1. apply (perfect_offset v2 c2 t2 S2 M2) in E2.
  destruct (lengths sy o st st1 v sel X pm dm psi delta HD Epm Edm HS HP) as (L1 & L2 & L3 & L4).
  destruct E1 as [_ E1], E2 as [_ E2]. destruct delta as [|a l]; [cbn in L4; lia|].
  inversion E1 as [|? b ? ? A1 _]; subst. inversion E2 as [|? ? ? ? A2 _]; subst.
  assert (K : exists k : Z, c1 - c2 = IZR k * 360).
  { unfold same_or_turn in A1, A2. destruct A1 as [A1|[A1|A1]], A2 as [A2|[A2|A2]];
      first [exists 0%Z; lra|exists 1%Z; lra|exists (-1)%Z; lra|exists 2%Z; lra|exists (-2)%Z; lra]. }
  split; [exact K|]. intros B. destruct K as [k K]. rewrite K, Rabs_mult, (Rabs_pos_eq 360) in B by lra.
  assert (Z : (Z.abs k < 1)%Z) by (apply lt_IZR; rewrite abs_IZR; lra).
  assert (k = 0%Z) by lia. subst. lra.
Qed.

(** a perfect offset exists only if the errors in delta of any two points differ by whole turns *)
Theorem perfect_possible v' c st2 i j ei ej : setp sy o v' st = (Ok tt, st2) -> moved_offset sy (ob_model o) c st1 st2 ->
  fst (chisqr sy o v' st) = Ok (Some 0) -> nth_error (errors dm delta) i = Some ei -> nth_error (errors dm delta) j = Some ej ->
  exists k : Z, ei - ej = IZR k * 360.
Proof.
  intros S M E Hi Hj. apply (perfect_offset v' c st2 S M) in E as [_ E].
  assert (G : forall i e, nth_error (errors dm delta) i = Some e -> e - c = 0 \/ e - c = 360 \/ e - c = -360).
  { clear - E. intros i e. unfold errors. revert i. induction E as [|a b l m H F IH]; intros [|i]; cbn [map2 nth_error]; try discriminate.
    - intros H'. injection H' as <-. unfold same_or_turn in H. destruct H as [H|[H|H]]; lra.
    - apply IH. }
  pose proof (G i ei Hi) as A1. pose proof (G j ej Hj) as A2.
  destruct A1 as [A1|[A1|A1]], A2 as [A2|[A2|A2]];
    first [exists 0%Z; lra|exists 1%Z; lra|exists (-1)%Z; lra|exists 2%Z; lra|exists (-2)%Z; lra].
Qed.
End Fit.
