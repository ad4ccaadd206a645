(** * An offset in the data is absorbed by delta_offset; where the mean is not the best *)

Require Import Reals List Bool Lra Lia ZArith.
From Verif Require Import Base M_disp M_struct M_model M_data M_objective Spec_data P_data Spec_objective P_objective P_objective2 P_objective3 Spec_round P_round P_round2
  Spec_offset P_offset P_offset2.
Import ListNotations.
Open Scope list_scope.
Open Scope R_scope.

Lemma distance_fun a b r r' : distance a b r -> distance a b r' -> r = r'.
Proof.
  destruct a as [x|], b as [y|]; cbn [distance]; try congruence. intros (d & -> & H1 & H2) (d' & -> & H1' & H2'). f_equal.
  destruct (Rle_lt_dec (Rabs (x - y)) 360) as [L|L].
  - destruct (H1 L) as [[k Ek] M]. destruct (H1' L) as [[k' Ek'] M']. apply Rle_antisym; [rewrite Ek'; apply M|rewrite Ek; apply M'].
  - rewrite (H2 L), (H2' L). reflexivity.
Qed.

Lemma distance_shift c a b r : distance a b r -> distance (omap (fun x => x + c) a) (omap (fun x => x + c) b) r.
Proof.
  destruct a as [x|], b as [y|]; cbn [distance omap]; auto. intros (d & -> & H1 & H2). exists d. split; [reflexivity|].
  assert (E : x + c - (y + c) = x - y) by ring. rewrite E. split; [|exact H2]. intros L. destruct (H1 L) as [[k Hk] M]. unfold circle_distance. rewrite E.
  split; [exists k; exact Hk|exact M].
Qed.

Lemma chisqr_of_residuals sy sy' o o' v v' st st' r : fst (residuals sy o v st) = Ok r -> fst (residuals sy' o' v' st') = Ok r ->
  fst (chisqr sy o v st) = fst (chisqr sy' o' v' st').
Proof.
  intros E E'. destruct (chisqr_spec sy o v st) as (C1 & C2 & _). destruct (chisqr_spec sy' o' v' st') as (C1' & C2' & _).
  assert (D : In None r \/ exists l, r = map Some l).
  { clear. induction r as [|[x|] r [IH|[l ->]]]; [right; exists []; reflexivity|left; right; exact IH|right; exists (x :: l); reflexivity|left; left; reflexivity..]. }
  destruct D as [D|[l ->]]; [rewrite (C2 _ E D), (C2' _ E' D); reflexivity|rewrite (C1 _ E), (C1' _ E'); reflexivity].
Qed.

Theorem offset_absorbed sy h' o o' v v' st st' st1 st1' sel sel' X psi delta c :
  let sy' := with_arrays sy h' in
  has_data sy o sel X -> has_data sy' o' sel' X -> map p_psi sel' = map p_psi sel -> map p_delta sel' = shifted c (map p_delta sel) ->
  ob_model o' = ob_model o -> setp sy o v st = (Ok tt, st1) -> setp sy' o' v' st' = (Ok tt, st1') ->
  moved_offset sy (ob_model o) c st1 st1' -> predicts sy st1 (ob_model o) X psi delta ->
  exists r, fst (residuals sy o v st) = Ok r /\ fst (residuals sy' o' v' st') = Ok r /\ fst (chisqr sy o v st) = fst (chisqr sy' o' v' st').
Proof.
  intros sy' HD HD' Ep Ed EM HS HS' MV HP.
  assert (HP' : predicts sy' st1' (ob_model o') X psi (shifted c delta)) by (rewrite EM; exact (prediction_moves _ _ _ _ _ _ _ _ MV HP)).
  destruct (residuals_spec sy o v st st1 _ X _ _ HD HS HP) as (rp & rd & E & E1 & E2 & E3 & E4 & N).
  destruct (residuals_spec sy' o' v' st' st1' _ X _ _ HD' HS' HP') as (rp' & rd' & E' & E1' & E2' & E3' & E4' & N').
  assert (LS : List.length sel' = List.length sel) by (apply (f_equal (@List.length _)) in Ep; rewrite !map_length in Ep; exact Ep).
  assert (AT : forall i, (i < List.length sel)%nat -> nth_error rp i = nth_error rp' i /\ nth_error rd i = nth_error rd' i).
  { intros i Hi. destruct (nth_error sel i) as [x|] eqn:Hx; [|apply nth_error_None in Hx; lia].
    destruct (nth_error sel' i) as [x'|] eqn:Hx'; [|apply nth_error_None in Hx'; lia].
    destruct (nth_error psi i) as [p|] eqn:Hp; [|apply nth_error_None in Hp; lia].
    destruct (nth_error delta i) as [d|] eqn:Hd; [|apply nth_error_None in Hd; lia].
    assert (P1 : p_psi x' = p_psi x). { pose proof (map_nth_error p_psi _ _ Hx') as Q. rewrite Ep, (map_nth_error p_psi _ _ Hx) in Q. congruence. }
    assert (P2 : p_delta x' = omap (fun y => y + c) (p_delta x)).
    { pose proof (map_nth_error p_delta _ _ Hx') as Q. rewrite Ed in Q. unfold shifted in Q. rewrite (map_nth_error _ _ _ (map_nth_error p_delta _ _ Hx)) in Q. congruence. }
    assert (Hd' : nth_error (shifted c delta) i = Some (omap (fun y => y + c) d)) by (apply map_nth_error; exact Hd).
    destruct (N i x p d Hx Hp Hd) as (a & b & A1 & A2 & B1 & B2). destruct (N' i x' p _ Hx' Hp Hd') as (a' & b' & A1' & A2' & B1' & B2').
    rewrite P1 in A2'. rewrite P2 in B2'. apply (distance_shift c) in B2. rewrite A1, A1', B1, B1'. rewrite (distance_fun _ _ _ _ B2 B2').
    split; [|reflexivity]. destruct p, (p_psi x); cbn in A2, A2'; congruence. }
  assert (EX : forall l l' : list num, List.length l = List.length l' -> (forall i, (i < List.length l)%nat -> nth_error l i = nth_error l' i) -> l = l').
  { clear. induction l as [|x l IH]; intros [|y l'] L H; try discriminate; [reflexivity|]. f_equal.
    - specialize (H 0%nat ltac:(cbn; lia)). cbn in H. congruence.
    - apply IH; [cbn in L; lia|]. intros i Hi. apply (H (Datatypes.S i)). cbn. lia. }
  assert (ER : rp ++ rd = rp' ++ rd').
  { f_equal; apply EX; try congruence; intros i Hi; apply AT; congruence. }
  exists (rp ++ rd). split; [exact E|]. split; [rewrite ER; exact E'|]. apply (chisqr_of_residuals _ _ _ _ _ _ _ _ (rp ++ rd)); [exact E|rewrite ER; exact E'].
Qed.

(** ** glass, two points measured on both sides of 0 degrees *)
Definition heap_o (a b : R) : heap := [[Some 633; Some 633]; [Some 0; Some 0]; [Some 45; Some 45]; [Some a; Some b]].
Definition ob_o (l : option pid) : objective := Objective 0%nat data_r l true None.
Lemma data_o a b l : has_data (sys_r (heap_o a b)) (ob_o l) (simulated X_r [45; 45] [a; b]) X_r.
Proof.
  exists (simulated X_r [45; 45] [a; b]), [true; true]. split; [repeat split|]. split; [reflexivity|]. split; [repeat constructor|]. repeat constructor.
Qed.
Lemma setp_o a b x y : exists st1, setp (sys_r (heap_o a b)) (ob_o None) (Some [x]) (st_r y false) = (Ok tt, st1) /\
  value (sys_r (heap_o a b)) st1 1%nat = x /\ value (sys_r (heap_o a b)) st1 0%nat = 0 /\ st_flips st1 = [false] /\
  predicts (sys_r (heap_o a b)) st1 0%nat X_r (map Some [45; 45]) (map Some [180 + x; 180 + x]).
Proof.
  eexists. split; [reflexivity|]. split; [reflexivity|]. split; [reflexivity|]. split; [reflexivity|].
  match goal with |- predicts _ ?st _ _ _ _ => exact (model_r (heap_o a b) st eq_refl) end.
Qed.
Lemma moved_o a b x y st1 st2 : value (sys_r (heap_o a b)) st1 1%nat = x -> value (sys_r (heap_o a b)) st2 1%nat = y ->
  value (sys_r (heap_o a b)) st1 0%nat = 0 -> value (sys_r (heap_o a b)) st2 0%nat = 0 -> st_flips st1 = st_flips st2 ->
  moved_offset (sys_r (heap_o a b)) 0%nat (y - x) st1 st2.
Proof.
  intros H1 H2 H3 H4 H5. split; [|split].
  - intros p I. cbn in I. assert (p = 0%nat) by intuition. subst p. congruence.
  - change (mo_offset (the_model (sys_r (heap_o a b)) 0%nat)) with 1%nat. rewrite H1, H2. ring.
  - rewrite H5. reflexivity.
Qed.

Theorem mean_refuted : exists sy o st st1 v sel X pm dm psi delta v' c st2 v0 st0 x0 x,
  has_data sy o sel X /\ map p_psi sel = map Some pm /\ map p_delta sel = map Some dm /\
  setp sy o v st = (Ok tt, st1) /\ predicts sy st1 (ob_model o) X (map Some psi) (map Some delta) /\
  setp sy o v' st = (Ok tt, st2) /\ moved_offset sy (ob_model o) c st1 st2 /\
  setp sy o v0 st = (Ok tt, st0) /\ moved_offset sy (ob_model o) (mean (errors dm delta)) st1 st0 /\
  Forall2 (fun a b => Rabs (a + c - b) <= 360) delta dm /\
  fst (chisqr sy o v0 st) = Ok (Some x0) /\ fst (chisqr sy o v' st) = Ok (Some x) /\ x < x0.
Proof.
  destruct (setp_o 1 359 0 0) as (st1 & S1 & V1 & Z1 & F1 & P1). destruct (setp_o 1 359 180 0) as (st2 & S2 & V2 & Z2 & F2 & P2).
  pose proof (data_o 1 359 None) as D.
  assert (MN : mean (errors [1; 359] [180 + 0; 180 + 0]) = 0 - 0) by (unfold mean, errors; cbn; field).
  assert (M1 : moved_offset (sys_r (heap_o 1 359)) 0%nat (0 - 0) st1 st1) by (apply moved_o; auto).
  assert (M2 : moved_offset (sys_r (heap_o 1 359)) 0%nat (180 - 0) st1 st2) by (apply moved_o; congruence).
  pose proof (chisqr_offset (sys_r (heap_o 1 359)) (ob_o None) (st_r 0 false) st1 (Some [0]) _ X_r [45; 45] [1; 359] [45; 45] [180 + 0; 180 + 0]
    D eq_refl eq_refl S1 P1 (Some [0]) (0 - 0) st1 S1 M1 ltac:(constructor; [|constructor; [|constructor]]; apply Rabs_le; lra)) as C0.
  destruct (chisqr_value (sys_r (heap_o 1 359)) (ob_o None) (st_r 0 false) st2 (Some [180]) _ X_r [45; 45] [1; 359] [45; 45] [180 + 180; 180 + 180]
    D eq_refl eq_refl S2 P2) as (ds & [L DS] & _ & C).
  exists (sys_r (heap_o 1 359)), (ob_o None), (st_r 0 false), st1, (Some [0]), (simulated X_r [45; 45] [1; 359]), X_r, [45; 45], [1; 359], [45; 45], [180 + 0; 180 + 0],
    (Some [180]), (180 - 0), st2, (Some [0]), st1. rewrite MN. do 2 eexists.
  split; [exact D|]. split; [reflexivity|]. split; [reflexivity|]. split; [exact S1|]. split; [exact P1|]. split; [exact S2|]. split; [exact M2|].
  split; [exact S1|]. split; [exact M1|]. split; [constructor; [|constructor; [|constructor]]; apply Rabs_le; lra|]. split; [exact C0|]. split; [exact C|].
  destruct ds as [|d0 [|d1 [|]]]; try discriminate.
  destruct (DS 0%nat _ _ eq_refl eq_refl) as (e0 & H0 & Q0). destruct (DS 1%nat _ _ eq_refl eq_refl) as (e1 & H1 & Q1). cbn in H0, H1. injection H0 as <-. injection H1 as <-.
  cbn [distance] in Q0, Q1. destruct Q0 as (e0 & K0 & Q0 & _). destruct Q1 as (e1 & K1 & Q1 & _). injection K0 as <-. injection K1 as <-.
  specialize (Q0 ltac:(apply Rabs_le; lra)). specialize (Q1 ltac:(apply Rabs_le; lra)).
  assert (A0 : 0 <= d0 <= 1). { pose proof (circle_le _ _ _ Q0) as [T _]. split; [exact T|]. destruct Q0 as [_ M]. specialize (M (-1)%Z). rewrite Rabs_left in M; lra. }
  assert (A1 : 0 <= d1 <= 1). { pose proof (circle_le _ _ _ Q1) as [T U]. split; [exact T|]. rewrite Rabs_pos_eq in U; lra. }
  cbn. nra.
Qed.

(** ** with lnsigma the likelihood depends on the origin of delta *)
Lemma setp_l a b l x : exists st1, setp (sys_r (heap_o a b)) (ob_o (Some 2%nat)) (Some [l; x]) (st_r 0 false) = (Ok tt, st1) /\
  value (sys_r (heap_o a b)) st1 1%nat = x /\ value (sys_r (heap_o a b)) st1 0%nat = 0 /\ st_flips st1 = [false] /\ value (sys_r (heap_o a b)) st1 2%nat = l /\
  predicts (sys_r (heap_o a b)) st1 0%nat X_r (map Some [45; 45]) (map Some [180 + x; 180 + x]).
Proof.
  eexists. split; [reflexivity|]. split; [reflexivity|]. split; [reflexivity|]. split; [reflexivity|]. split; [reflexivity|].
  match goal with |- predicts _ ?st _ _ _ _ => exact (model_r (heap_o a b) st eq_refl) end.
Qed.

Lemma logl_l x : exists l, fst (logl (sys_r (heap_o (181 + x) (181 + x))) (ob_o (Some 2%nat)) (Some [0; x]) (st_r 0 false)) = Ok l /\
  l = - / (1 + (180 + x) ^ 2).
Proof.
  destruct (setp_l (181 + x) (181 + x) 0 x) as (st1 & S & V & Z & F & L & P).
  destruct (chisqr_value _ _ _ _ _ _ X_r [45; 45] [181 + x; 181 + x] [45; 45] [180 + x; 180 + x] (data_o _ _ (Some 2%nat)) eq_refl eq_refl S P) as (ds & [LD DS] & E & _).
  destruct (logl_spec _ _ _ _ _ _ X_r _ _ (data_o _ _ (Some 2%nat)) S P) as [LL _].
  specialize (LL ([45; 45] ++ [180 + x; 180 + x]) _ eq_refl E). eexists. split; [exact LL|].
  destruct ds as [|d0 [|d1 [|]]]; try discriminate.
  destruct (DS 0%nat _ _ eq_refl eq_refl) as (e0 & H0 & Q0). destruct (DS 1%nat _ _ eq_refl eq_refl) as (e1 & H1 & Q1). cbn in H0, H1. injection H0 as <-. injection H1 as <-.
  cbn [distance] in Q0, Q1. destruct Q0 as (e0 & K0 & Q0 & _). destruct Q1 as (e1 & K1 & Q1 & _). injection K0 as <-. injection K1 as <-.
  assert (A : Rabs (180 + x - (181 + x)) = 1). { replace (180 + x - (181 + x)) with (-(1)) by ring. rewrite Rabs_Ropp. apply Rabs_R1. }
  pose proof (circle_near _ _ _ (Q0 ltac:(lra)) ltac:(lra)) as B0. pose proof (circle_near _ _ _ (Q1 ltac:(lra)) ltac:(lra)) as B1. rewrite A in B0, B1. subst d0 d1.
  unfold term, variance. cbn [ob_o ob_lnsigma ob_data ds_weighted data_r andb combine map map2 sum app fst snd]. rewrite L.
  replace (2 * 0) with 0 by ring. rewrite exp_0. field. pose proof (pow2_ge_0 (180 + x)). lra.
Qed.

Theorem lnsigma_refuted : exists sy h' o v v' st st1 st1' sel sel' X psi delta c l l',
  let sy' := with_arrays sy h' in
  has_data sy o sel X /\ has_data sy' o sel' X /\ map p_psi sel' = map p_psi sel /\ map p_delta sel' = shifted c (map p_delta sel) /\
  setp sy o v st = (Ok tt, st1) /\ setp sy' o v' st = (Ok tt, st1') /\
  moved_offset sy (ob_model o) c st1 st1' /\ predicts sy st1 (ob_model o) X psi delta /\
  fst (logl sy o v st) = Ok l /\ fst (logl sy' o v' st) = Ok l' /\ l <> l'.
Proof.
  destruct (logl_l 0) as (l & L & E). destruct (logl_l 10) as (l' & L' & E').
  destruct (setp_l (181 + 0) (181 + 0) 0 0) as (st1 & S & V & Z & F & _ & P). destruct (setp_l (181 + 10) (181 + 10) 0 10) as (st2 & S2 & V2 & Z2 & F2 & _ & P2).
  exists (sys_r (heap_o (181 + 0) (181 + 0))), (heap_o (181 + 10) (181 + 10)), (ob_o (Some 2%nat)), (Some [0; 0]), (Some [0; 10]), (st_r 0 false), st1, st2,
    (simulated X_r [45; 45] [181 + 0; 181 + 0]), (simulated X_r [45; 45] [181 + 10; 181 + 10]), X_r, (map Some [45; 45]), (map Some [180 + 0; 180 + 0]), (10 - 0), l, l'.
  change (with_arrays (sys_r (heap_o (181 + 0) (181 + 0))) (heap_o (181 + 10) (181 + 10))) with (sys_r (heap_o (181 + 10) (181 + 10))). cbv zeta.
  split; [apply data_o|]. split; [apply data_o|]. split; [reflexivity|].
  split. { cbn. replace (181 + 0 + (10 - 0)) with (181 + 10) by ring. reflexivity. }
  split; [exact S|]. split; [exact S2|]. split; [apply moved_o; auto; congruence|]. split; [exact P|]. split; [exact L|]. split; [exact L'|].
  subst l l'. intros H. apply Ropp_eq_compat in H. rewrite !Ropp_involutive in H. apply (f_equal Rinv) in H. rewrite !Rinv_inv in H. nra.
Qed.
