(** * Proofs about the likelihood with unusual columns *)

Require Import Reals List Bool ZArith String Lra Lia.
From Coquelicot Require Import Complex.
From Verif Require Import Base Cplx M_tmm M_ema M_disp M_struct M_model M_data M_objective M_anyfit M_anyfit2
  P_struct P_struct2 P_model P_model2 Spec_data P_data Spec_objective P_objective P_objective2 P_objective3 Spec_anyfit P_anyfit P_anyfit2 Spec_anyfit2.
Import ListNotations.
Open Scope list_scope.
Open Scope R_scope.

Lemma all_some_app a b : all_some (a ++ b) = match all_some a, all_some b with Some x, Some y => Some (x ++ y) | _, _ => None end.
Proof.
  induction a as [|x a IH]; [cbn [app]; cbn; destruct (all_some b); reflexivity|].
  cbn [app]. rewrite !all_some_cons, IH. destruct x as [x|]; [|reflexivity].
  destruct (all_some a); [|reflexivity]. destruct (all_some b); reflexivity.
Qed.
Lemma Rsum_app a b : Rsum (a ++ b) = Rsum a + Rsum b.
Proof. unfold Rsum. induction a as [|x a IH]; cbn [app fold_right]; [ring|]. rewrite IH. ring. Qed.
Lemma map2_app {A B D} (f : A -> B -> D) a a' : forall b b', List.length a = List.length b ->
  map2 f (a ++ a') (b ++ b') = map2 f a b ++ map2 f a' b'.
Proof.
  induction a as [|x a IH]; intros [|y b] b' L; try discriminate L; [reflexivity|]. cbn. f_equal. apply IH. now injection L.
Qed.

Definition var_of (s : option R) (m : num) : num :=
  match s with Some s => omap (fun m => 1 * 1 + exp (2 * s) * m * m) m | None => Some 1 end.
Definition dist (a b : num) : num := olift2 (fun x y => circular_distance x y 360) a b.
Definition psi_term w s (pd : num * num) (x : point) : num := logl_term w (var_of s (fst pd)) (olift2 Rminus (fst pd) (p_psi x)).
Definition delta_term w s (pd : num * num) (x : point) : num := logl_term w (var_of s (snd pd)) (dist (snd pd) (p_delta x)).

Lemma array_value w s pds sel : List.length pds = List.length sel ->
  logl_array w s (map fst pds) (map snd pds)
    (A1 (map2 (olift2 Rminus) (map fst pds) (map p_psi sel) ++ map2 dist (map snd pds) (map p_delta sel))) =
  Ok (map2 (psi_term w s) pds sel ++ map2 (delta_term w s) pds sel).
Proof.
  intros L. unfold logl_array. destruct s as [s|].
  - rewrite map_app, map2_app.
    + f_equal. f_equal; revert sel L; induction pds as [|pd pds IH]; intros [|x sel] L; try discriminate L; try reflexivity;
        cbn; f_equal; apply IH; now injection L.
    + rewrite map_length, map2_length, !map_length. cbn. lia.
  - rewrite map_app. f_equal. f_equal; revert sel L; induction pds as [|pd pds IH]; intros [|x sel] L; try discriminate L; try reflexivity;
        cbn; f_equal; apply IH; now injection L.
Qed.

Lemma var_addend w s m r : logl_term w (var_of s (Some m)) (Some r) = Some (addend w s m r).
Proof.
  unfold logl_term, var_of, addend. destruct s as [s|]; cbn [omap olift2].
  - replace (1 * 1 + exp (2 * s) * m * m) with (1 + exp (2 * s) * m ^ 2) by ring. reflexivity.
  - rewrite Rplus_0_r. reflexivity.
Qed.
(** a term that is a number comes from numbers; a calculated nan gives nan residuals *)
Lemma term_inv w s (m y : num) (f : R -> R -> R) t : logl_term w (var_of s m) (olift2 f m y) = Some t ->
  exists a b, m = Some a /\ y = Some b /\ t = addend w s a (f a b).
Proof.
  destruct m as [a|]; [|cbn; unfold logl_term; destruct (var_of s None); discriminate].
  destruct y as [b|]; [|unfold logl_term; cbn [olift2]; destruct (var_of s (Some a)); discriminate].
  cbn [olift2]. rewrite var_addend. intros E. injection E as <-. eauto.
Qed.

Lemma terms_points (cal : R * R -> num * num -> Prop) w s sel : forall pds, Forall2 (value_at cal) (map (fun x => (p_wav x, p_aoi x)) sel) pds -> forall l,
  all_some (map2 (psi_term w s) pds sel ++ map2 (delta_term w s) pds sel) = Some l ->
  exists ts, Forall2 (contributes cal w s) sel ts /\ Rsum l = total ts.
Proof.
  induction sel as [|x sel IH]; intros pds F l E.
  - cbn in F. inversion F; subst. cbn in E. injection E as <-. exists []. split; [constructor|reflexivity].
  - cbn [map] in F. inversion F as [|? pd ? pds' V F']; subst. cbn [map2 app] in E.
    rewrite all_some_cons, all_some_app, all_some_cons in E.
    destruct (psi_term w s pd x) as [tp|] eqn:P; [|discriminate].
    destruct (all_some (map2 (psi_term w s) pds' sel)) as [l1|] eqn:A1; [|discriminate].
    destruct (delta_term w s pd x) as [td|] eqn:D; [|discriminate].
    destruct (all_some (map2 (delta_term w s) pds' sel)) as [l2|] eqn:A2; [|discriminate].
    injection E as <-.
    destruct (IH pds' F' (l1 ++ l2)) as (ts & G & S); [rewrite all_some_app, A1, A2; reflexivity|].
    destruct (term_inv _ _ _ _ _ _ P) as (p & p0 & E1 & E2 & ->). destruct (term_inv _ _ _ _ _ _ D) as (d & d0 & E3 & E4 & ->).
    exists ((addend w s p (p - p0) + addend w s d (circular_distance d d0 360)) :: ts). split.
    + constructor; auto. exists p, d, (p - p0), (circular_distance d d0 360).
      assert (pd = (Some p, Some d)) by (destruct pd; cbn in *; subst; reflexivity). subst pd.
      split; [exact V|]. split; [|reflexivity]. rewrite E2, E4. split.
      * exact (minus_nums (Some p) (Some p0)).
      * exact (circ_distance_nums (Some d) (Some d0)).
    + cbn [total fold_right]. fold (total ts). rewrite <- S. cbn [Rsum fold_right]. fold (Rsum (l1 ++ (addend w s d (circular_distance d d0 360)) :: l2)).
      rewrite !Rsum_app. cbn [Rsum fold_right]. fold (Rsum l2). ring.
Qed.
Lemma minus_num a b r : minus (Some a) b (Some r) -> exists y, b = Some y /\ r = a - y.
Proof. unfold minus. destruct b as [y|]; [|discriminate]. intros E. injection E as ->. eauto. Qed.
Lemma distance_num a b r : distance (Some a) b (Some r) -> exists y, b = Some y /\ r = circular_distance a y 360.
Proof.
  intros H. pose proof (circ_distance_nums (Some a) b) as K. pose proof (distance_fun _ _ _ _ H K) as E.
  destruct b as [y|]; [|discriminate E]. cbn in E. injection E as ->. eauto.
Qed.
Lemma points_terms (cal : R * R -> num * num -> Prop) w s sel : forall ts, Forall2 (contributes cal w s) sel ts ->
  exists pds l, Forall2 (value_at cal) (map (fun x => (p_wav x, p_aoi x)) sel) pds /\
  all_some (map2 (psi_term w s) pds sel ++ map2 (delta_term w s) pds sel) = Some l /\ Rsum l = total ts.
Proof.
  induction sel as [|x sel IH]; intros ts F; inversion F as [|? t ? ts' C F']; subst.
  - exists [], []. split; [constructor|]. split; reflexivity.
  - destruct (IH ts' F') as (pds & l & G & A & S). destruct C as (p & d & a & b & V & (M & D) & ->).
    destruct (minus_num _ _ _ M) as (p0 & E1 & ->). destruct (distance_num _ _ _ D) as (d0 & E2 & ->).
    rewrite all_some_app in A.
    destruct (all_some (map2 (psi_term w s) pds sel)) as [l1|] eqn:A1; [|discriminate].
    destruct (all_some (map2 (delta_term w s) pds sel)) as [l2|] eqn:A2; [|discriminate]. injection A as <-.
    exists ((Some p, Some d) :: pds), (addend w s p (p - p0) :: l1 ++ addend w s d (circular_distance d d0 360) :: l2).
    split; [constructor; auto|]. split.
    + cbn [map2 app]. rewrite all_some_cons, all_some_app, all_some_cons, A1, A2.
      unfold psi_term, delta_term, dist. rewrite E1, E2. cbn [fst snd olift2]. rewrite !var_addend. reflexivity.
    + cbn [total fold_right]. fold (total ts'). rewrite <- S. cbn [Rsum fold_right].
      fold (Rsum (l1 ++ (addend w s d (circular_distance d d0 360)) :: l2)).
      rewrite !Rsum_app. cbn [Rsum fold_right]. fold (Rsum l2). ring.
Qed.

Lemma split_pairs {A B} (l : list A) (m : list B) : List.length l = List.length m -> exists ps, l = map fst ps /\ m = map snd ps /\ combine l m = ps.
Proof.
  revert m. induction l as [|x l IH]; intros [|y m] L; try discriminate L; [exists []; auto|].
  destruct (IH m ltac:(now injection L)) as (ps & E1 & E2 & E3). exists ((x, y) :: ps). cbn. rewrite <- E1, <- E2, E3. auto.
Qed.

(** ** logl, point by point *)
Definition calc sy st o wa pd := predicts sy st (ob_model o) [wa] [fst pd] [snd pd].
Lemma value_at_iff (P Q : R * R -> num * num -> Prop) x pd : (forall wa pd, P wa pd <-> Q wa pd) -> value_at P x pd -> value_at Q x pd.
Proof. intros H. unfold value_at. destruct x as [[w|] [a|]]; auto. apply H. Qed.
Lemma contributes_iff (P Q : R * R -> num * num -> Prop) w s x t : (forall wa pd, P wa pd <-> Q wa pd) -> contributes P w s x t -> contributes Q w s x t.
Proof.
  intros H (p & d & a & b & V & M & E). exists p, d, a, b. split; [exact (value_at_iff P Q _ _ H V)|]. auto.
Qed.

Section Points.
Context (sy : system) (o : objective) (v : option (list R)) (st st1 : state) (pts : list point) (m : list bool) (sel : list point).
Context (H : holds (sy_heap sy) (ob_data o) pts) (Hm : ds_mask (ob_data o) = MBool m) (K : kept m pts sel)
  (S : setp sy o v st = (Ok tt, st1)).
Let s := option_map (value sy st1) (ob_lnsigma o).
Let X := map (fun x => (p_wav x, p_aoi x)) sel.
Let E st := model_any (sy_ext sy) (current sy st (ob_model o)) (value sy st (mo_offset (the_model sy (ob_model o))))
                       (nth (ob_model o) (st_flips st) false) X.

Lemma combine_cols : combine (map p_wav sel) (map p_aoi sel) = X.
Proof. unfold X. clear. induction sel; cbn; f_equal; auto. Qed.

(** what logl is, after the model returned *)
Lemma logl_unfold : logl_any sy o v st =
  rbind (E st1) (fun '(psi, delta) =>
    match all_some (map2 (psi_term (weighted o) s) (combine psi delta) sel ++ map2 (delta_term (weighted o) s) (combine psi delta) sel) with
    | Some l => Ok (- (1 / 2) * Rsum l) | None => Raise RuntimeError end).
Proof.
  destruct (getters _ _ _ _ _ H Hm K) as (_ & _ & _ & _ & G & _).
  unfold logl_any. rewrite S, G. unfold columns. cbn [rbind wavelength_aoi_any].
  rewrite !map_length, Nat.eqb_refl. cbn [rbind]. rewrite combine_cols. fold (E st1).
  destruct (E st1) as [[psi delta]|e] eqn:M; [|reflexivity]. cbn [rbind].
  destruct (any_points _ _ _ _ _ _ _ M) as (L1 & L2 & _). unfold X in L1, L2. rewrite map_length in L1, L2.
  assert (RA : residuals_any sy o None st1 = Ok (A1 (map2 (olift2 Rminus) psi (map p_psi sel) ++ map2 dist delta (map p_delta sel)))).
  { unfold residuals_any. cbn [setp]. rewrite G. unfold columns. cbn [rbind wavelength_aoi_any].
    rewrite !map_length, Nat.eqb_refl. cbn [rbind]. rewrite combine_cols. fold (E st1). rewrite M. cbn [rbind residual_array].
    unfold zip_columns. rewrite !map_length, L1, L2, Nat.eqb_refl. reflexivity. }
  rewrite RA. cbn [rbind]. destruct (split_pairs psi delta) as (pds & -> & -> & C); [lia|]. rewrite C.
  fold s. rewrite array_value by (rewrite map_length in L1; exact L1). reflexivity.
Qed.

Theorem logl_points L : logl_any sy o v st = Ok L ->
  (exists ts, Forall2 (contributes (calc sy st1 o) (weighted o) s) sel ts /\ L = - (1 / 2) * total ts) /\
  (In None (map p_wav sel) -> fst (one_wavelength (sy_ext sy) (current sy st1 (ob_model o)) (value sy st1 (mo_offset (the_model sy (ob_model o))))
                       (nth (ob_model o) (st_flips st1) false) 1 []) = Ok []).
Proof.
  rewrite logl_unfold. destruct (E st1) as [[psi delta]|e] eqn:M; [|discriminate]. cbn [rbind].
  destruct (any_points _ _ _ _ _ _ _ M) as (_ & _ & F & T).
  destruct (all_some _) as [l|] eqn:A; [|discriminate]. intros Q. injection Q as <-. split.
  - destruct (terms_points _ _ _ _ _ F l A) as (ts & C & Z). exists ts. rewrite Z. split; [|reflexivity].
    revert C. apply F2_impl. intros x t. apply contributes_iff. intros wa pd. apply single_predicts.
  - intros I. apply T. unfold X. rewrite map_map. exact I.
Qed.
Theorem logl_from_points ts : Forall2 (contributes (calc sy st1 o) (weighted o) s) sel ts ->
  (In None (map p_wav sel) -> fst (one_wavelength (sy_ext sy) (current sy st1 (ob_model o)) (value sy st1 (mo_offset (the_model sy (ob_model o))))
                       (nth (ob_model o) (st_flips st1) false) 1 []) = Ok []) ->
  logl_any sy o v st = Ok (- (1 / 2) * total ts).
Proof.
  intros F T. rewrite logl_unfold.
  destruct (points_terms (single (sy_ext sy) (current sy st1 (ob_model o)) (value sy st1 (mo_offset (the_model sy (ob_model o))))
                       (nth (ob_model o) (st_flips st1) false)) (weighted o) s sel ts) as (pds & l & V & A & Z).
  { revert F. apply F2_impl. intros x t. apply contributes_iff. intros wa pd. symmetry. apply single_predicts. }
  assert (M : E st1 = Ok (map fst pds, map snd pds)).
  { apply any_from_points; [exact V|]. intros I. apply T. unfold X in I. rewrite map_map in I. exact I. }
  rewrite M. cbn [rbind].
  assert (C : combine (map fst pds) (map snd pds) = pds) by (clear; induction pds as [|[? ?] ? IH]; cbn; f_equal; auto).
  rewrite C, A, Z. reflexivity.
Qed.
End Points.

(** ** leaving out the points without a wavelength *)
Lemma addend_zero w s r : addend w s 0 r = (if w then ln (2 * PI) else 0) + r ^ 2.
Proof.
  unfold addend. assert (E : 1 + match s with Some s => exp (2 * s) * 0 ^ 2 | None => 0 end = 1) by (destruct s; ring).
  rewrite E, Rmult_1_r. unfold Rdiv. rewrite Rinv_1. destruct w; ring.
Qed.
Lemma contributes_none cal w s x t : p_wav x = None -> contributes cal w s x t -> lost w x t.
Proof.
  intros N (p & d & a & b & V & (M & D) & ->). rewrite N in V. cbn in V. injection V as -> ->.
  destruct (minus_num _ _ _ M) as (p0 & E1 & ->). destruct (distance_num _ _ _ D) as (d0 & E2 & B).
  exists p0, d0, b. split; [exact E1|]. split; [exact E2|]. split; [rewrite <- E2; exact D|].
  rewrite !addend_zero. destruct w; ring.
Qed.
Lemma split_points cal w s sel : forall ts, Forall2 (contributes cal w s) sel ts ->
  exists ts' cs, Forall2 (contributes cal w s) (filter has_wavelength sel) ts' /\
    Forall2 (lost w) (filter (fun x => negb (has_wavelength x)) sel) cs /\ total ts = total ts' + total cs.
Proof.
  induction sel as [|x sel IH]; intros ts F; inversion F as [|? t ? ts0 C F']; subst.
  - exists [], []. split; [constructor|]. split; [constructor|]. cbn. ring.
  - destruct (IH ts0 F') as (ts' & cs & G & Q & E). cbn [filter]. destruct (has_wavelength x) eqn:W; cbn [negb].
    + exists (t :: ts'), cs. split; [constructor; auto|]. split; auto. cbn. unfold total in E. rewrite E. unfold total. ring.
    + exists ts', (t :: cs). split; auto. split; [constructor; auto|].
      * apply (contributes_none cal w s); auto. unfold has_wavelength in W. destruct (p_wav x); [discriminate|reflexivity].
      * cbn. unfold total in E. rewrite E. unfold total. ring.
Qed.

Lemma lost_fun w x c c' : lost w x c -> lost w x c' -> c = c'.
Proof.
  intros (p & d & b & P & D & B & ->) (p' & d' & b' & P' & D' & B' & ->).
  assert (p = p') by (pose proof (eq_trans (eq_sym P) P') as Z; injection Z as ->; reflexivity).
  assert (d = d') by (pose proof (eq_trans (eq_sym D) D') as Z; injection Z as ->; reflexivity). subst.
  pose proof (distance_fun _ _ _ _ B B') as Z. injection Z as ->. reflexivity.
Qed.

(** o' is o with data from which these points are removed *)
Theorem logl_without sy o o' v st pts m sel pts' m' L :
  holds (sy_heap sy) (ob_data o) pts -> ds_mask (ob_data o) = MBool m -> kept m pts sel ->
  holds (sy_heap sy) (ob_data o') pts' -> ds_mask (ob_data o') = MBool m' -> kept m' pts' (filter has_wavelength sel) ->
  ob_model o' = ob_model o -> ob_lnsigma o' = ob_lnsigma o -> weighted o' = weighted o ->
  logl_any sy o v st = Ok L ->
  exists L' cs, logl_any sy o' v st = Ok L' /\
    Forall2 (lost (weighted o)) (filter (fun x => negb (has_wavelength x)) sel) cs /\ L = L' - total cs / 2.
Proof.
  intros H Hm K H' Hm' K' Em El Ew Q.
  destruct (setp sy o v st) as [[[]|e] st1] eqn:S; [|unfold logl_any in Q; rewrite S in Q; discriminate].
  assert (S' : setp sy o' v st = (Ok tt, st1)).
  { rewrite <- S. unfold setp, varying_parameters, parameters. rewrite Em, El. reflexivity. }
  destruct (logl_points sy o v st st1 pts m sel H Hm K S L Q) as ((ts & F & ->) & _).
  destruct (split_points _ _ _ _ _ F) as (ts' & cs & G & C & E).
  exists (- (1 / 2) * total ts'), cs. split; [|split; [exact C|rewrite E; field]].
  apply (logl_from_points sy o' v st st1 pts' m' (filter has_wavelength sel) H' Hm' K' S').
  - rewrite Ew, El. revert G. apply F2_impl. intros x t. apply contributes_iff. intros wa pd. unfold calc. rewrite Em. reflexivity.
  - intros I. exfalso. apply in_map_iff in I. destruct I as (x & Ex & I). apply filter_In in I. destruct I as [_ I].
    unfold has_wavelength in I. rewrite Ex in I. discriminate.
Qed.
