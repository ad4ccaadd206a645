(** * The likelihood with unusual columns: connection with logl, mask None, cases *)

Require Import Reals List Bool ZArith String Lra Lia.
From Coquelicot Require Import Complex.
From Verif Require Import Base Cplx M_tmm M_ema M_disp M_struct M_model M_data M_objective M_anyfit M_anyfit2
  P_struct P_struct2 P_model P_model2 Spec_data P_data Spec_objective P_objective P_objective2 P_objective3 Spec_anyfit P_anyfit P_anyfit2 Spec_anyfit2 P_anyfit3.
Import ListNotations.
Open Scope list_scope.
Open Scope R_scope.

Lemma one_any_forget ext s w off flip wav aoi : one_any ext (set_wavelength s w) off flip wav aoi = one_any ext s off flip wav aoi.
Proof. reflexivity. Qed.
Lemma model_any_forget ext s w off flip X : model_any ext (set_wavelength s w) off flip X = model_any ext s off flip X.
Proof.
  unfold model_any. destruct (np_unique (finite_part (map fst X))) as [|wav wavs]; cbn [any_loop].
  - rewrite nan_round_forget. reflexivity.
  - rewrite one_any_forget. reflexivity.
Qed.
Lemma model_any_state sy st st' m X : st_store st' = st_store st -> st_flips st' = st_flips st ->
  model_any (sy_ext sy) (current sy st' m) (value sy st' (mo_offset (the_model sy m))) (nth m (st_flips st') false) X =
  model_any (sy_ext sy) (current sy st m) (value sy st (mo_offset (the_model sy m))) (nth m (st_flips st) false) X.
Proof.
  intros E F. assert (V : value sy st' = value sy st) by (unfold value; rewrite E; reflexivity).
  unfold current. rewrite V, F.
  change (inst_structure (value sy st) (nth (mo_structure (the_model sy m)) (st_wavelengths st') None) (the_structure sy (mo_structure (the_model sy m))))
    with (set_wavelength (inst_structure (value sy st) (nth (mo_structure (the_model sy m)) (st_wavelengths st) None) (the_structure sy (mo_structure (the_model sy m))))
            (nth (mo_structure (the_model sy m)) (st_wavelengths st') None)).
  apply model_any_forget.
Qed.
Lemma residuals_any_state sy o st st' : st_store st' = st_store st -> st_flips st' = st_flips st ->
  residuals_any sy o None st' = residuals_any sy o None st.
Proof.
  intros E F. unfold residuals_any. cbn [setp].
  destruct (get_data (sy_heap sy) (ob_data o)) as [[[[w a] p] x]|e]; [|reflexivity]. cbn [rbind].
  destruct (wavelength_aoi_any w a) as [X|e]; [|reflexivity]. cbn [rbind]. rewrite (model_any_state sy st st' (ob_model o) X E F). reflexivity.
Qed.

Lemma evaluate_any sy o st psi delta p x st' : evaluate sy o st = (Ok (psi, delta, p, x), st') ->
  st_store st' = st_store st /\ st_flips st' = st_flips st /\
  exists w a, get_data (sy_heap sy) (ob_data o) = Ok (w, a, A1 p, A1 x) /\ exists X, wavelength_aoi_any w a = Ok X /\
  model_any (sy_ext sy) (current sy st (ob_model o)) (value sy st (mo_offset (the_model sy (ob_model o)))) (nth (ob_model o) (st_flips st) false) X = Ok (psi, delta).
Proof.
  unfold evaluate, bind at 1, lift at 1.
  destruct (get_data (sy_heap sy) (ob_data o)) as [[[[w a] p0] x0]|e]; [|discriminate].
  unfold bind at 1, lift at 1. unfold wavelength_aoi.
  destruct w as [w|w]; [|discriminate]. destruct a as [a|a]; [|discriminate].
  destruct (Nat.eqb (List.length w) (List.length a)) eqn:L; [|discriminate].
  destruct (mapM (fun x : num * num => olift2 pair (fst x) (snd x)) (combine w a)) as [X|] eqn:M; [|discriminate].
  assert (EX : combine w a = map (fun x : R * R => (Some (fst x), Some (snd x))) X).
  { clear L. revert w a X M. induction w as [|w0 w IH]; intros [|a0 a] X M; cbn in M; try (inversion M; reflexivity).
    destruct w0 as [w0|]; [|discriminate]. destruct a0 as [a0|]; [|discriminate]. cbn in M.
    destruct (mapM (fun x : num * num => olift2 pair (fst x) (snd x)) (combine w a)) as [X'|] eqn:M'; [|discriminate].
    cbn in M. inversion M; subst. cbn. f_equal. apply IH; auto. }
  unfold bind at 1, call_model.
  destruct (model (sy_ext sy) DFloat (current sy st (ob_model o)) (value sy st (mo_offset (the_model sy (ob_model o))))
         (nth (ob_model o) (st_flips st) false) X) as [[[psi' delta']|e] s'] eqn:ME; [|discriminate].
  unfold bind, lift, column, ret. destruct p0 as [p0|]; [|discriminate]. destruct x0 as [x0|]; [|discriminate].
  intros Q. injection Q as <- <- <- <- <-. split; [reflexivity|]. split; [reflexivity|].
  exists (A1 w), (A1 a). split; [reflexivity|]. exists (combine w a). split.
  - cbn [wavelength_aoi_any]. rewrite L. reflexivity.
  - rewrite EX, any_extends, ME. reflexivity.
Qed.

Lemma map2_const {A} (f : num -> A -> num) (l : list num) : forall r, List.length r = List.length l -> map2 f (map (fun _ => Some 1) l) r = map (f (Some 1)) r.
Proof. induction l as [|x l IH]; intros [|y r] L; try discriminate L; [reflexivity|]. cbn. f_equal. apply IH. now injection L. Qed.

Theorem logl_extend sy o v st r : fst (logl sy o v st) = Ok r -> logl_any sy o v st = Ok r.
Proof.
  unfold logl, logl_any, bind at 1. destruct (setp sy o v st) as [[[]|e] st1]; [|discriminate].
  unfold bind at 1. destruct (evaluate sy o st1) as [[[[[psi delta] p] x]|e] st2] eqn:E; [|discriminate].
  destruct (evaluate_any _ _ _ _ _ _ _ _ E) as (Es & Ef & w & a & G & X & W & M).
  rewrite G. cbn [rbind]. rewrite W. cbn [rbind]. rewrite M. cbn [rbind]. unfold bind.
  destruct (residuals sy o None st2) as [[res|e] st3] eqn:Q; [|discriminate].
  assert (RA : residuals_any sy o None st1 = Ok (A1 res)).
  { rewrite <- (residuals_any_state sy o st1 st2 Es Ef). apply residuals_extend. rewrite Q. reflexivity. }
  rewrite RA. cbn [rbind].
  assert (V : logl_array (weighted o) (option_map (value sy st1) (ob_lnsigma o)) psi delta (A1 res) =
              Ok (map2 (logl_term (weighted o)) (variances sy st2 o psi delta) res)).
  { assert (EV : value sy st2 = value sy st1) by (unfold value; rewrite Es; reflexivity).
    unfold logl_array, variances. rewrite EV. destruct (ob_lnsigma o); cbn [option_map]; [reflexivity|].
    rewrite map2_const; [reflexivity|].
    unfold residuals_any in RA. cbn [setp] in RA. rewrite G in RA. cbn [rbind] in RA. rewrite W in RA. cbn [rbind] in RA. rewrite M in RA.
    cbn [rbind residual_array] in RA.
    destruct (zip_columns (fun x y => circular_distance x y 360) delta x) as [de|] eqn:Z1; [|discriminate]. cbn [rbind] in RA.
    destruct (zip_columns Rminus psi p) as [pe|] eqn:Z2; [|discriminate]. cbn [rmap] in RA. injection RA as <-.
    apply zip_ok in Z1. apply zip_ok in Z2. rewrite !app_length. destruct Z1 as (_ & _ & ->). destruct Z2 as (_ & _ & ->). reflexivity. }
  rewrite V. cbn [rbind]. destruct (all_some _); cbn; congruence.
Qed.
Theorem logpost_extend sy o v st r : fst (logpost sy o v st) = Ok r -> logpost_any sy o v st = Ok r.
Proof.
  unfold logpost, logpost_any, bind at 1. destruct (setp sy o v st) as [[[]|e] st1]; [|discriminate].
  unfold bind at 1. assert (LS : snd (logp sy o None st1) = st1) by reflexivity.
  destruct (logp sy o None st1) as [[lp|e] st2]; [|discriminate]. cbn [snd] in LS. subst st2. cbn [fst rbind].
  destruct lp as [x|]; [|auto]. unfold bind. destruct (logl sy o None st1) as [[y|e] st3] eqn:L; [|discriminate].
  rewrite (logl_extend sy o None st1 y); [|rewrite L; reflexivity]. cbn. congruence.
Qed.

(** ** mask None: one point *)
Lemma logl_one sy o v st st1 x p d p0 d0 b : holds (sy_heap sy) (ob_data o) [x] -> ds_mask (ob_data o) = MNone ->
  setp sy o v st = (Ok tt, st1) -> p_psi x = Some p0 -> p_delta x = Some d0 -> distance (Some d) (Some d0) (Some b) ->
  model_any (sy_ext sy) (current sy st1 (ob_model o)) (value sy st1 (mo_offset (the_model sy (ob_model o))))
            (nth (ob_model o) (st_flips st1) false) [(p_wav x, p_aoi x)] = Ok ([Some p], [Some d]) ->
  match ob_lnsigma o with
  | None => logl_any sy o v st = Ok (- (1 / 2) * (addend (weighted o) None p (p - p0) + addend (weighted o) None d b))
  | Some s => if weighted o then logl_any sy o v st = Raise ValueError
      else let s := Some (value sy st1 s) in
           logl_any sy o v st = Ok (- (1 / 2) * ((addend false s p (p - p0) + addend false s d (p - p0)) + (addend false s p b + addend false s d b)))
  end.
Proof.
  intros H M S Ep Ed D MA.
  destruct (distance_num _ _ _ D) as (d1 & E1 & ->). injection E1 as <-.
  assert (RA : residuals_any sy o None st1 = Ok (A2 [[Some (p - p0)]; [Some (circular_distance d d0 360)]])).
  { unfold residuals_any. cbn [setp]. rewrite (none_columns _ _ _ H M) by discriminate. cbn [rbind wavelength_aoi_any map app].
    rewrite MA. cbn [rbind residual_array]. rewrite Ep, Ed. reflexivity. }
  assert (U : logl_any sy o v st = rbind (logl_array (weighted o) (option_map (value sy st1) (ob_lnsigma o)) [Some p] [Some d]
      (A2 [[Some (p - p0)]; [Some (circular_distance d d0 360)]])) (fun l => match all_some l with Some l => Ok (- (1 / 2) * Rsum l) | None => Raise RuntimeError end)).
  { unfold logl_any. rewrite S, (none_columns _ _ _ H M) by discriminate. cbn [rbind wavelength_aoi_any map app].
    rewrite MA. cbn [rbind]. rewrite RA. reflexivity. }
  rewrite U. destruct (ob_lnsigma o) as [s|]; cbn [option_map logl_array].
  - destruct (weighted o); [reflexivity|]. cbn [List.concat app flat_map map rbind].
    pose proof (fun m r => var_addend false (Some (value sy st1 s)) m r) as VA. cbn [var_of] in VA. rewrite !VA.
    cbn -[Rsum addend]. cbv zeta. f_equal. unfold Rsum. cbn [fold_right]. ring.
  - cbn [List.concat app map rbind]. pose proof (fun m r => var_addend (weighted o) None m r) as VA. cbn [var_of] in VA.
    rewrite (VA p), (VA d). cbn -[Rsum addend]. f_equal. unfold Rsum. cbn [fold_right]. ring.
Qed.

(** ** instances: glass in air at normal incidence *)
Lemma glass_current sy v st l x : sy_structures sy = [halves_t 1 (3 / 2)] -> sy_models sy = [ModelT 0%nat 1%nat] -> sy_params sy = ps_ex ->
  setp sy v (Some [l; x]) (st_g 0 0 None) = (Ok tt, st) -> varying_parameters sy v = [2; 1]%nat ->
  current sy st 0 = glass /\ value sy st (mo_offset (the_model sy 0)) = x /\ nth 0 (st_flips st) false = false /\ value sy st 2%nat = l.
Proof.
  intros E1 E2 E3 S V. unfold setp in S. rewrite V in S. cbn in S. inversion S; subst st; clear S.
  unfold current, the_model, the_structure, value. rewrite E1, E2, E3. repeat split.
Qed.
(** the first point has no wavelength; the columns of the second point alone follow *)
Definition heap_two (d : R) : heap := heap_n d ++ [[Some 633]; [Some 0]; [Some 45]; [Some 181]].
Definition ob_two (uw : bool) : objective := Objective 0%nat (data_n (MBool [true; true])) (Some 2%nat) uw None.
Definition ob_rest (uw : bool) : objective :=
  Objective 0%nat (DataSE 4%nat 5%nat 6%nat 7%nat (MBool [true]) false true None tab) (Some 2%nat) uw None.
Definition pt_two : point := (Some 633, Some 0, Some 45, Some 181).
Lemma two_contribute sy o l x d st uw : sy_structures sy = [halves_t 1 (3 / 2)] -> sy_models sy = [ModelT 0%nat 1%nat] -> sy_params sy = ps_ex ->
  ob_model o = 0%nat -> varying_parameters sy o = [2; 1]%nat -> setp sy o (Some [l; x]) (st_g 0 0 None) = (Ok tt, st) -> Rabs d <= 180 -> Rabs (x - 1) <= 180 ->
  Forall2 (contributes (calc sy st o) uw (Some l)) (pts_n d)
    [addend uw (Some l) 0 (-30) + addend uw (Some l) 0 (Rabs d); addend uw (Some l) 45 0 + addend uw (Some l) (180 + x) (Rabs (x - 1))].
Proof.
  intros E1 E2 E3 Em V S D X. destruct (glass_current sy o st l x E1 E2 E3 S V) as (Cu & Vo & Fl & _).
  constructor; [|constructor; [|constructor]].
  - exists 0, 0, (-30), (Rabs d). split; [reflexivity|]. split; [|reflexivity]. split.
    + pose proof (minus_nums (Some 0) (Some 30)) as K. cbn [olift2] in K. replace (0 - 30) with (-30) in K by ring. exact K.
    + pose proof (circ_distance_nums (Some 0) (Some d)) as K. cbn [olift2] in K. unfold circular_distance in K.
      replace (0 - d) with (- d) in K by ring. rewrite Rabs_Ropp, Rmin_left in K by lra. exact K.
  - exists 45, (180 + x), 0, (Rabs (x - 1)). split.
    + unfold calc. cbn [value_at p_wav p_aoi fst snd]. rewrite Em. apply (proj1 (single_predicts sy st 0 (633, 0) (Some 45, Some (180 + x)))).
      rewrite Cu, Vo, Fl. apply glass_model.
    + split; [|reflexivity]. split.
      * pose proof (minus_nums (Some 45) (Some 45)) as K. cbn [olift2] in K. replace (45 - 45) with 0 in K by ring. exact K.
      * pose proof (circ_distance_nums (Some (180 + x)) (Some 181)) as K. cbn [olift2] in K. unfold circular_distance in K.
        replace (180 + x - 181) with (x - 1) in K by ring. rewrite Rmin_left in K by lra. exact K.
Qed.
Lemma two_logl l x d uw : Rabs d <= 180 -> Rabs (x - 1) <= 180 -> let sy := sys_ex 1 (3 / 2) (heap_two d) in
  holds (sy_heap sy) (ob_data (ob_two uw)) (pts_n d) /\ kept [true; true] (pts_n d) (pts_n d) /\
  holds (sy_heap sy) (ob_data (ob_rest uw)) [pt_two] /\ kept [true] [pt_two] (filter has_wavelength (pts_n d)) /\
  exists L, logl_any sy (ob_two uw) (Some [l; x]) (st_g 0 0 None) = Ok L.
Proof.
  intros D X sy. split; [repeat split|]. split; [repeat constructor|]. split; [repeat split|]. split; [repeat constructor|].
  destruct (setp sy (ob_two uw) (Some [l; x]) (st_g 0 0 None)) as [r st] eqn:S.
  assert (r = Ok tt) by (cbn in S; inversion S; reflexivity). subst r.
  pose proof (two_contribute sy (ob_two uw) l x d st (weighted (ob_two uw)) eq_refl eq_refl eq_refl eq_refl eq_refl S D X) as F.
  destruct (glass_current sy (ob_two uw) st l x eq_refl eq_refl eq_refl S eq_refl) as (Cu & Vo & Fl & Vl).
  eexists. apply (logl_from_points sy (ob_two uw) _ _ st (pts_n d) [true; true] (pts_n d)).
  - repeat split.
  - reflexivity.
  - repeat constructor.
  - exact S.
  - cbn [ob_lnsigma ob_two option_map]. rewrite Vl. exact F.
  - intros _. cbn [ob_model ob_two]. rewrite Cu. apply glass_nil.
Qed.

(** one point, measured psi 44 *)
Definition sys_one : system := sys_ex 1 (3 / 2) [[Some 633]; [Some 0]; [Some 44]; [Some 180]].
Definition ob_one (mk : mask) (uw : bool) : objective := Objective 0%nat (DataSE 0%nat 1%nat 2%nat 3%nat mk false true None tab) (Some 2%nat) uw None.
Definition pt_one : point := (Some 633, Some 0, Some 44, Some 180).
Lemma one_facts mk uw : exists st, setp sys_one (ob_one mk uw) (Some [0; 0]) (st_g 0 0 None) = (Ok tt, st) /\
  model_any (sy_ext sys_one) (current sys_one st 0) (value sys_one st (mo_offset (the_model sys_one 0))) (nth 0 (st_flips st) false) [(Some 633, Some 0)] =
    Ok ([Some 45], [Some (180 + 0)]) /\ value sys_one st 2%nat = 0.
Proof.
  destruct (setp sys_one (ob_one mk uw) (Some [0; 0]) (st_g 0 0 None)) as [r st] eqn:S.
  assert (r = Ok tt) by (cbn in S; inversion S; reflexivity). subst r. exists st. split; [reflexivity|].
  destruct (glass_current sys_one (ob_one mk uw) st 0 0 eq_refl eq_refl eq_refl S eq_refl) as (Cu & Vo & Fl & Vl).
  split; [|exact Vl]. rewrite Cu, Vo, Fl.
  pose proof (any_extends (sy_ext sys_one) glass 0 false [(633, 0)]) as A. cbn [map fst snd] in A. rewrite A.
  apply glass_model.
Qed.
Lemma near_180 : distance (Some (180 + 0)) (Some 180) (Some 0).
Proof.
  pose proof (circ_distance_nums (Some (180 + 0)) (Some 180)) as K. cbn [olift2] in K. unfold circular_distance in K.
  replace (180 + 0 - 180) with 0 in K by ring. rewrite Rabs_R0, Rmin_left in K by lra. exact K.
Qed.
Lemma addend_r0 s m : addend false s m 0 = 0.
Proof. unfold addend, Rdiv. ring. Qed.
Lemma vars m : addend false (Some 0) m 1 = / (1 + m ^ 2).
Proof. unfold addend, Rdiv. rewrite Rmult_0_r, exp_0. rewrite Rmult_1_l, pow1. ring. Qed.
Theorem mask_none_refuted : exists sy x uw v st L L', let d mk := DataSE 0%nat 1%nat 2%nat 3%nat mk false true None tab in
  let o mk := Objective 0%nat (d mk) (Some 2%nat) uw None in
  holds (sy_heap sy) (d MNone) [x] /\
  logl_any sy (o (MBool [true])) v st = Ok L /\ logl_any sy (o MNone) v st = Ok L' /\ L' < L.
Proof.
  exists sys_one, pt_one, false, (Some [0; 0]), (st_g 0 0 None), (- (1 / 2) * / (1 + 45 ^ 2)), (- (1 / 2) * (/ (1 + 45 ^ 2) + / (1 + 180 ^ 2))).
  cbv zeta. split; [repeat split|]. split; [|split].
  - destruct (one_facts (MBool [true]) false) as (st & S & M & Vl).
    destruct (glass_current sys_one (ob_one (MBool [true]) false) st 0 0 eq_refl eq_refl eq_refl S eq_refl) as (Cu & Vo & Fl & _).
    replace (/ (1 + 45 ^ 2)) with (total [addend false (Some 0) 45 1 + addend false (Some 0) (180 + 0) 0])
      by (unfold total; cbn [fold_right]; rewrite vars, addend_r0; ring).
    apply (logl_from_points sys_one (ob_one (MBool [true]) false) _ _ st [pt_one] [true] [pt_one]); [repeat split|reflexivity|repeat constructor|exact S| |intros [K|[]]; discriminate].
    cbn [ob_lnsigma ob_one option_map]. rewrite Vl. constructor; [|constructor].
    exists 45, (180 + 0), 1, 0. split; [|split; [split|reflexivity]].
    + unfold calc. cbn [value_at p_wav p_aoi fst snd pt_one]. apply (proj1 (single_predicts sys_one st 0 (633, 0) (Some 45, Some (180 + 0)))).
      rewrite Cu, Vo, Fl. apply glass_model.
    + pose proof (minus_nums (Some 45) (Some 44)) as K. cbn [olift2] in K. replace (45 - 44) with 1 in K by ring. exact K.
    + exact near_180.
  - destruct (one_facts MNone false) as (st & S & M & Vl).
    pose proof (logl_one sys_one (ob_one MNone false) (Some [0; 0]) (st_g 0 0 None) st pt_one 45 (180 + 0) 44 180 0) as Q.
    specialize (Q ltac:(repeat split) eq_refl S eq_refl eq_refl near_180 M). cbn [ob_lnsigma ob_one weighted ob_data ob_use_weights ds_weighted andb] in Q.
    cbv zeta in Q. change (Objective 0 _ _ _ _) with (ob_one MNone false). rewrite Q. f_equal. rewrite Vl. replace (45 - 44) with 1 by ring.
    rewrite !vars, !addend_r0. replace (180 + 0) with 180 by ring. ring.
  - lra.
Qed.

(** ** such points do not change the shape of the likelihood *)
Lemma lost_list w xs : forall cs cs', Forall2 (lost w) xs cs -> Forall2 (lost w) xs cs' -> cs = cs'.
Proof.
  induction xs as [|x xs IH]; intros cs cs' F F'; inversion F; inversion F'; subst; [reflexivity|].
  f_equal; [eapply lost_fun; eassumption|]. apply IH; assumption.
Qed.
Theorem logl_shape sy o o' v1 v2 st1 st2 pts m sel pts' m' L1 L2 :
  holds (sy_heap sy) (ob_data o) pts -> ds_mask (ob_data o) = MBool m -> kept m pts sel ->
  holds (sy_heap sy) (ob_data o') pts' -> ds_mask (ob_data o') = MBool m' -> kept m' pts' (filter has_wavelength sel) ->
  ob_model o' = ob_model o -> ob_lnsigma o' = ob_lnsigma o -> weighted o' = weighted o ->
  logl_any sy o v1 st1 = Ok L1 -> logl_any sy o v2 st2 = Ok L2 ->
  exists L1' L2', logl_any sy o' v1 st1 = Ok L1' /\ logl_any sy o' v2 st2 = Ok L2' /\ L1 - L2 = L1' - L2'.
Proof.
  intros H Hm K H' Hm' K' E1 E2 E3 Q1 Q2.
  destruct (logl_without sy o o' v1 st1 pts m sel pts' m' L1 H Hm K H' Hm' K' E1 E2 E3 Q1) as (L1' & c1 & A1' & F1 & D1).
  destruct (logl_without sy o o' v2 st2 pts m sel pts' m' L2 H Hm K H' Hm' K' E1 E2 E3 Q2) as (L2' & c2 & A2' & F2 & D2).
  pose proof (lost_list _ _ _ _ F1 F2). subst c2. exists L1', L2'. repeat split; auto. lra.
Qed.
(** logpost: with the same priors *)
Theorem logpost_without sy o o' v st pts m sel pts' m' r :
  holds (sy_heap sy) (ob_data o) pts -> ds_mask (ob_data o) = MBool m -> kept m pts sel ->
  holds (sy_heap sy) (ob_data o') pts' -> ds_mask (ob_data o') = MBool m' -> kept m' pts' (filter has_wavelength sel) ->
  ob_model o' = ob_model o -> ob_lnsigma o' = ob_lnsigma o -> weighted o' = weighted o ->
  logpost_any sy o v st = Ok r ->
  match r with
  | None => logpost_any sy o' v st = Ok None
  | Some P => exists P' cs, logpost_any sy o' v st = Ok (Some P') /\
      Forall2 (lost (weighted o)) (filter (fun x => negb (has_wavelength x)) sel) cs /\ P = P' - total cs / 2
  end.
Proof.
  intros H Hm K H' Hm' K' E1 E2 E3 Q.
  unfold logpost_any in *.
  assert (S' : setp sy o' v st = setp sy o v st).
  { unfold setp, varying_parameters, parameters. rewrite E1, E2. reflexivity. }
  rewrite S'.
  destruct (setp sy o v st) as [[[]|e] st1] eqn:S; [|discriminate].
  assert (EL' : fst (logp sy o' None st1) = fst (logp sy o None st1)) by (unfold logp, varying_parameters, parameters; rewrite E1, E2; reflexivity).
  rewrite EL'. destruct (fst (logp sy o None st1)) as [[x|]|e]; cbn [rbind] in Q |- *; [| |discriminate].
  - destruct (logl_any sy o None st1) as [y|e] eqn:L; [|discriminate]. cbn in Q. injection Q as <-.
    destruct (logl_without sy o o' None st1 pts m sel pts' m' y H Hm K H' Hm' K' E1 E2 E3 L) as (y' & cs & A & F & D).
    exists (x + y'), cs. rewrite A. cbn. repeat split; auto. lra.
  - injection Q as <-. reflexivity.
Qed.

Lemma one_case uw : holds (sy_heap sys_one) (ob_data (ob_one MNone uw)) [pt_one] /\
  distance (Some (180 + 0)) (Some 180) (Some 0) /\
  exists st1, setp sys_one (ob_one MNone uw) (Some [0; 0]) (st_g 0 0 None) = (Ok tt, st1) /\
  model_any (sy_ext sys_one) (current sys_one st1 0) (value sys_one st1 (mo_offset (the_model sys_one 0))) (nth 0 (st_flips st1) false)
    [(Some 633, Some 0)] = Ok ([Some 45], [Some (180 + 0)]).
Proof.
  split; [repeat split|]. split; [exact near_180|]. destruct (one_facts MNone uw) as (st & A & B & _). exists st. auto.
Qed.
