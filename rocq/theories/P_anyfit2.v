(** * Proofs about fits with unusual columns: the objective *)

Require Import Reals List Bool ZArith String Lra Lia.
From Coquelicot Require Import Complex.
From Verif Require Import Base Cplx M_tmm M_ema M_disp M_struct M_model M_data M_objective M_anyfit
  P_struct P_struct2 P_model P_model2 Spec_data P_data Spec_objective P_objective P_objective2 P_objective3 Spec_anyfit P_anyfit.
Import ListNotations.
Open Scope list_scope.
Open Scope R_scope.

Lemma zip_ok f a b r : zip_columns f a b = Ok r ->
  r = map2 (olift2 f) a b /\ List.length a = List.length b /\ List.length r = List.length a.
Proof.
  unfold zip_columns. destruct (Nat.eqb (List.length a) (List.length b)) eqn:E; [|discriminate].
  intros H. apply Nat.eqb_eq in E. inversion H. split; auto. split; auto. apply map2_same. exact E.
Qed.

Theorem residuals_extend sy o v st r : fst (residuals sy o v st) = Ok r -> residuals_any sy o v st = Ok (A1 r).
Proof.
  unfold residuals, residuals_any, bind at 1. destruct (setp sy o v st) as [[[]|e] st1]; [|discriminate].
  unfold bind at 1, evaluate, bind at 1, lift at 1.
  destruct (get_data (sy_heap sy) (ob_data o)) as [[[[w a] p] x]|e]; [|discriminate]. cbn [rbind].
  unfold bind at 1, lift at 1. unfold wavelength_aoi, wavelength_aoi_any.
  destruct w as [w|w]; [|discriminate]. destruct a as [a|a]; [|discriminate].
  destruct (Nat.eqb (List.length w) (List.length a)) eqn:L; [|discriminate].
  destruct (mapM (fun x : num * num => olift2 pair (fst x) (snd x)) (combine w a)) as [X|] eqn:M; [|discriminate].
  assert (EX : combine w a = map (fun x : R * R => (Some (fst x), Some (snd x))) X).
  { clear L. revert w a X M. induction w as [|w0 w IH]; intros [|a0 a] X M; cbn in M; try (inversion M; reflexivity).
    destruct w0 as [w0|]; [|discriminate]. destruct a0 as [a0|]; [|discriminate]. cbn in M.
    destruct (mapM (fun x : num * num => olift2 pair (fst x) (snd x)) (combine w a)) as [X'|] eqn:M'; [|discriminate].
    cbn in M. inversion M; subst. cbn. f_equal. apply IH; auto. }
  cbn [rbind]. rewrite EX, any_extends. unfold bind at 1, call_model.
  destruct (model (sy_ext sy) DFloat (current sy st1 (ob_model o)) (value sy st1 (mo_offset (the_model sy (ob_model o))))
         (nth (ob_model o) (st_flips st1) false) X) as [[[psi delta]|e] s']; [|discriminate]. cbn [fst rbind].
  unfold bind, lift, column, ret, residual_array. destruct p as [p|p]; [|discriminate]. destruct x as [x|x]; [|discriminate].
  destruct (zip_columns (fun x y => circular_distance x y 360) delta x) as [de|]; [|discriminate]. cbn [rbind].
  destruct (zip_columns Rminus psi p) as [pe|]; [|discriminate]. cbn. congruence.
Qed.
Theorem chisqr_extend sy o v st r : fst (chisqr sy o v st) = Ok r -> chisqr_any sy o v st = Ok r.
Proof.
  rewrite chisqr_after. unfold bind, chisqr_any. destruct (residuals sy o v st) as [[res|e] st'] eqn:E; [|discriminate].
  rewrite (residuals_extend sy o v st res); [|rewrite E; reflexivity]. cbn. congruence.
Qed.

Lemma single_predicts sy st m wa pd :
  single (sy_ext sy) (current sy st m) (value sy st (mo_offset (the_model sy m))) (nth m (st_flips st) false) wa pd <->
  predicts sy st m [wa] [fst pd] [snd pd].
Proof.
  unfold single, predicts, call_model. destruct (model _ _ _ _ _ [wa]) as [r s]. cbn. reflexivity.
Qed.

Theorem residuals_points sy o v st st1 pts m sel r :
  holds (sy_heap sy) (ob_data o) pts -> ds_mask (ob_data o) = MBool m -> kept m pts sel ->
  setp sy o v st = (Ok tt, st1) -> residuals_any sy o v st = Ok r ->
  exists rpsi rdelta, r = A1 (rpsi ++ rdelta) /\
    List.length rpsi = List.length sel /\ List.length rdelta = List.length sel /\
    forall i x, nth_error sel i = Some x -> exists pd a b,
      nth_error rpsi i = Some a /\ nth_error rdelta i = Some b /\
      value_at (fun wa pd => predicts sy st1 (ob_model o) [wa] [fst pd] [snd pd]) (p_wav x, p_aoi x) pd /\
      residual_of pd (p_psi x) (p_delta x) a b.
Proof.
  intros H Hm K S E. destruct (getters _ _ _ _ _ H Hm K) as (_ & _ & _ & _ & G & _).
  unfold residuals_any in E. rewrite S, G in E. unfold columns in E. cbn [rbind wavelength_aoi_any] in E.
  rewrite !map_length, Nat.eqb_refl in E. cbn [rbind] in E.
  destruct (model_any _ _ _ _ _) as [[psi delta]|e] eqn:M; [|discriminate]. cbn [rbind residual_array] in E.
  destruct (zip_columns (fun x y => circular_distance x y 360) delta (map p_delta sel)) as [de|] eqn:Z1; [|discriminate]. cbn [rbind] in E.
  destruct (zip_columns Rminus psi (map p_psi sel)) as [pe|] eqn:Z2; [|discriminate]. cbn [rmap] in E.
  apply zip_ok in Z1. destruct Z1 as (D1 & D2 & D3). apply zip_ok in Z2. destruct Z2 as (P1 & P2 & P3).
  rewrite map_length in D2, P2.
  exists pe, de. split; [congruence|]. split; [exact (eq_trans P3 P2)|]. split; [exact (eq_trans D3 D2)|].
  destruct (any_points _ _ _ _ _ _ _ M) as (_ & _ & F & _). clear M E.
  intros i x Hx.
  destruct (nth_error psi i) as [p|] eqn:Ep;
    [|apply nth_error_None in Ep; assert (nth_error sel i = None) by (apply nth_error_None; lia); congruence].
  destruct (nth_error delta i) as [d|] eqn:Ed;
    [|apply nth_error_None in Ed; assert (nth_error sel i = None) by (apply nth_error_None; lia); congruence].
  exists (p, d), (olift2 Rminus p (p_psi x)), (olift2 (fun x y => circular_distance x y 360) d (p_delta x)).
  split; [rewrite P1; apply nth_error_map2; [exact Ep|apply map_nth_error; exact Hx]|].
  split; [rewrite D1; apply nth_error_map2; [exact Ed|apply map_nth_error; exact Hx]|].
  split; [|split; [apply minus_nums|apply circ_distance_nums]].
  assert (V : value_at (single (sy_ext sy) (current sy st1 (ob_model o)) (value sy st1 (mo_offset (the_model sy (ob_model o)))) (nth (ob_model o) (st_flips st1) false)) (p_wav x, p_aoi x) (p, d)).
  { clear -F Hx Ep Ed. revert i psi delta F Hx Ep Ed. induction sel as [|y sel IH]; intros [|i] psi delta F Hx Ep Ed; try discriminate;
      destruct psi as [|p0 psi]; try discriminate; destruct delta as [|d0 delta]; try discriminate; cbn in *.
    - inversion F; subst. inversion Hx; inversion Ep; inversion Ed; subst. auto.
    - inversion F; subst. eapply IH; eauto. }
  unfold value_at in *. destruct (p_wav x) as [w|]; [destruct (p_aoi x) as [a|]|]; auto.
  apply (proj1 (single_predicts _ _ _ _ _)). exact V.
Qed.

(** a point without a wavelength does not see the parameters *)
Lemma minus_fun a b r r' : minus a b r -> minus a b r' -> r = r'.
Proof. unfold minus. destruct a, b; congruence. Qed.
Lemma circle_fun per a b d d' : circle_distance per a b d -> circle_distance per a b d' -> d = d'.
Proof. intros [[k E] L] [[k' E'] L']. specialize (L k'). specialize (L' k). subst. lra. Qed.
Lemma distance_fun a b r r' : distance a b r -> distance a b r' -> r = r'.
Proof.
  unfold distance. destruct a as [a|], b as [b|]; try congruence. intros (d & -> & D1 & D2) (d' & -> & E1 & E2). f_equal.
  destruct (Rle_dec (Rabs (a - b)) 360) as [L|L].
  - eapply circle_fun; eauto.
  - rewrite D2, E2 by lra. reflexivity.
Qed.
Theorem residual_fixed sy o v v' st st' pts m sel r r' i x :
  holds (sy_heap sy) (ob_data o) pts -> ds_mask (ob_data o) = MBool m -> kept m pts sel ->
  residuals_any sy o v st = Ok (A1 r) -> residuals_any sy o v' st' = Ok (A1 r') ->
  nth_error sel i = Some x -> p_wav x = None ->
  nth_error r i = nth_error r' i /\ nth_error r (List.length sel + i)%nat = nth_error r' (List.length sel + i)%nat /\
  exists a b, nth_error r i = Some a /\ nth_error r (List.length sel + i)%nat = Some b /\
    residual_of (Some 0, Some 0) (p_psi x) (p_delta x) a b.
Proof.
  intros H Hm K E E' Hx Hw.
  assert (G : forall v st r, residuals_any sy o v st = Ok (A1 r) -> exists a b, nth_error r i = Some a /\
     nth_error r (List.length sel + i)%nat = Some b /\ residual_of (Some 0, Some 0) (p_psi x) (p_delta x) a b).
  { clear - H Hm K Hx Hw. intros v st r E. destruct (setp sy o v st) as [[[]|e] st1] eqn:S.
    2: { unfold residuals_any in E. rewrite S in E. discriminate. }
    destruct (residuals_points _ _ _ _ _ _ _ _ _ H Hm K S E) as (rp & rd & Er & L1 & L2 & N).
    assert (r = rp ++ rd) by congruence. subst r.
    destruct (N i x Hx) as (pd & a & b & N1 & N2 & V & RO). rewrite Hw in V. cbn in V. subst pd.
    exists a, b. split; [rewrite nth_error_app1; auto; apply nth_error_Some; congruence|].
    split; auto. rewrite nth_error_app2 by lia. rewrite L1. replace (List.length sel + i - List.length sel)%nat with i by lia. auto. }
  destruct (G _ _ _ E) as (a & b & A & B & RO). destruct (G _ _ _ E') as (a' & b' & A' & B' & RO').
  destruct RO as [R1 R2]. destruct RO' as [R1' R2'].
  rewrite A, A', B, B'. rewrite (minus_fun _ _ _ _ R1 R1'), (distance_fun _ _ _ _ R2 R2').
  split; auto. split; auto. exists a', b'. split; auto. split; auto. split; auto.
Qed.

(** ** mask None *)
Lemma none_columns h d pts : holds h d pts -> ds_mask d = MNone -> pts <> [] ->
  get_data h d = Ok (A2 [map p_wav pts], A2 [map p_aoi pts], A2 [map p_psi pts], A2 [map p_delta pts]).
Proof.
  intros (H1 & H2 & H3 & H4) M N. unfold get_data, get_wavelength, get_aoi, get_psi, get_delta, arr. rewrite M.
  rewrite (nth_error_nth _ _ _ H1), (nth_error_nth _ _ _ H2), (nth_error_nth _ _ _ H3), (nth_error_nth _ _ _ H4).
  destruct pts; [congruence|]. reflexivity.
Qed.
Theorem mask_none_residuals sy o v st st1 pts : holds (sy_heap sy) (ob_data o) pts -> ds_mask (ob_data o) = MNone ->
  setp sy o v st = (Ok tt, st1) -> (2 <= List.length pts)%nat -> residuals_any sy o v st = Raise ValueError.
Proof.
  intros H M S L. unfold residuals_any. rewrite S, (none_columns _ _ _ H M); [|destruct pts; [cbn in L; lia|discriminate]].
  cbn [rbind wavelength_aoi_any]. destruct pts as [|x [|y pts]]; cbn in L; try lia. cbn [map app].
  destruct (map p_wav pts ++ p_aoi x :: p_aoi y :: map p_aoi pts) eqn:E; [|reflexivity].
  destruct (map p_wav pts); discriminate.
Qed.
Theorem mask_none_one sy o v st st1 x psi delta : holds (sy_heap sy) (ob_data o) [x] -> ds_mask (ob_data o) = MNone ->
  setp sy o v st = (Ok tt, st1) ->
  model_any (sy_ext sy) (current sy st1 (ob_model o)) (value sy st1 (mo_offset (the_model sy (ob_model o))))
            (nth (ob_model o) (st_flips st1) false) [(p_wav x, p_aoi x)] = Ok ([psi], [delta]) ->
  exists a b, residual_of (psi, delta) (p_psi x) (p_delta x) a b /\
    residuals_any sy o v st = Ok (A2 [[a]; [b]]) /\ chisqr_any sy o v st = Raise ValueError.
Proof.
  intros H M S MA.
  exists (olift2 Rminus psi (p_psi x)), (olift2 (fun x y => circular_distance x y 360) delta (p_delta x)).
  split; [split; [apply minus_nums|apply circ_distance_nums]|].
  assert (RA : residuals_any sy o v st = Ok (A2 [[olift2 Rminus psi (p_psi x)];
     [olift2 (fun x y => circular_distance x y 360) delta (p_delta x)]])).
  { unfold residuals_any. rewrite S, (none_columns _ _ _ H M) by discriminate. cbn [rbind wavelength_aoi_any map app].
    rewrite MA. reflexivity. }
  split; auto. unfold chisqr_any. rewrite RA. reflexivity.
Qed.
Theorem mask_none_chisqr sy o v st pts : holds (sy_heap sy) (ob_data o) pts -> ds_mask (ob_data o) = MNone ->
  pts <> [] -> exists e, chisqr_any sy o v st = Raise e.
Proof.
  intros H M N. destruct (setp sy o v st) as [[[]|e] st1] eqn:S.
  2: { exists e. unfold chisqr_any, residuals_any. rewrite S. reflexivity. }
  destruct pts as [|x [|y pts]]; [congruence| |].
  - destruct (model_any (sy_ext sy) (current sy st1 (ob_model o)) (value sy st1 (mo_offset (the_model sy (ob_model o))))
            (nth (ob_model o) (st_flips st1) false) [(p_wav x, p_aoi x)]) as [[psi delta]|e] eqn:E.
    + destruct (any_points _ _ _ _ _ _ _ E) as (L1 & L2 & _).
      destruct psi as [|p [|]]; try discriminate. destruct delta as [|d [|]]; try discriminate.
      destruct (mask_none_one _ _ _ _ _ _ _ _ H M S E) as (a & b & _ & _ & Q). eauto.
    + exists e. unfold chisqr_any, residuals_any. rewrite S, (none_columns _ _ _ H M) by discriminate.
      cbn [rbind wavelength_aoi_any map app]. rewrite E. reflexivity.
  - exists ValueError. unfold chisqr_any. rewrite (mask_none_residuals _ _ _ _ _ _ H M S); [reflexivity|cbn; lia].
Qed.

(** ** instances *)
Lemma glass_rows ext w : structure_slabs ext (set_wavelength glass w) None =
  (Ok (Some [mkSlab 0 (Some (1, 0)) 0 0; mkSlab 0 (Some (3 / 2, 0)) 0 0]), set_wavelength glass w).
Proof.
  unfold structure_slabs. cbn. destruct (Rlt_dec 0 0); [lra|]. unfold solvate. cbn. destruct (Rlt_dec 0 0); [lra|]. reflexivity.
Qed.
Lemma glass_nil ext off flip : fst (one_wavelength ext glass off flip 1 []) = Ok [].
Proof. unfold one_wavelength. rewrite glass_rows. cbn [fst]. rewrite dp_nil. reflexivity. Qed.
Lemma glass_nan ext off flip a :
  model_any ext glass off flip [(None, a); (Some 633, Some 0)] = Ok ([Some 0; Some 45], [Some 0; Some (180 + off)]).
Proof.
  apply (any_from_points ext glass off flip _ [(Some 0, Some 0); (Some 45, Some (180 + off))]).
  - constructor; [reflexivity|]. constructor; [|constructor]. apply glass_model.
  - intros _. apply glass_nil.
Qed.
Lemma glass_ordinary : ordinary glass.
Proof. split; [repeat constructor; discriminate|cbn; lra]. Qed.

Definition heap_n (d : R) : heap := [[None; Some 633]; [Some 60; Some 0]; [Some 30; Some 45]; [Some d; Some 181]].
Definition data_n (m : mask) : dataset := DataSE 0%nat 1%nat 2%nat 3%nat m false true None tab.
Definition ob_n (m : mask) : objective := Objective 0%nat (data_n m) (Some 2%nat) true None.
Definition pts_n (d : R) : list point := [(None, Some 60, Some 30, Some d); (Some 633, Some 0, Some 45, Some 181)].
Lemma holds_n d m : holds (heap_n d) (data_n m) (pts_n d).
Proof. repeat split. Qed.
Lemma residuals_n l x d : Rabs d <= 180 -> Rabs (x - 1) <= 180 ->
  residuals_any (sys_ex 1 (3 / 2) (heap_n d)) (ob_n (MBool [true; true])) (Some [l; x]) (st_g 0 0 None) =
  Ok (A1 [Some (-30); Some 0; Some (Rabs d); Some (Rabs (x - 1))]).
Proof.
  intros D X. unfold residuals_any.
  destruct (setp (sys_ex 1 (3 / 2) (heap_n d)) (ob_n (MBool [true; true])) (Some [l; x]) (st_g 0 0 None)) as [r st1] eqn:S.
  assert (S' := S). cbn in S'. unfold set_store in S'. assert (r = Ok tt) by congruence. subst r.
  assert (ST : st1 = State (write_all (st_store (st_g 0 0 None)) [2%nat; 1%nat] [l; x]) [None] [false]) by (symmetry; inversion S'; reflexivity).
  assert (G : get_data (heap_n d) (data_n (MBool [true; true])) = Ok (columns (pts_n d))) by reflexivity.
  change (sy_heap (sys_ex 1 (3 / 2) (heap_n d))) with (heap_n d). change (ob_data (ob_n (MBool [true; true]))) with (data_n (MBool [true; true])).
  rewrite G. unfold columns. cbn [rbind wavelength_aoi_any map pts_n p_wav p_aoi p_psi p_delta fst snd List.length Nat.eqb combine].
  assert (C : current (sys_ex 1 (3 / 2) (heap_n d)) st1 0%nat = set_wavelength glass None).
  { subst st1. unfold current, inst_structure, set_wavelength, glass, simple, layer_c, const. cbn.
    unfold inst_component. cbn. unfold value, read. cbn. reflexivity. }
  change (ob_model (ob_n (MBool [true; true]))) with 0%nat. rewrite C.
  change (set_wavelength glass None) with glass.
  assert (V : value (sys_ex 1 (3 / 2) (heap_n d)) st1 (mo_offset (the_model (sys_ex 1 (3 / 2) (heap_n d)) 0%nat)) = x)
    by (subst st1; reflexivity).
  rewrite V. cbn [rbind]. rewrite glass_nan. cbn [rbind residual_array]. unfold zip_columns. cbn [List.length Nat.eqb map2 olift2 rbind rmap app].
  unfold circular_distance. repeat f_equal; try ring.
  - rewrite Rmin_left; [replace (0 - d) with (- d) by ring; apply Rabs_Ropp|]. replace (0 - d) with (- d) by ring. rewrite Rabs_Ropp. lra.
  - replace (180 + x - 181) with (x - 1) by ring. rewrite Rmin_left; lra.
Qed.
Lemma mask_none_n d v st1 : setp (sys_ex 1 (3 / 2) (heap_n d)) (ob_n MNone) v (st_g 0 0 None) = (Ok tt, st1) ->
  residuals_any (sys_ex 1 (3 / 2) (heap_n d)) (ob_n MNone) v (st_g 0 0 None) = Raise ValueError.
Proof. intros S. apply (mask_none_residuals _ _ _ _ st1 (pts_n d)); auto. apply holds_n. Qed.
Lemma glass_angle ext off flip a : model_any ext glass off flip [(Some 633, Some a); (Some 500, None)] = Raise AssertionError.
Proof.
  apply (unangled_assertion ext glass off flip _ 500); [right; left; auto|]. intros v _.
  rewrite glass_rows. eexists. split; [|reflexivity]. cbn. lia.
Qed.
Theorem nan_refuted : exists s off X, In None (map fst X) /\ forall ext flip,
  exists psi delta, model_any ext s off flip X = Ok (psi, delta) /\ ~ In None psi /\ ~ In None delta.
Proof.
  exists glass, 0, [(None, None); (Some 633, Some 0)]. split; [left; reflexivity|]. intros ext flip.
  exists [Some 0; Some 45], [Some 0; Some (180 + 0)]. split; [apply glass_nan|].
  split; intros [K|[K|[]]]; discriminate.
Qed.
