(** * Proofs about fits with unusual columns *)

Require Import Reals List Bool ZArith String Lra Lia.
From Coquelicot Require Import Complex.
From Verif Require Import Base Cplx M_tmm M_ema M_disp M_struct M_model M_data M_objective M_anyfit
  P_struct P_model Spec_data Spec_anyfit.
From Verif Require P_tmm3.
Import ListNotations.
Open Scope list_scope.
Open Scope R_scope.

Definition fin1 (x : num * num) : list (R * R) :=
  match x with (Some w, Some a) => [(w, a)] | _ => [] end.
Definition fin (X : list (num * num)) : list (R * R) := flat_map fin1 X.
Definition has_wav (x : num * num) : bool := match fst x with Some _ => true | None => false end.
Definition angled (X : list (num * num)) : Prop := forall w, ~ In (Some w, None) X.
Fixpoint merge (X : list (num * num)) (old new : list num) : list num :=
  match X, old with
  | x :: X', o :: old' =>
      if has_wav x then match new with v :: new' => v :: merge X' old' new' | [] => o :: merge X' old' [] end
      else o :: merge X' old' new
  | _, _ => []
  end.

Lemma angled_tl x X : angled (x :: X) -> angled X.
Proof. intros H w K. apply (H w). right; auto. Qed.

Lemma finite_part_fin X : angled X -> finite_part (map fst X) = map fst (fin X).
Proof.
  induction X as [|[[w|] a] X IH]; intros H; auto.
  - destruct a as [a|]; [|exfalso; apply (H w); left; auto].
    cbn. f_equal. apply IH. eapply angled_tl; eauto.
  - cbn. apply IH. eapply angled_tl; eauto.
Qed.
Lemma select_any_fin wav X : angled X -> select_any wav X = map Some (select wav (fin X)).
Proof.
  unfold select_any, select.
  induction X as [|[[w|] a] X IH]; intros H; auto.
  - destruct a as [a|]; [|exfalso; apply (H w); left; auto].
    cbn. destruct (Req_EM_T w wav); cbn; [f_equal|]; apply IH; eapply angled_tl; eauto.
  - cbn. apply IH. eapply angled_tl; eauto.
Qed.
Lemma all_some_cons (x : num) l : all_some (x :: l) = match x, all_some l with Some y, Some m => Some (y :: m) | _, _ => None end.
Proof. unfold all_some. cbn. destruct x; reflexivity. Qed.
Lemma mapM_id_Some (l : list R) : all_some (map Some l) = Some l.
Proof. induction l as [|x l IH]; auto. cbn [map]. rewrite all_some_cons, IH. reflexivity. Qed.
Lemma all_some_None l : In None l -> all_some l = None.
Proof.
  induction l as [|y l IH]; intros J; [contradiction|]. rewrite all_some_cons. destruct J as [->|J]; auto.
  rewrite IH by auto. destruct y; auto.
Qed.
Lemma put_length t wav X : forall out vals, List.length out = List.length X ->
  List.length (put t wav X out vals) = List.length X.
Proof.
  induction X as [|x X IH]; intros [|o out] vals H; try discriminate; auto. cbn in *.
  destruct (Req_EM_T (fst x) wav); [destruct vals|]; cbn; rewrite IH; auto.
Qed.
Lemma put_any_merge wav X : angled X -> forall old new vals,
  List.length old = List.length X -> List.length new = List.length (fin X) ->
  put_any wav X (merge X old new) vals = merge X old (put DFloat wav (fin X) new vals).
Proof.
  induction X as [|[[w|] a] X IH]; intros A [|o old] new vals L M; try discriminate; auto.
  - destruct a as [a|]; [|exfalso; apply (A w); left; auto].
    destruct new as [|v new]; [discriminate|]. cbn in L, M. cbn.
    destruct (Req_EM_T w wav); [destruct vals as [|z vals]|]; cbn; f_equal; apply IH;
      eauto using angled_tl.
  - cbn in L, M. cbn. f_equal. apply IH; eauto using angled_tl.
Qed.
Lemma merge_zeros X : angled X ->
  merge X (repeat (Some 0) (List.length X)) (repeat (Some 0) (List.length (fin X))) = repeat (Some 0) (List.length X).
Proof.
  induction X as [|[[w|] a] X IH]; intros A; auto.
  - destruct a as [a|]; [|exfalso; apply (A w); left; auto].
    cbn. f_equal. apply IH. eauto using angled_tl.
  - cbn. f_equal. apply IH. eauto using angled_tl.
Qed.

Definition has_nan (X : list (num * num)) : bool :=
  existsb (fun x => match fst x with None => true | Some _ => false end) X.

Lemma nan_round_forget ext s w off flip : nan_round ext (set_wavelength s w) off flip = nan_round ext s off flip.
Proof. reflexivity. Qed.

Lemma any_loop_fin ext off flip X : angled X -> forall wavs s o1 o2 psi delta,
  List.length o1 = List.length X -> List.length o2 = List.length X ->
  List.length psi = List.length (fin X) -> List.length delta = List.length (fin X) ->
  any_loop ext off flip X wavs s (merge X o1 psi) (merge X o2 delta) =
  match fst (model_loop ext DFloat off flip (fin X) wavs s psi delta) with
  | Raise e => Raise e
  | Ok (p, d) => if has_nan X then rmap (fun _ => (merge X o1 p, merge X o2 d)) (nan_round ext s off flip)
                 else Ok (merge X o1 p, merge X o2 d)
  end.
Proof.
  intros A wavs. induction wavs as [|wav wavs IH]; intros s o1 o2 psi delta L1 L2 L3 L4; [reflexivity|].
  cbn [any_loop model_loop]. unfold one_any. rewrite select_any_fin, mapM_id_Some by auto.
  pose proof (one_wavelength_state ext s off flip wav (select wav (fin X))) as S1.
  destruct (one_wavelength ext s off flip wav (select wav (fin X))) as [[vals|e] s']; [|reflexivity].
  cbn [snd] in S1. rewrite !put_any_merge by auto. rewrite IH by (auto; rewrite put_length; auto).
  subst s'. rewrite nan_round_forget. reflexivity.
Qed.

Lemma model_any_fin ext s off flip X : angled X ->
  model_any ext s off flip X =
  match fst (model ext DFloat s off flip (fin X)) with
  | Raise e => Raise e
  | Ok (p, d) =>
      let out := (merge X (repeat (Some 0) (List.length X)) p, merge X (repeat (Some 0) (List.length X)) d) in
      if has_nan X then rmap (fun _ => out) (nan_round ext s off flip) else Ok out
  end.
Proof.
  intros A. unfold model_any, model. rewrite finite_part_fin by auto.
  rewrite <- (merge_zeros X A) at 1 2.
  rewrite any_loop_fin by (auto; rewrite repeat_length; auto). reflexivity.
Qed.

(** ** finite columns *)
Lemma fin_Some X : fin (map (fun x : R * R => (Some (fst x), Some (snd x))) X) = X.
Proof. induction X as [|[w a] X IH]; auto. cbn. f_equal. exact IH. Qed.
Lemma angled_Some X : angled (map (fun x : R * R => (Some (fst x), Some (snd x))) X).
Proof. intros w H. apply in_map_iff in H. destruct H as (? & H & _). discriminate. Qed.
Lemma has_nan_Some X : has_nan (map (fun x : R * R => (Some (fst x), Some (snd x))) X) = false.
Proof. induction X as [|[w a] X IH]; auto. Qed.
Lemma merge_Some X : forall old new, List.length old = List.length X -> List.length new = List.length X ->
  merge (map (fun x : R * R => (Some (fst x), Some (snd x))) X) old new = new.
Proof.
  induction X as [|[w a] X IH]; intros [|o old] [|n new] L M; try discriminate; auto.
  cbn in *. f_equal. apply IH; congruence.
Qed.
Theorem any_extends ext s off flip X :
  model_any ext s off flip (map (fun x : R * R => (Some (fst x), Some (snd x))) X) =
  fst (model ext DFloat s off flip X).
Proof.
  rewrite model_any_fin by apply angled_Some. rewrite fin_Some, has_nan_Some.
  destruct (model ext DFloat s off flip X) as [[[p d]|e] s'] eqn:E; cbn [fst]; auto.
  destruct (batch_pointwise _ _ _ _ _ _ _ _ E) as (_ & L1 & L2).
  cbn zeta. rewrite !merge_Some; auto; rewrite repeat_length, map_length; auto.
Qed.

(** ** points *)
Lemma any_loop_unangled ext off flip X w : In (Some w, None) X -> forall wavs s psi delta, In w wavs ->
  exists e, any_loop ext off flip X wavs s psi delta = Raise e.
Proof.
  intros H wavs. induction wavs as [|wav wavs IH]; intros s psi delta I; [contradiction|].
  cbn [any_loop]. destruct I as [->|I].
  - unfold one_any. assert (N : all_some (select_any w X) = None).
    { assert (J : In None (select_any w X)).
      { unfold select_any. apply in_map_iff. exists (Some w, None). split; auto. apply filter_In. split; auto.
        cbn. destruct (Req_EM_T w w); congruence. }
      apply all_some_None; auto. }
    rewrite N. destruct (fst (structure_slabs ext (set_wavelength s (Some w)) None)) as [[[|]|]|]; eauto.
  - destruct (one_any ext s off flip wav (select_any wav X)) as [[vals|e] s']; eauto.
Qed.
Lemma finite_part_In w l : In (Some w) l -> In w (finite_part l).
Proof. intros H. apply in_flat_map. exists (Some w). split; auto. left; auto. Qed.
Theorem unangled_raises ext s off flip X w : In (Some w, None) X ->
  exists e, model_any ext s off flip X = Raise e.
Proof.
  intros H. unfold model_any. eapply any_loop_unangled; eauto. apply np_unique_In.
  apply finite_part_In. apply in_map_iff. exists (Some w, None). auto.
Qed.

Lemma has_unangled X : {angled X} + {exists w, In (Some w, None) X}.
Proof.
  induction X as [|[[w|] [a|]] X IH].
  - left. intros w [].
  - destruct IH as [A|E]; [left|right].
    + intros v [K|K]; [discriminate|apply (A v); auto].
    + destruct E as [v E]. exists v. right; auto.
  - right. exists w. left; auto.
  - destruct IH as [A|E]; [left|right].
    + intros v [K|K]; [discriminate|apply (A v); auto].
    + destruct E as [v E]. exists v. right; auto.
  - destruct IH as [A|E]; [left|right].
    + intros v [K|K]; [discriminate|apply (A v); auto].
    + destruct E as [v E]. exists v. right; auto.
Qed.

Lemma merge_values (single : R * R -> num * num -> Prop) X : angled X -> forall p d,
  List.length p = List.length (fin X) -> List.length d = List.length (fin X) ->
  Forall2 single (fin X) (combine p d) ->
  Forall2 (value_at single) X (combine (merge X (repeat (Some 0) (List.length X)) p) (merge X (repeat (Some 0) (List.length X)) d)).
Proof.
  induction X as [|[[w|] a] X IH]; intros A p d L M F; [constructor| |].
  - destruct a as [a|]; [|exfalso; apply (A w); left; auto].
    destruct p as [|x p]; [discriminate|]. destruct d as [|y d]; [discriminate|]. cbn in *.
    inversion F; subst. constructor; auto. apply IH; eauto using angled_tl.
  - cbn in *. constructor; [reflexivity|]. apply IH; eauto using angled_tl.
Qed.
Lemma merge_length X : forall old new, List.length old = List.length X -> List.length (merge X old new) = List.length X.
Proof.
  induction X as [|x X IH]; intros [|o old] new L; try discriminate; auto. cbn in *.
  destruct (has_wav x); [destruct new|]; cbn; rewrite IH; auto.
Qed.

Theorem any_points ext s off flip X psi delta : model_any ext s off flip X = Ok (psi, delta) ->
  List.length psi = List.length X /\ List.length delta = List.length X /\
  Forall2 (value_at (single ext s off flip)) X (combine psi delta) /\
  (In None (map fst X) -> fst (one_wavelength ext s off flip 1 []) = Ok []).
Proof.
  intros H. destruct (has_unangled X) as [A|[w E]].
  2: { destruct (unangled_raises ext s off flip X w E) as [e K]. congruence. }
  rewrite model_any_fin in H by auto.
  destruct (model ext DFloat s off flip (fin X)) as [[[p d]|e] s'] eqn:Em; cbn [fst] in H; [|discriminate].
  destruct (batch_pointwise _ _ _ _ _ _ _ _ Em) as (F & L1 & L2).
  assert (psi = merge X (repeat (Some 0) (List.length X)) p /\ delta = merge X (repeat (Some 0) (List.length X)) d /\
          (has_nan X = true -> nan_round ext s off flip = Ok tt)) as (-> & -> & N).
  { cbn zeta in H. destruct (has_nan X); [destruct (nan_round ext s off flip) as [[]|]; cbn in H|]; inversion H; auto.
    split; auto. split; auto. intros; discriminate. }
  rewrite !merge_length by (rewrite repeat_length; auto). split; auto. split; auto. split.
  - apply merge_values; auto.
  - intros I. assert (HN : has_nan X = true).
    { apply in_map_iff in I. destruct I as (x & E & I). apply existsb_exists. exists x. split; auto. destruct x as [xw xa]. cbn in E. subst xw. reflexivity. }
    specialize (N HN). unfold nan_round in N.
    destruct (fst (one_wavelength ext s off flip 1 [])) as [v|e] eqn:E1; [|discriminate].
    destruct (one_wavelength_vals _ _ _ _ _ _ _ E1) as [-> _]. reflexivity.
Qed.

Lemma any_unmerge (sgl : R * R -> num * num -> Prop) X : forall pds, Forall2 (value_at sgl) X pds ->
  angled X /\ exists qs, Forall2 sgl (fin X) qs /\
    map fst pds = merge X (repeat (Some 0) (List.length X)) (map fst qs) /\
    map snd pds = merge X (repeat (Some 0) (List.length X)) (map snd qs).
Proof.
  induction X as [|[[w|] a] X IH]; intros pds F; inversion F as [|? pd ? pds' V F' ]; subst.
  - split; [intros w []|]. exists []. cbn. auto.
  - destruct (IH _ F') as (A & qs & G & E1 & E2). destruct a as [a|]; [|contradiction]. split.
    + intros v [K|K]; [discriminate|apply (A v); auto].
    + exists (pd :: qs). cbn. split; [constructor; auto|]. split; congruence.
  - destruct (IH _ F') as (A & qs & G & E1 & E2). cbn in V. subst pd. split.
    + intros v [K|K]; [discriminate|apply (A v); auto].
    + exists qs. cbn. split; auto. split; congruence.
Qed.
Theorem any_from_points ext s off flip X pds :
  Forall2 (value_at (single ext s off flip)) X pds ->
  (In None (map fst X) -> fst (one_wavelength ext s off flip 1 []) = Ok []) ->
  model_any ext s off flip X = Ok (map fst pds, map snd pds).
Proof.
  intros F N. destruct (any_unmerge _ _ _ F) as (A & qs & G & E1 & E2).
  rewrite model_any_fin by auto. rewrite (batch_from_points _ _ _ _ _ _ G). cbn zeta.
  destruct (has_nan X) eqn:HN.
  - unfold nan_round. rewrite N; [rewrite E1, E2; reflexivity|].
    apply existsb_exists in HN. destruct HN as (x & I & K). apply in_map_iff. exists x. destruct x as [[v|] a]; [discriminate|auto].
  - f_equal. symmetry. exact (f_equal2 pair E1 E2).
Qed.

(** ** a nan angle *)
Lemma one_any_two_rows ext s off flip wav aoi rows :
  fst (structure_slabs ext (set_wavelength s (Some wav)) None) = Ok (Some rows) -> (2 <= List.length rows)%nat ->
  fst (one_any ext s off flip wav aoi) = Raise AssertionError \/
  exists vals, fst (one_any ext s off flip wav aoi) = Ok vals.
Proof.
  intros H L. unfold one_any. destruct (all_some aoi) as [a|].
  - unfold one_wavelength. destruct (structure_slabs ext (set_wavelength s (Some wav)) None) as [r s']. cbn [fst] in H.
    subst r. cbn [fst]. destruct rows as [|r0 [|r1 rows]]; cbn in L; try lia.
    unfold Delta_Psi_TMM. cbn [map fst]. set (ls := drop_k (layer_of r0) :: layer_of r1 :: map layer_of rows).
    destruct (mapM l_ri ls) as [RIs|] eqn:EM.
    + assert (LL : List.length RIs = List.length ls).
      { clear -EM. revert RIs EM. induction ls as [|x l IH]; intros RIs EM; cbn in EM.
        - inversion EM; auto.
        - destruct (l_ri x); [|discriminate]. destruct (mapM l_ri l); [|discriminate]. cbn in EM. inversion EM.
          cbn. f_equal. auto. }
      assert (LT : List.length (thicks ls) = List.length ls).
      { unfold ls, thicks. cbn [List.length]. rewrite app_length, map_length.
        destruct (exists_last (l := layer_of r1 :: map layer_of rows)) as (l' & z & E); [discriminate|].
        pose proof (f_equal (@List.length _) E) as E'. rewrite app_length in E'. cbn [List.length] in E'.
        rewrite E. rewrite removelast_last. cbn [List.length]. lia. }
      unfold coh_tmm. destruct RIs as [|n0 RIs]; [discriminate|].
      destruct (negb (forallb _ _)); [left; reflexivity|]. rewrite LL, P_tmm3.thickness_same by congruence.
      change (List.length ls) with (S (S (List.length (map layer_of rows)))). cbn. eauto.
    + destruct (l_ri (layer_of r0)); [cbn; eauto|]. destruct a; [cbn; eauto|left; reflexivity].
  - destruct (structure_slabs ext (set_wavelength s (Some wav)) None) as [r s']. cbn [fst] in *.
    subst r. destruct rows; [cbn in L; lia|]. left; reflexivity.
Qed.
Lemma one_any_state ext s off flip wav aoi : snd (one_any ext s off flip wav aoi) = set_wavelength s (Some wav).
Proof. unfold one_any. destruct (all_some aoi); [apply one_wavelength_state|reflexivity]. Qed.

Theorem unangled_assertion ext s off flip X w : In (Some w, None) X ->
  (forall v, In (Some v) (map fst X) -> exists rows, (2 <= List.length rows)%nat /\
     fst (structure_slabs ext (set_wavelength s (Some v)) None) = Ok (Some rows)) ->
  model_any ext s off flip X = Raise AssertionError.
Proof.
  intros H Rows.
  assert (Rows' : forall v, In v (np_unique (finite_part (map fst X))) -> exists rows, (2 <= List.length rows)%nat /\
     fst (structure_slabs ext (set_wavelength s (Some v)) None) = Ok (Some rows)).
  { intros v I. apply (Rows v). apply (proj1 (np_unique_In _ _)) in I. apply in_flat_map in I. destruct I as ([y|] & J & K); [|contradiction].
    destruct K as [->|[]]. auto. }
  assert (I : In w (np_unique (finite_part (map fst X)))).
  { apply np_unique_In. apply finite_part_In. apply in_map_iff. exists (Some w, None). auto. }
  assert (G : forall wavs s z z2,
    (forall v, In v wavs -> exists rows, (2 <= List.length rows)%nat /\
       fst (structure_slabs ext (set_wavelength s (Some v)) None) = Ok (Some rows)) ->
    In w wavs -> any_loop ext off flip X wavs s z z2 = Raise AssertionError).
  2: { exact (G _ s _ _ Rows' I). }
  clear s Rows Rows' I. intros wavs.
  induction wavs as [|wav wavs IH]; intros s z z2 Rows' I; [contradiction|].
  destruct (any_loop_unangled ext off flip X w H (wav :: wavs) s z z2 I) as [e E].
  destruct (Rows' wav (or_introl eq_refl)) as (rows & L & SL).
  destruct (one_any_two_rows ext s off flip wav (select_any wav X) rows SL L) as [K|[vals K]];
    pose proof (one_any_state ext s off flip wav (select_any wav X)) as ST; cbn [any_loop] in *;
    destruct (one_any ext s off flip wav (select_any wav X)) as [r s'] eqn:EO; cbn [fst snd] in *; subst r s'; auto.
  destruct I as [->|I].
  - exfalso. unfold one_any in EO. destruct (all_some (select_any w X)) eqn:N.
    + assert (J : In None (select_any w X)).
      { unfold select_any. apply in_map_iff. exists (Some w, None). split; auto. apply filter_In. split; auto.
        cbn. destruct (Req_EM_T w w); congruence. }
      rewrite (all_some_None _ J) in N. discriminate.
    + destruct (fst (structure_slabs ext (set_wavelength s (Some w)) None)) as [[[|]|]|]; discriminate.
  - apply IH; auto. intros v V. exact (Rows' v (or_intror V)).
Qed.

(** ** which exceptions slabs() raises does not depend on the wavelength *)
Definition agree {A B} (P : A -> B -> Prop) (a : result A) (b : result B) : Prop :=
  match a, b with Ok x, Ok y => P x y | Raise e, Raise e' => e = e' | _, _ => False end.
Lemma agree_bind {A B A' B'} (P : A -> B -> Prop) (Q : A' -> B' -> Prop) a b f g :
  agree P a b -> (forall x y, P x y -> agree Q (f x) (g y)) -> agree Q (rbind a f) (rbind b g).
Proof. destruct a, b; cbn; auto; contradiction. Qed.
Lemma agree_map {A B A' B'} (P : A -> B -> Prop) (Q : A' -> B' -> Prop) a b (f : A -> A') (g : B -> B') :
  agree P a b -> (forall x y, P x y -> Q (f x) (g y)) -> agree Q (rmap f a) (rmap g b).
Proof. destruct a, b; cbn; auto; contradiction. Qed.
Definition any {A B} (_ : A) (_ : B) : Prop := True.

Lemma np_interp_agree x y xp fp : agree any (np_interp x xp fp) (np_interp y xp fp).
Proof.
  unfold np_interp. destruct (combine xp fp) as [|[x0 y0] rest]; [reflexivity|].
  destruct (Nat.eqb (List.length xp) (List.length fp)); [|reflexivity].
  destruct (Rlt_dec x x0), (Rlt_dec y x0), (Rlt_dec (last xp 0) x), (Rlt_dec (last xp 0) y); exact I.
Qed.
Lemma sc_complex_agree s w w' : w <> 0 -> w' <> 0 -> agree any (sc_complex s (Some w)) (sc_complex s (Some w')).
Proof.
  intros W W'. unfold sc_complex, choose_wav.
  destruct (Req_EM_T w 0) as [K|_]; [contradiction|]. destruct (Req_EM_T w' 0) as [K|_]; [contradiction|].
  assert (EV : forall f, (forall e e', agree any (f e) (f e')) -> agree any (complex_of_epsilon f w) (complex_of_epsilon f w')).
  { intros f F. unfold complex_of_epsilon, nm_eV_conversion.
    destruct (Req_EM_T w 0) as [K|_]; [contradiction|]. destruct (Req_EM_T w' 0) as [K|_]; [contradiction|].
    eapply agree_map; [apply F|]. intros; exact I. }
  destruct (sc_kind s); try exact I; try (apply EV; intros; exact I); try reflexivity.
  - unfold ri_complex. destruct d as [n k|wv n k|wv n k]; [exact I| |destruct (Req_EM_T wv 0); [exact I|reflexivity]]. destruct (np_any wv); [|reflexivity].
    eapply agree_bind; [apply np_interp_agree|]. intros.
    eapply agree_bind; [apply np_interp_agree|]. intros; exact I.
  - apply EV. intros e e'. unfold gauss_epsilon. destruct os as [|o os]; [reflexivity|].
    destruct (mapM (fun o => mapM (gauss_e2 o) e_pad) (o :: os)) as [e2s|]; [|exact I].
    eapply agree_bind; [apply np_interp_agree|]. intros.
    eapply agree_bind; [apply np_interp_agree|]. intros; exact I.
Qed.
Lemma agree_refl {A} (r : result A) : agree any r r.
Proof. destruct r; [exact I|reflexivity]. Qed.
Lemma m_complex_agree m w w' : w <> 0 -> w' <> 0 -> agree any (m_complex m (Some w)) (m_complex m (Some w')).
Proof. intros. unfold m_complex. destruct (m_dispersive m); [apply sc_complex_agree; auto|apply agree_refl]. Qed.
Lemma overall_agree a b a' b' v ema d : agree any (overall_ri_nan a b v ema d) (overall_ri_nan a' b' v ema d).
Proof.
  unfold overall_ri_nan, overall_ri. destruct a, b, a', b'; cbn [rmap];
    destruct (String.eqb ema "linear"), (String.eqb ema "maxwell-garnett"), (String.eqb ema "bruggeman"); cbn; exact I || reflexivity.
Qed.
(** equal up to the index *)
Definition alike (r r' : slab) : Prop := s_thick r = s_thick r' /\ s_rough r = s_rough r' /\ s_vf r = s_vf r'.
Definition oalike (a b : option (list slab)) : Prop :=
  match a, b with Some x, Some y => Forall2 alike x y | None, None => True | _, _ => False end.
Lemma component_agree g g' c w w' : w <> 0 -> w' <> 0 -> g_wavelength g = Some w -> g_wavelength g' = Some w' ->
  g_ema g = g_ema g' -> g_dep g = g_dep g' -> (forall f, c_kind c <> Custom f) ->
  agree oalike (component_slabs g c) (component_slabs g' c).
Proof.
  intros W W' Eg Eg' Em Ed NC. unfold component_slabs. rewrite Eg, Eg', Em, Ed. destruct (c_kind c) as [t m r v|t mA mB v r|f].
  - eapply agree_map; [apply m_complex_agree; auto|]. intros. repeat constructor.
  - eapply agree_bind; [apply m_complex_agree; auto|]. intros.
    eapply agree_bind; [apply m_complex_agree; auto|]. intros.
    eapply agree_map; [apply overall_agree|]. intros. repeat constructor.
  - exfalso. eapply NC; eauto.
Qed.
Lemma agree_mapR {A B} (P : B -> B -> Prop) (f g : A -> result B) (l : list A) :
  (forall x, In x l -> agree P (f x) (g x)) -> agree (Forall2 P) (mapR f l) (mapR g l).
Proof.
  induction l as [|x l IH]; intros H; [constructor|]. cbn.
  eapply agree_bind; [apply H; left; auto|]. intros y z Y.
  eapply agree_map; [apply IH; intros; apply H; right; auto|]. intros; constructor; auto.
Qed.
Lemma F2_app {A B} (P : A -> B -> Prop) a b c d : Forall2 P a b -> Forall2 P c d -> Forall2 P (a ++ c) (b ++ d).
Proof. intros H; induction H; cbn; auto. Qed.
Lemma F2_rev {A B} (P : A -> B -> Prop) a b : Forall2 P a b -> Forall2 P (rev a) (rev b).
Proof. intros H; induction H; cbn; auto. apply F2_app; auto. Qed.
Lemma F2_inner {A B} (P : A -> B -> Prop) a b : Forall2 P a b -> Forall2 P (inner a) (inner b).
Proof.
  intros H. unfold inner. destruct H as [|x y a b _ H]; [constructor|]. cbn [tl].
  induction H as [|x' y' a b Hx H IH]; [constructor|]. cbn [removelast].
  destruct H; [constructor|]. constructor; auto.
Qed.
Lemma concat_agree s w w' : ordinary s -> w <> 0 -> w' <> 0 ->
  agree (Forall2 alike) (concat_slabs (set_wavelength s (Some w))) (concat_slabs (set_wavelength s (Some w'))).
Proof.
  intros [F _] W W'. unfold concat_slabs. eapply agree_map.
  - apply (agree_mapR oalike). intros c C. rewrite Forall_forall in F. destruct (F c C) as [_ NC].
    apply (component_agree _ _ c w w'); auto.
  - intros x y H. induction H as [|a b x y Hab H IH]; [constructor|]. cbn [map List.concat].
    apply F2_app; auto. destruct a, b; try contradiction; auto.
Qed.
Lemma map2_set_rough a b : Forall2 alike a b -> forall r, Forall2 alike (map2 set_rough a r) (map2 set_rough b r).
Proof.
  intros H; induction H as [|x y a b X H IH]; intros [|z r]; cbn; constructor; auto.
  destruct X as (X1 & X2 & X3). repeat split; auto.
Qed.
Lemma reverse_agree a b : Forall2 alike a b -> Forall2 alike (reverse_slabs a) (reverse_slabs b).
Proof.
  intros H. unfold reverse_slabs. assert (E : map s_rough (tl a) = map s_rough (tl b)).
  { destruct H as [|x y a b _ H]; auto. cbn. induction H as [|x' y' a b X H IH]; auto. cbn. f_equal; auto. apply X. }
  rewrite E. destruct (F2_rev _ _ _ H) as [|x y a' b' X H']; constructor.
  - destruct X as (X1 & X2 & X3). repeat split; auto.
  - apply map2_set_rough; auto.
Qed.
Lemma last_alike a b : Forall2 alike a b -> forall d d', alike d d' -> alike (last a d) (last b d').
Proof.
  intros H. induction H as [|x y a b X H IH]; intros d d' D; [auto|]. destruct H; [auto|]. cbn [last] in *. apply IH; auto.
Qed.
Lemma set_inner_agree a b c d : Forall2 alike a b -> Forall2 alike c d -> Forall2 alike (set_inner a c) (set_inner b d).
Proof.
  intros H K. unfold set_inner. destruct H as [|x y a b X H]; [constructor|]. destruct H as [|x' y' a b X' H].
  - constructor; auto.
  - constructor; auto. apply F2_app; auto. constructor; auto. apply last_alike; auto.
Qed.
Lemma mix_agree s a b v v' : Forall2 alike a b -> agree (Forall2 alike) (mix_slabs s a v) (mix_slabs s b v').
Proof.
  intros H. unfold mix_slabs. destruct (known_ema (st_ema s)); [|reflexivity].
  induction H as [|x y a b X H IH]; [constructor|]. cbn [mapR].
  assert (M : agree alike (mix_slab (st_ema s) (st_dep s) v x) (mix_slab (st_ema s) (st_dep s) v' y)).
  { unfold mix_slab. destruct X as (X1 & X2 & X3). rewrite X3.
    eapply agree_map; [apply overall_agree|]. intros. repeat split; auto. }
  eapply agree_bind; [exact M|]. intros y1 z Y. eapply agree_map; [exact IH|]. intros; constructor; auto.
Qed.
Lemma solvate_agree s w w' a b : w <> 0 -> w' <> 0 -> Forall2 alike a b ->
  agree (Forall2 alike) (solvate (set_wavelength s (Some w)) a) (solvate (set_wavelength s (Some w')) b).
Proof.
  intros W W' H. unfold solvate.
  assert (E : existsb (fun r => if Rlt_dec 0 (s_vf r) then true else false) a =
              existsb (fun r => if Rlt_dec 0 (s_vf r) then true else false) b).
  { induction H as [|x y a b X H IH]; auto. cbn. destruct X as (_ & _ & ->). rewrite IH. reflexivity. }
  rewrite E. destruct (existsb _ b); [|exact H]. cbn [st_solvent set_wavelength st_wavelength].
  assert (S1 : agree any match st_solvent s with Some sc => sc_complex sc (Some w) | None => Ok (s_ri (last a (mkSlab 0 None 0 0))) end
                         match st_solvent s with Some sc => sc_complex sc (Some w') | None => Ok (s_ri (last b (mkSlab 0 None 0 0))) end).
  { destruct (st_solvent s); [apply sc_complex_agree; auto|exact I]. }
  eapply agree_bind; [exact S1|]. intros v v' _.
  eapply agree_map; [apply (mix_agree s); apply F2_inner; exact H|].
  intros; apply set_inner_agree; auto.
Qed.
Lemma slabs_agree ext s w w' : ordinary s -> w <> 0 -> w' <> 0 ->
  agree oalike (fst (structure_slabs ext (set_wavelength s (Some w)) None))
               (fst (structure_slabs ext (set_wavelength s (Some w')) None)).
Proof.
  intros OR W W'. pose proof OR as (F & K). unfold structure_slabs. cbn [set_wavelength st_data st_reverse st_contract].
  destruct (st_data s) as [|c0 cs] eqn:D; [exact I|].
  destruct (negb (is_slab (last (c0 :: cs) c0) && is_slab c0)); [reflexivity|].
  assert (B : forallb c_default_interface (c0 :: cs) = true).
  { apply forallb_forall. intros c C. rewrite Forall_forall in F. apply (F c C). }
  rewrite B. cbn [fst]. eapply agree_bind; [apply concat_agree; auto|]. intros x y H.
  eapply agree_map; [apply solvate_agree; auto; destruct (st_reverse s); [apply reverse_agree|]; exact H|].
  intros x' y' H'. destruct (Rlt_dec 0 (st_contract s)); [lra|]. exact H'.
Qed.
Lemma dp_nil (ls : list layer) w off flip :
  fst (Delta_Psi_TMM [] ls w off flip) = if (List.length ls <? 2)%nat then Raise IndexError else Ok [].
Proof.
  destruct ls as [|l0 [|l1 ls]]; auto.
  - unfold Delta_Psi_TMM. cbn. destruct (omap (fun z : C => RtoC (Re z)) (l_ri l0)); cbn; [reflexivity|]. destruct (l_ri l0); reflexivity.
  - unfold Delta_Psi_TMM. cbn [fst map]. destruct (mapM l_ri (drop_k l0 :: l1 :: ls)) as [RIs|] eqn:EM.
    + assert (LL : List.length RIs = List.length (drop_k l0 :: l1 :: ls)).
      { revert EM. generalize (drop_k l0 :: l1 :: ls). intros m. revert RIs. induction m as [|x l IH]; intros RIs EM; cbn in EM.
        - inversion EM; auto.
        - destruct (l_ri x); [|discriminate]. destruct (mapM l_ri l); [|discriminate]. cbn in EM. inversion EM.
          cbn. f_equal. auto. }
      assert (LT : List.length (thicks (drop_k l0 :: l1 :: ls)) = List.length (drop_k l0 :: l1 :: ls)).
      { unfold thicks. cbn [List.length]. rewrite app_length, map_length.
        destruct (exists_last (l := l1 :: ls)) as (l' & z & E); [discriminate|].
        pose proof (f_equal (@List.length _) E) as E'. rewrite app_length in E'. cbn [List.length] in E'.
        rewrite E. rewrite removelast_last. cbn [List.length]. lia. }
      unfold coh_tmm. destruct RIs as [|n0 RIs]; [discriminate|]. cbn [forallb negb].
      rewrite LL, P_tmm3.thickness_same by congruence. reflexivity.
    + destruct (l_ri l0); reflexivity.
Qed.
Theorem errors_same ext s off flip w w' : ordinary s -> w <> 0 -> w' <> 0 ->
  fst (one_wavelength ext s off flip w []) = fst (one_wavelength ext s off flip w' []).
Proof.
  intros OR W W'. pose proof (slabs_agree ext s w w' OR W W') as A. unfold one_wavelength.
  destruct (structure_slabs ext (set_wavelength s (Some w)) None) as [r s1].
  destruct (structure_slabs ext (set_wavelength s (Some w')) None) as [r' s1']. cbn [fst] in A.
  destruct r as [[a|]|e], r' as [[b|]|e']; cbn in A; try contradiction; subst; auto.
  cbn [fst]. rewrite !dp_nil, !map_length, (F2_length _ _ _ A). reflexivity.
Qed.
