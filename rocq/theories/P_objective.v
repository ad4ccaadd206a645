(** * Proofs about the objective *)

Require Import Reals List Bool ZArith String Lra Lia FunctionalExtensionality.
From Coquelicot Require Import Complex.
From Verif Require Import Base M_tmm P_tmm M_disp P_disp M_struct M_model P_struct P_model M_data Spec_data P_data
  M_objective Spec_objective.
Import ListNotations.
Open Scope list_scope.
Open Scope R_scope.

(** ** circular_distance *)
Lemma circ_sym a b per : circular_distance a b per = circular_distance b a per.
Proof. unfold circular_distance. rewrite Rabs_minus_sym. reflexivity. Qed.

Lemma abs_shift_pos a per k : 0 < per -> 0 <= a <= per -> Rmin a (per - a) <= Rabs (a + IZR k * per).
Proof.
  intros P A. destruct (Z_le_gt_dec 0 k) as [H|H].
  - apply IZR_le in H. rewrite Rabs_right by nra. unfold Rmin; destruct (Rle_dec a (per - a)); nra.
  - assert (K : (k <= -1)%Z) by lia. apply IZR_le in K. 
    rewrite Rabs_left1 by nra. unfold Rmin; destruct (Rle_dec a (per - a)); nra.
Qed.

Lemma abs_shift c per k : 0 < per -> Rabs c <= per -> Rmin (Rabs c) (per - Rabs c) <= Rabs (c + IZR k * per).
Proof.
  intros P A. destruct (Rle_lt_dec 0 c) as [H|H].
  - rewrite (Rabs_right c) in * by lra. apply abs_shift_pos; lra.
  - rewrite (Rabs_left c) in * by lra.
    replace (c + IZR k * per) with (- (- c + IZR (- k) * per)) by (rewrite opp_IZR; ring).
    rewrite Rabs_Ropp. apply abs_shift_pos; lra.
Qed.

Theorem circ_is_distance a b per : 0 < per -> Rabs (a - b) <= per ->
  circle_distance per a b (circular_distance a b per) /\
  0 <= circular_distance a b per <= per / 2 /\
  circular_distance b a per = circular_distance a b per /\
  (circular_distance a b per = 0 <-> exists k : Z, a - b = IZR k * per).
Proof.
  intros P A. pose proof (Rabs_pos (a - b)) as A0.
  assert (CD : circle_distance per a b (circular_distance a b per)).
  { split; [|intros k; apply abs_shift; auto].
    unfold circular_distance, Rmin. destruct (Rle_dec (Rabs (a - b)) (per - Rabs (a - b))) as [L|L].
    - exists 0%Z. rewrite Rmult_0_l, Rplus_0_r. reflexivity.
    - destruct (Rle_lt_dec 0 (a - b)) as [S|S].
      + exists (-1)%Z. rewrite (Rabs_right (a - b)) in * by lra. rewrite Rabs_left1 by lra. lra.
      + exists 1%Z. rewrite (Rabs_left (a - b)) in * by lra. rewrite Rabs_right by lra. lra. }
  split; auto. split.
  { unfold circular_distance, Rmin. destruct (Rle_dec (Rabs (a - b)) (per - Rabs (a - b))); lra. }
  split; [apply circ_sym|]. destruct CD as [(k & E) M]. split.
  - intros Z. rewrite Z in E. exists (- k)%Z. symmetry in E. destruct (Req_dec (a - b + IZR k * per) 0) as [Q|Q]; [rewrite opp_IZR; lra|].
    apply Rabs_no_R0 in Q. contradiction.
  - intros (j & J). specialize (M (- j)%Z). rewrite opp_IZR, J in M.
    replace (IZR j * per + - IZR j * per) with 0 in M by ring. rewrite Rabs_R0 in M.
    unfold circular_distance, Rmin in *. destruct (Rle_dec (Rabs (a - b)) (per - Rabs (a - b))); lra.
Qed.

Theorem circ_outside a b per : 0 < per -> per < Rabs (a - b) ->
  circular_distance a b per < 0 /\
  (Rabs (a - b) <= 3 / 2 * per -> forall d, circle_distance per a b d -> (circular_distance a b per) ^ 2 = d ^ 2) /\
  (3 / 2 * per < Rabs (a - b) -> forall d, circle_distance per a b d -> d ^ 2 < (circular_distance a b per) ^ 2).
Proof.
  intros P A.
  assert (E : circular_distance a b per = per - Rabs (a - b)).
  { unfold circular_distance. apply Rmin_right. lra. }
  rewrite E. split; [lra|].
  assert (S : exists s : Z, Rabs (a - b + IZR s * per) = Rabs (a - b) - per /\
     forall k, exists j, Rabs (a - b + IZR k * per) = Rabs (Rabs (a - b) - per + IZR j * per)).
  { destruct (Rle_lt_dec 0 (a - b)) as [H|H].
    - rewrite (Rabs_right (a - b)) in * by lra. exists (-1)%Z. split; [rewrite Rabs_right; lra|].
      intros k. exists (k + 1)%Z. rewrite plus_IZR. f_equal. ring.
    - rewrite (Rabs_left (a - b)) in * by lra. exists 1%Z. split; [rewrite Rabs_left; lra|].
      intros k. exists (- k + 1)%Z. rewrite <- (Rabs_Ropp (a - b + IZR k * per)), plus_IZR, opp_IZR. f_equal. ring. }
  destruct S as (s & S1 & S2). set (x := Rabs (a - b)) in *.
  split.
  - intros U d [(k & D) M]. assert (DX : d = x - per).
    { apply Rle_antisym; [rewrite <- S1; apply M|].
      destruct (S2 k) as (j & J). rewrite D, J.
      pose proof (abs_shift_pos (x - per) per j P ltac:(lra)) as Q.
      rewrite Rmin_left in Q by lra. exact Q. }
    rewrite DX. ring.
  - intros U d [(k & D) M].
    assert (0 <= d) by (rewrite D; apply Rabs_pos).
    assert (d <= per / 2).
    { (* the nearest multiple is at most half a period away *)
      set (c := a - b) in *.
      destruct (archimed (c / per + 1 / 2)) as [U1 U2].
      set (n := (up (c / per + 1 / 2) - 1)%Z).
      assert (Hn : IZR n <= c / per + 1 / 2 < IZR n + 1).
      { unfold n. rewrite minus_IZR. lra. }
      assert (C1 : c = c / per * per) by (field; lra).
      eapply Rle_trans; [apply (M (- n)%Z)|]. rewrite opp_IZR. apply Rabs_le. nra. }
    nra.
Qed.

(** ** unique *)
Lemma unique_In p l : In p (unique l) <-> In p l.
Proof.
  induction l as [|q l IH]; simpl; [tauto|]. rewrite filter_In, IH.
  destruct (Nat.eqb_spec p q); simpl; intuition; subst; auto; discriminate.
Qed.
Lemma unique_NoDup l : NoDup (unique l).
Proof.
  induction l as [|q l IH]; simpl; constructor.
  - rewrite filter_In. intros [_ H]. rewrite Nat.eqb_refl in H. discriminate.
  - apply NoDup_filter; auto.
Qed.

Lemma varying_In sy o p : In p (varying_parameters sy o) <-> In p (parameters sy o) /\ p_vary (sy_params sy p) = true.
Proof. unfold varying_parameters. rewrite unique_In, filter_In. tauto. Qed.
Lemma varying_NoDup sy o : NoDup (varying_parameters sy o).
Proof. apply unique_NoDup. Qed.

(** order of first occurrences *)
Lemma unique_order l : forall i j p q, nth_error (unique l) i = Some p -> nth_error (unique l) j = Some q -> (i < j)%nat ->
  exists l1 l2, l = l1 ++ p :: l2 /\ ~ In p l1 /\ ~ In q l1.
Proof.
  induction l as [|x l IH]; intros i j p q Hi Hj L; [destruct i; discriminate|].
  destruct i as [|i], j as [|j]; try lia; simpl in Hi, Hj.
  - exists [], l. split; [simpl; congruence|]. split; intros [].
  - assert (In p (unique l) /\ p <> x).
    { apply nth_error_In in Hi. apply filter_In in Hi as [H1 H2]. split; auto.
      destruct (Nat.eqb_spec p x); [discriminate|auto]. }
    assert (In q (unique l) /\ q <> x).
    { apply nth_error_In in Hj. apply filter_In in Hj as [H1 H2]. split; auto.
      destruct (Nat.eqb_spec q x); [discriminate|auto]. }
    assert (F : forall (m : list pid) i j, nth_error (filter (fun q => negb (q =? x)) m) i = Some p ->
      nth_error (filter (fun q => negb (q =? x)) m) j = Some q -> (i < j)%nat ->
      exists i' j', nth_error m i' = Some p /\ nth_error m j' = Some q /\ (i' < j')%nat).
    { clear. induction m as [|y m IH]; intros i j Hi Hj L; [destruct i; discriminate|].
      simpl in Hi, Hj. destruct (negb (y =? x)).
      - destruct i as [|i], j as [|j]; try lia; simpl in Hi, Hj.
        + apply nth_error_In in Hj. apply filter_In in Hj as [Hj _]. apply In_nth_error in Hj as [j' Hj'].
          exists 0%nat, (S j'). simpl. split; auto. split; auto. lia.
        + destruct (IH i j Hi Hj) as (i' & j' & A & B & C); [lia|]. exists (S i'), (S j'). simpl. split; auto. split; auto. lia.
      - destruct (IH i j Hi Hj L) as (i' & j' & A & B & C). exists (S i'), (S j'). simpl. split; auto. split; auto. lia. }
    destruct (F (unique l) i j Hi Hj) as (i' & j' & A & B & C); [lia|].
    destruct (IH i' j' p q A B C) as (l1 & l2 & E & N1 & N2).
    exists (x :: l1), l2. split; [simpl; congruence|]. split; intros [?|?]; intuition congruence.
Qed.

(** ** writing *)
Lemma write_same s p x : write s p x p = x.
Proof. unfold write. rewrite Nat.eqb_refl. reflexivity. Qed.
Lemma write_other s p x q : q <> p -> write s p x q = s q.
Proof. intros H. unfold write. destruct (Nat.eqb_spec q p); [contradiction|reflexivity]. Qed.

Lemma write_all_other ps : forall v s q, ~ In q ps -> write_all s ps v q = s q.
Proof.
  unfold write_all. induction ps as [|p ps IH]; intros [|x v] s q H; simpl; auto.
  rewrite IH by (intros I; apply H; right; auto). cbn [fst snd]. apply write_other. intros ->; apply H; left; auto.
Qed.

Lemma write_all_last ps : forall v s q i x, last_at ps q i -> nth_error v i = Some x -> write_all s ps v q = x.
Proof.
  unfold write_all. induction ps as [|p ps IH]; intros v s q i x [H1 H2] Hv; [destruct i; discriminate|].
  destruct v as [|y v]; [destruct i; discriminate|]. simpl. destruct i as [|i]; simpl in H1, Hv.
  - assert (p = q) by congruence. subst p. assert (y = x) by congruence. subst y.
    change (write_all (write s q x) ps v q = x). rewrite write_all_other; [apply write_same|].
    intros I. apply In_nth_error in I as [j J]. apply (H2 (S j)); [lia|exact J].
  - apply (IH v _ q i x); auto. split; auto. intros j L J. apply (H2 (S j)); [lia|exact J].
Qed.

Lemma last_at_NoDup ps q i : NoDup ps -> nth_error ps i = Some q -> last_at ps q i.
Proof.
  intros N H. split; auto. intros j L J.
  assert (i = j); [|lia]. apply (proj1 (NoDup_nth_error ps) N); [|congruence].
  apply nth_error_Some. congruence.
Qed.

Lemma last_at_ex ps q : In q ps -> exists i, last_at ps q i.
Proof.
  induction ps as [|p ps IH]; [intros []|]. intros H. destruct (in_dec Nat.eq_dec q ps) as [I|I].
  - destruct (IH I) as (i & H1 & H2). exists (S i). split; auto.
    intros [|j] L; [lia|]. simpl. apply H2. lia.
  - destruct H as [->|H]; [|contradiction]. exists 0%nat. split; auto.
    intros [|j] L; [lia|]. simpl. intros J. apply I. eapply nth_error_In; eauto.
Qed.

(** ** setp *)
Theorem setp_varying sy o v st : well_formed sy -> List.length v = List.length (varying_parameters sy o) ->
  exists st', setp sy o (Some v) st = (Ok tt, st') /\
    (forall i p x, nth_error (varying_parameters sy o) i = Some p -> nth_error v i = Some x -> value sy st' p = x) /\
    (forall q, ~ In q (varying_parameters sy o) -> st_store st' q = st_store st q) /\
    st_wavelengths st' = st_wavelengths st /\ st_flips st' = st_flips st.
Proof.
  intros WF L. unfold setp. rewrite L, Nat.eqb_refl. eexists. split; [reflexivity|].
  cbn [set_store st_store st_wavelengths st_flips]. split; [|split; auto].
  - intros i p x Hp Hx. unfold value, read. rewrite WF.
    + apply (write_all_last _ v _ p i x); auto. apply last_at_NoDup; auto. apply varying_NoDup.
    + apply nth_error_In in Hp. apply varying_In in Hp. tauto.
  - intros q Hq. apply write_all_other; auto.
Qed.

Theorem setp_full sy o v st : List.length v = List.length (parameters sy o) ->
  List.length v <> List.length (varying_parameters sy o) ->
  exists st', setp sy o (Some v) st = (Ok tt, st') /\
    (forall i p x, last_at (parameters sy o) p i -> nth_error v i = Some x -> st_store st' p = x) /\
    (forall q, ~ In q (parameters sy o) -> st_store st' q = st_store st q) /\
    st_wavelengths st' = st_wavelengths st /\ st_flips st' = st_flips st.
Proof.
  intros L N. unfold setp. destruct (Nat.eqb_spec (List.length v) (List.length (varying_parameters sy o))); [contradiction|].
  rewrite L, Nat.eqb_refl. eexists. split; [reflexivity|].
  cbn [set_store st_store st_wavelengths st_flips]. split; [|split; auto].
  - intros i p x Hp Hx. apply (write_all_last _ v _ p i x); auto.
  - intros q Hq. apply write_all_other; auto.
Qed.

Theorem setp_wrong sy o v st : List.length v <> List.length (parameters sy o) ->
  List.length v <> List.length (varying_parameters sy o) -> setp sy o (Some v) st = (Raise ValueError, st).
Proof.
  intros N1 N2. unfold setp.
  destruct (Nat.eqb_spec (List.length v) (List.length (varying_parameters sy o))); [contradiction|].
  destruct (Nat.eqb_spec (List.length v) (List.length (parameters sy o))); [contradiction|]. reflexivity.
Qed.

(** ** only the values of the objective's parameters matter *)
Definition same (sy : system) (o : objective) (st st' : state) : Prop :=
  (forall p, In p (parameters sy o) -> value sy st p = value sy st' p) /\
  nth (ob_model o) (st_flips st) false = nth (ob_model o) (st_flips st') false.
Definition respects (sy : system) (o : objective) {A} (f : call A) : Prop :=
  forall st st', same sy o st st' -> fst (f st) = fst (f st') /\ same sy o (snd (f st)) (snd (f st')).

Lemma same_store sy o st st' : st_store st = st_store st' -> st_flips st = st_flips st' -> same sy o st st'.
Proof. intros E F. split; [|congruence]. intros p _. unfold value. rewrite E. reflexivity. Qed.

Lemma respects_ret sy o {A} (a : A) : respects sy o (ret a).
Proof. intros st st' S. split; auto. Qed.
Lemma respects_raise sy o {A} e : respects sy o (@raise A e).
Proof. intros st st' S. split; auto. Qed.
Lemma respects_lift sy o {A} (r : result A) : respects sy o (lift r).
Proof. intros st st' S. split; auto. Qed.
Lemma respects_bind sy o {A B} (x : call A) (f : A -> call B) :
  respects sy o x -> (forall a, respects sy o (f a)) -> respects sy o (bind x f).
Proof.
  intros Hx Hf st st' S. destruct (Hx st st' S) as [E1 E2]. unfold bind.
  destruct (x st) as [[a|e] s1], (x st') as [[a'|e'] s1']; simpl in *; try discriminate.
  - assert (a = a') by congruence. subst a'. apply Hf; auto.
  - split; [congruence|auto].
Qed.
Lemma respects_setp sy o o' : respects sy o (setp sy o' None).
Proof. intros st st' S. split; auto. Qed.

(** a structure is read through its parameters only *)
Lemma inst_scat_ext v v' s : (forall p, In p (scat_params s) -> v p = v' p) -> inst_scat v s = inst_scat v' s.
Proof.
  intros H. unfold inst_scat, scat_params in *. destruct s as [[]]; cbn [sct_kind] in *; auto.
  - rewrite (H A), (H B), (H Cc) by (simpl; tauto). reflexivity.
  - rewrite (H Am), (H En), (H P), (H Einf) by (simpl; tauto). reflexivity.
  - rewrite (H Einf) by (rewrite !in_app_iff; simpl; tauto).
    unfold oscillators. rewrite (map_ext_in v v' Am), (map_ext_in v v' Br), (map_ext_in v v' En);
      auto; intros p I; apply H; rewrite !in_app_iff; tauto.
  - rewrite (H Einf) by (rewrite !in_app_iff; simpl; tauto).
    unfold oscillators. rewrite (map_ext_in v v' Am), (map_ext_in v v' Br), (map_ext_in v v' En);
      auto; intros p I; apply H; rewrite !in_app_iff; tauto.
  - rewrite (H Einf), (H Eg) by (rewrite !in_app_iff; simpl; tauto).
    unfold oscillators. rewrite (map_ext_in v v' Am), (map_ext_in v v' Cc), (map_ext_in v v' En);
      auto; intros p I; apply H; rewrite !in_app_iff; tauto.
  - rewrite (map_ext_in v v' ps); auto.
Qed.
Lemma inst_component_ext v v' c : (forall p, In p (component_params c) -> v p = v' p) ->
  inst_component v c = inst_component v' c.
Proof.
  intros H. unfold inst_component, component_params, inst_material in *. destruct c as [[]]; cbn [ct_kind] in *.
  - rewrite (H thick), (H rough), (H vfsolv) by (rewrite ?in_app_iff; simpl; tauto).
    rewrite (inst_scat_ext v v'); auto. intros p I. apply H. rewrite !in_app_iff. tauto.
  - rewrite (H thick), (H rough), (H vf_B) by (rewrite ?in_app_iff; simpl; tauto).
    rewrite (inst_scat_ext v v' (mt_scat ri_A)), (inst_scat_ext v v' (mt_scat ri_B)); auto;
      intros p I; apply H; rewrite !in_app_iff; tauto.
  - rewrite (map_ext_in v v' ps); auto.
Qed.
Lemma inst_structure_ext v v' w s : (forall p, In p (structure_params s) -> v p = v' p) ->
  inst_structure v w s = inst_structure v' w s.
Proof.
  intros H. unfold inst_structure, structure_params in *. f_equal.
  - apply map_ext_in. intros c I. apply inst_component_ext. intros p J. apply H. rewrite in_app_iff. left.
    apply in_flat_map. eauto.
  - destruct (stt_solvent s) as [sc|]; auto. f_equal. apply inst_scat_ext. intros p J. apply H.
    rewrite in_app_iff. tauto.
Qed.

Lemma current_set sy o st st' : same sy o st st' ->
  current sy st' (ob_model o) = set_wavelength (current sy st (ob_model o)) (st_wavelength (current sy st' (ob_model o))).
Proof.
  intros [S _]. unfold current. rewrite (inst_structure_ext (value sy st) (value sy st')); [reflexivity|].
  intros p I. apply S. unfold parameters, model_params. rewrite in_app_iff. right. right. exact I.
Qed.

Lemma same_value sy o st st' : same sy o st st' ->
  value sy st (mo_offset (the_model sy (ob_model o))) = value sy st' (mo_offset (the_model sy (ob_model o))).
Proof. intros [S _]. apply S. unfold parameters, model_params. rewrite in_app_iff. right. left. reflexivity. Qed.

Lemma respects_model sy o X : respects sy o (call_model sy (ob_model o) X).
Proof.
  intros st st' S. unfold call_model. rewrite (current_set sy o st st' S), <- (same_value sy o st st' S).
  destruct S as [S1 S2]. rewrite <- S2.
  destruct (model_forgets (sy_ext sy) DFloat (current sy st (ob_model o)) (st_wavelength (current sy st' (ob_model o)))
    (value sy st (mo_offset (the_model sy (ob_model o)))) (nth (ob_model o) (st_flips st) false) X) as [E _].
  destruct (model (sy_ext sy) DFloat (current sy st (ob_model o)) _ _ _) as [r s].
  destruct (model (sy_ext sy) DFloat (set_wavelength _ _) _ _ _) as [r' s'].
  cbn [fst snd] in *. split; auto. split; auto.
Qed.

Lemma respects_evaluate sy o : respects sy o (evaluate sy o).
Proof.
  unfold evaluate. apply respects_bind; [apply respects_lift|]. intros [[[w a] p] x].
  apply respects_bind; [apply respects_lift|]. intros X.
  apply respects_bind; [apply respects_model|]. intros [psi delta].
  apply respects_bind; [apply respects_lift|]. intros psi_d.
  apply respects_bind; [apply respects_lift|]. intros delta_d. apply respects_ret.
Qed.

(** what the methods do after setting the parameters *)
Definition residuals_now sy o : call (list num) :=
  bind (evaluate sy o) (fun '(psi, delta, psi_d, delta_d) =>
  bind (lift (zip_columns (fun x y => circular_distance x y 360) delta delta_d)) (fun delta_err =>
  bind (lift (zip_columns Rminus psi psi_d)) (fun psi_err => ret (psi_err ++ delta_err)))).
Definition chisqr_now sy o : call num :=
  bind (residuals sy o None) (fun res => ret (nsum (map (omap (fun x => x * x)) res))).
Definition logp_now sy o : call (option R) := fun st =>
  (Ok (nsum (map (fun p => bounds_logp (p_bounds (sy_params sy p)) (value sy st p)) (varying_parameters sy o))), st).
Definition logl_now sy o : call R :=
  bind (evaluate sy o) (fun '(psi, delta, _, _) st0 =>
  let var_y := variances sy st0 o psi delta in
  bind (residuals sy o None) (fun res =>
  match all_some (map2 (logl_term (weighted o)) var_y res) with
  | Some l => ret (- (1 / 2) * Rsum l)
  | None => raise RuntimeError
  end) st0).
Definition logpost_now sy o : call (option R) :=
  bind (logp sy o None) (fun lp =>
  match lp with
  | None => ret None
  | Some x => bind (logl sy o None) (fun y => ret (Some (x + y)))
  end).

Lemma respects_residuals sy o : respects sy o (residuals_now sy o).
Proof.
  apply respects_bind; [apply respects_evaluate|]. intros [[[psi delta] psi_d] delta_d].
  apply respects_bind; [apply respects_lift|]. intros de.
  apply respects_bind; [apply respects_lift|]. intros pe. apply respects_ret.
Qed.
Lemma respects_residuals0 sy o : respects sy o (residuals sy o None).
Proof. apply respects_bind; [apply respects_setp|]. intros _. apply respects_residuals. Qed.
Lemma respects_chisqr sy o : respects sy o (chisqr_now sy o).
Proof. apply respects_bind; [apply respects_residuals0|]. intros r. apply respects_ret. Qed.
Lemma respects_logp sy o : respects sy o (logp_now sy o).
Proof.
  intros st st' S. split; auto. unfold logp_now. cbn [fst]. f_equal. f_equal. apply map_ext_in.
  intros p I. apply varying_In in I as [I _]. rewrite (proj1 S p I). reflexivity.
Qed.
Lemma respects_logl sy o : respects sy o (logl_now sy o).
Proof.
  apply respects_bind; [apply respects_evaluate|]. intros [[[psi delta] psi_d] delta_d] st st' S.
  assert (V : variances sy st o psi delta = variances sy st' o psi delta).
  { unfold variances. destruct (ob_lnsigma o) as [p|] eqn:L; auto. rewrite (proj1 S p); auto.
    unfold parameters. rewrite L. left; auto. }
  rewrite V. apply (respects_bind sy o (residuals sy o None)); auto; [apply respects_residuals0|].
  intros r. destruct (all_some _); [apply respects_ret|apply respects_raise].
Qed.
Lemma respects_logpost sy o : respects sy o (logpost_now sy o).
Proof.
  apply respects_bind.
  { apply respects_bind; [apply respects_setp|]. intros _. apply respects_logp. }
  intros [x|]; [|apply respects_ret].
  apply respects_bind.
  { apply respects_bind; [apply respects_setp|]. intros _. apply respects_logl. }
  intros y. apply respects_ret.
Qed.

Theorem only_parameters sy o st st' :
  (forall p, In p (parameters sy o) -> value sy st p = value sy st' p) ->
  nth (ob_model o) (st_flips st) false = nth (ob_model o) (st_flips st') false ->
  fst (residuals sy o None st) = fst (residuals sy o None st') /\
  fst (chisqr sy o None st) = fst (chisqr sy o None st') /\
  fst (logp sy o None st) = fst (logp sy o None st') /\
  fst (logl sy o None st) = fst (logl sy o None st') /\
  fst (logpost sy o None st) = fst (logpost sy o None st').
Proof.
  intros H1 H2. assert (S : same sy o st st') by (split; auto).
  split; [apply respects_residuals0; auto|]. split; [apply respects_chisqr; auto|].
  split; [apply respects_logp; auto|]. split; [apply respects_logl; auto|apply respects_logpost; auto].
Qed.

(** ** what a call can change *)
Definition frame (P : pid -> Prop) (st st' : state) : Prop :=
  (forall q, ~ P q -> st_store st' q = st_store st q) /\ st_flips st' = st_flips st.
Definition frames (P : pid -> Prop) {A} (f : call A) : Prop := forall st, frame P st (snd (f st)).
Lemma frame_refl P st : frame P st st. Proof. split; auto. Qed.
Lemma frame_trans P a b c : frame P a b -> frame P b c -> frame P a c.
Proof. intros [H1 H2] [H3 H4]. split; [|congruence]. intros q N. rewrite H3, H1; auto. Qed.
Lemma frame_mono (P Q : pid -> Prop) a b : (forall q, P q -> Q q) -> frame P a b -> frame Q a b.
Proof. intros I [H1 H2]. split; auto. Qed.

Lemma frames_bind P {A B} (x : call A) (f : A -> call B) : frames P x -> (forall a, frames P (f a)) -> frames P (bind x f).
Proof.
  intros Hx Hf st. unfold bind. specialize (Hx st). destruct (x st) as [[a|e] s]; cbn [snd] in *; auto.
  eapply frame_trans; eauto. apply Hf.
Qed.
Lemma frames_pure P {A} (r : result A) : frames P (lift r). Proof. intros st; apply frame_refl. Qed.
Lemma frames_ret P {A} (a : A) : frames P (ret a). Proof. intros st; apply frame_refl. Qed.
Lemma frames_raise P {A} e : frames P (@raise A e). Proof. intros st; apply frame_refl. Qed.
Lemma frames_model P sy m X : frames P (call_model sy m X).
Proof.
  intros st. unfold call_model. destruct (model _ _ _ _ _ _) as [r s]. split; auto.
Qed.
Lemma frames_setp sy o v : partial_vector sy o v -> frames (fun q => In q (varying_parameters sy o)) (setp sy o v).
Proof.
  intros PV st. unfold setp. destruct v as [v|]; [|apply frame_refl].
  destruct (Nat.eqb_spec (List.length v) (List.length (varying_parameters sy o))) as [L|L].
  - split; cbn; auto. intros q N. apply write_all_other; auto.
  - destruct (Nat.eqb_spec (List.length v) (List.length (parameters sy o))) as [L'|L']; [|apply frame_refl].
    destruct PV; contradiction.
Qed.
Lemma frames_setp_none P sy o : frames P (setp sy o None).
Proof. intros st. apply frame_refl. Qed.
Lemma frames_evaluate P sy o : frames P (evaluate sy o).
Proof.
  unfold evaluate. apply frames_bind; [apply frames_pure|]. intros [[[w a] p] x].
  apply frames_bind; [apply frames_pure|]. intros X.
  apply frames_bind; [apply frames_model|]. intros [psi delta].
  apply frames_bind; [apply frames_pure|]. intros psi_d.
  apply frames_bind; [apply frames_pure|]. intros delta_d. apply frames_ret.
Qed.
Lemma frames_after_residuals P sy o v : frames P (setp sy o v) -> frames P (residuals sy o v).
Proof.
  intros H. unfold residuals. apply frames_bind; auto. intros _.
  apply frames_bind; [apply frames_evaluate|]. intros [[[psi delta] psi_d] delta_d].
  apply frames_bind; [apply frames_pure|]. intros de.
  apply frames_bind; [apply frames_pure|]. intros pe. apply frames_ret.
Qed.
Lemma frames_chisqr P sy o v : frames P (setp sy o v) -> frames P (chisqr sy o v).
Proof.
  intros H. unfold chisqr. apply frames_bind; auto. intros _.
  apply frames_bind; [apply frames_after_residuals, frames_setp_none|]. intros r. apply frames_ret.
Qed.
Lemma frames_logp P sy o v : frames P (setp sy o v) -> frames P (logp sy o v).
Proof. intros H. unfold logp. apply frames_bind; auto. intros _ st. apply frame_refl. Qed.
Lemma frames_logl P sy o v : frames P (setp sy o v) -> frames P (logl sy o v).
Proof.
  intros H. unfold logl. apply frames_bind; auto. intros _.
  apply frames_bind; [apply frames_evaluate|]. intros [[[psi delta] psi_d] delta_d] st.
  apply (frames_bind P (residuals sy o None)); [apply frames_after_residuals, frames_setp_none|].
  intros r. destruct (all_some _); [apply frames_ret|apply frames_raise].
Qed.
Lemma frames_logpost P sy o v : frames P (setp sy o v) -> frames P (logpost sy o v).
Proof.
  intros H. unfold logpost. apply frames_bind; auto. intros _.
  apply frames_bind; [apply frames_logp, frames_setp_none|]. intros [x|]; [|apply frames_ret].
  apply frames_bind; [apply frames_logl, frames_setp_none|]. intros y. apply frames_ret.
Qed.

(** ** covar *)
Lemma frames_diff P n f d : visits n d -> (forall v, List.length v = n -> frames P (f v)) -> frames P (run_diff f d).
Proof.
  intros V F. induction V as [v k L V IH|jac|e]; cbn [run_diff].
  - intros st. destruct (f v st) as [r st'] eqn:E. eapply frame_trans; [|apply IH].
    specialize (F v L st). rewrite E in F. exact F.
  - apply frames_ret.
  - apply frames_raise.
Qed.

Lemma setp_restore sy o st st1 : well_formed sy ->
  frame (fun q => In q (varying_parameters sy o)) st st1 ->
  exists st2, setp sy o (Some (map (value sy st) (varying_parameters sy o))) st1 = (Ok tt, st2) /\
    st_store st2 = st_store st /\ st_flips st2 = st_flips st.
Proof.
  intros WF [F1 F2].
  destruct (setp_varying sy o (map (value sy st) (varying_parameters sy o)) st1 WF) as (st2 & E & V & N & _ & FL);
    [rewrite map_length; auto|].
  exists st2. split; auto. split; [|congruence]. apply functional_extensionality. intros q.
  destruct (in_dec Nat.eq_dec q (varying_parameters sy o)) as [I|I].
  - apply In_nth_error in I as [i Hi]. specialize (V i q (value sy st q) Hi (map_nth_error _ _ _ Hi)).
    apply nth_error_In in Hi. apply varying_In in Hi as [_ Hv]. unfold value, read in V. rewrite (WF q Hv) in V. exact V.
  - rewrite N by auto. apply F1; auto.
Qed.

Theorem covar_restores sy o a1 a2 alg st : well_formed sy ->
  (forall v, visits (List.length v) (a1 v) /\ visits (List.length v) (a2 v)) ->
  st_store (snd (covar sy o a1 a2 alg st)) = st_store st /\
  st_flips (snd (covar sy o a1 a2 alg st)) = st_flips st.
Proof.
  intros WF V. unfold covar.
  set (pvals := map (value sy st) (varying_parameters sy o)).
  assert (LP : List.length pvals = List.length (varying_parameters sy o)) by apply map_length.
  set (P := fun q => In q (varying_parameters sy o)).
  assert (RF : forall v, List.length v = List.length pvals -> frames P (residuals sy o (Some v))).
  { intros v L. apply frames_after_residuals, frames_setp. left. congruence. }
  assert (F1 : frames P (run_diff (fun vals => residuals sy o (Some (map2 Rmult pvals vals))) (a1 (map (fun _ => 1) pvals)))).
  { apply (frames_diff P (List.length (map (fun _ : R => 1) pvals))); [apply V|].
    intros v L. apply RF. rewrite map2_length, L, map_length. lia. }
  assert (F2 : frames P (run_diff (fun vals => residuals sy o (Some vals)) (a2 pvals))).
  { apply (frames_diff P (List.length pvals)); [apply V|]. exact RF. }
  assert (FT : frame P st (snd (jacobian sy o pvals a1 a2 st))).
  { unfold jacobian. destruct (existsb _ pvals).
    - specialize (F2 st). destruct (run_diff _ _ _) as [r s]. exact F2.
    - specialize (F1 st). destruct (run_diff _ (a1 _) st) as [[j|e] s]; [exact F1|].
      specialize (F2 s). destruct e; try exact F1.
      destruct (run_diff _ (a2 pvals) s) as [r s2]. eapply frame_trans; eauto. }
  destruct (jacobian sy o pvals a1 a2 st) as [[jac used] st1]. cbn [snd] in FT.
  destruct (setp_restore sy o st st1 WF FT) as (st2 & E & S1 & S2). fold pvals in E. rewrite E.
  match goal with |- context[snd (?f st2)] => assert (FF : frames (fun _ => False) f) end.
  { apply frames_bind; [apply frames_pure|]. intros j. apply frames_bind; [apply frames_pure|]. intros cov.
    destruct (weighted o); [apply frames_ret|].
    apply frames_bind; [apply frames_chisqr, frames_setp_none|]. intros c2.
    destruct (obind c2 _); [apply frames_ret|apply frames_raise]. }
  destruct (FF st2) as [G1 G2]. split; [|congruence].
  rewrite <- S1. apply functional_extensionality. intros q. apply G1. tauto.
Qed.

(** ** histories *)
Lemma step_frame sy o e st : well_formed sy -> allowed sy o e ->
  frame (fun q => In q (varying_parameters sy o)) st (step sy st e).
Proof.
  intros WF A.
  assert (K : forall o' v, incl (varying_parameters sy o') (varying_parameters sy o) /\ partial_vector sy o' v ->
    frames (fun q => In q (varying_parameters sy o)) (setp sy o' v)).
  { intros o' v [I PV] st0. eapply frame_mono; [|apply frames_setp; eauto]. auto. }
  destruct e; cbn [step allowed] in *.
  - apply K; auto.
  - apply frames_after_residuals, K; auto.
  - apply frames_chisqr, K; auto.
  - apply frames_logp, K; auto.
  - apply frames_logl, K; auto.
  - apply frames_logpost, K; auto.
  - destruct (covar_restores sy o0 a1 a2 algebra st WF A) as [S1 S2]. split; auto. intros; rewrite S1; auto.
  - split; auto.
Qed.

Lemma history_frame sy o es : well_formed sy -> Forall (allowed sy o) es -> forall st,
  frame (fun q => In q (varying_parameters sy o)) st (fold_left (step sy) es st).
Proof.
  intros WF F. induction F as [|e es A F IH]; intros st; cbn [fold_left]; [apply frame_refl|].
  eapply frame_trans; [apply step_frame; eauto|apply IH].
Qed.

Lemma setp_forgets sy o v st st' : List.length v = List.length (varying_parameters sy o) ->
  frame (fun q => In q (varying_parameters sy o)) st st' ->
  fst (setp sy o (Some v) st) = Ok tt /\ fst (setp sy o (Some v) st') = Ok tt /\
  same sy o (snd (setp sy o (Some v) st)) (snd (setp sy o (Some v) st')).
Proof.
  intros L [F1 F2]. unfold setp. rewrite L, Nat.eqb_refl. cbn [fst snd]. split; auto. split; auto.
  apply same_store; cbn; auto. apply functional_extensionality. intros q.
  destruct (in_dec Nat.eq_dec q (varying_parameters sy o)) as [I|I].
  - destruct (last_at_ex _ _ I) as (i & Hi).
    assert (Hx : exists x, nth_error v i = Some x).
    { destruct (nth_error v i) eqn:E; eauto. apply nth_error_None in E. destruct Hi as [Hi _].
      assert (nth_error (varying_parameters sy o) i = None) by (apply nth_error_None; lia). congruence. }
    destruct Hx as [x Hx]. rewrite !(write_all_last _ _ _ _ i x); auto.
  - rewrite !write_all_other by auto. symmetry. apply F1; auto.
Qed.

Lemma bind_forgets {A} sy o v st st' (f : call A) : respects sy o f ->
  List.length v = List.length (varying_parameters sy o) ->
  frame (fun q => In q (varying_parameters sy o)) st st' ->
  fst (bind (setp sy o (Some v)) (fun _ => f) st') = fst (bind (setp sy o (Some v)) (fun _ => f) st).
Proof.
  intros RF L F. destruct (setp_forgets sy o v st st' L F) as (E1 & E2 & S). unfold bind.
  destruct (setp sy o (Some v) st) as [r1 s1], (setp sy o (Some v) st') as [r2 s2]. cbn [fst snd] in *. subst.
  symmetry. apply RF; auto.
Qed.

Theorem history_irrelevant sy o es st v : well_formed sy -> Forall (allowed sy o) es ->
  List.length v = List.length (varying_parameters sy o) ->
  let st' := fold_left (step sy) es st in
  fst (residuals sy o (Some v) st') = fst (residuals sy o (Some v) st) /\
  fst (chisqr sy o (Some v) st') = fst (chisqr sy o (Some v) st) /\
  fst (logp sy o (Some v) st') = fst (logp sy o (Some v) st) /\
  fst (logl sy o (Some v) st') = fst (logl sy o (Some v) st) /\
  fst (logpost sy o (Some v) st') = fst (logpost sy o (Some v) st).
Proof.
  intros WF F L st'. pose proof (history_frame sy o es WF F st) as FR. fold st' in FR.
  split; [|split; [|split; [|split]]].
  - apply (bind_forgets sy o v st st' (residuals_now sy o)); auto. apply respects_residuals.
  - apply (bind_forgets sy o v st st' (chisqr_now sy o)); auto. apply respects_chisqr.
  - apply (bind_forgets sy o v st st' (logp_now sy o)); auto. apply respects_logp.
  - apply (bind_forgets sy o v st st' (logl_now sy o)); auto. apply respects_logl.
  - apply (bind_forgets sy o v st st' (logpost_now sy o)); auto. apply respects_logpost.
Qed.
