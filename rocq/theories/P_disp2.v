(** * Proofs about oscillator models *)

Require Import Reals List Bool ZArith String Lra Lia Psatz Sorting.Sorted Sorting.Permutation.
From Coquelicot Require Import Complex.
From Verif Require Import Base Cplx M_ema Spec_ema P_ema M_disp Spec_disp P_disp.
Import ListNotations.
Open Scope R_scope.

(** ** sums of contributions *)
Lemma osum_app l1 l2 : osum (l1 ++ l2) = olift2 Cplus (osum l1) (osum l2).
Proof.
  induction l1 as [|x l IH]; simpl.
  - destruct (osum l2) as [z|]; simpl; auto. f_equal. ring.
  - rewrite IH. destruct x as [a|]; simpl; auto.
    destruct (osum l) as [b|]; simpl; auto. destruct (osum l2) as [c|]; simpl; auto. f_equal. ring.
Qed.

Lemma osum_perm l1 l2 : Permutation l1 l2 -> osum l1 = osum l2.
Proof.
  induction 1; simpl; auto; try congruence.
  destruct x as [a|], y as [b|], (osum l) as [c|]; simpl; auto. f_equal. ring.
Qed.

Lemma osum_inv l z : osum l = Some z -> Forall (fun x => x <> None) l.
Proof.
  revert z; induction l as [|x l IH]; intros z H; constructor.
  - destruct x; [discriminate|simpl in H; discriminate].
  - simpl in H. destruct x; [|discriminate]. destruct (osum l) as [s|]; [|discriminate]. exact (IH s eq_refl).
Qed.

Lemma osum_None l : Exists (fun x => x = None) l -> osum l = None.
Proof.
  induction 1 as [x l H|x l H IH]; simpl.
  - subst; auto.
  - rewrite IH. destruct x; auto.
Qed.

Lemma osum_Some l : Forall (fun x => x <> None) l -> exists z, osum l = Some z.
Proof.
  induction 1 as [|x l H _ [z IH]]; [simpl; eauto|].
  destruct x; [|congruence]. simpl. rewrite IH. simpl. eauto.
Qed.

(** imaginary part of a sum, given the imaginary part of each term *)
Lemma osum_Im {A} (f : A -> option C) (g : A -> R) (l : list A) z :
  (forall a w, In a l -> f a = Some w -> Im w = g a) ->
  osum (map f l) = Some z -> Im z = fold_right Rplus 0 (map g l).
Proof.
  revert z; induction l as [|a l IH]; intros z H E.
  - simpl in E. assert (z = RtoC 0) as -> by congruence. reflexivity.
  - simpl in E. destruct (f a) as [w|] eqn:Ea; [|discriminate].
    destruct (osum (map f l)) as [s|] eqn:Es; [|discriminate]. simpl in E.
    assert (z = (w + s)%C) as -> by congruence.
    simpl. rewrite <- (IH s); auto; [|intros; apply H; simpl; auto].
    rewrite <- (H a w); simpl; auto.
Qed.

Lemma sum_nonneg (l : list R) : Forall (fun x => 0 <= x) l -> 0 <= fold_right Rplus 0 l.
Proof. induction 1; simpl; lra. Qed.

(** ** Lorentz *)
Lemma lorentz_den B E e : (RtoC (E ^ 2 - e ^ 2) - Ci * RtoC (B * e))%C = (E ^ 2 - e ^ 2, - (B * e)).
Proof. apply C_eq; simpl; ring. Qed.

Lemma sq_sum_pos a b : ~ (a = 0 /\ b = 0) -> 0 < a ^ 2 + b ^ 2.
Proof.
  intros H. assert (0 <= a ^ 2) by nra. assert (0 <= b ^ 2) by nra.
  destruct (Req_dec a 0) as [Ha|Ha].
  - destruct (Req_dec b 0) as [Hb|Hb]; [tauto|]. assert (0 < b ^ 2) by nra. lra.
  - assert (0 < a ^ 2) by nra. lra.
Qed.

Lemma lorentz_term_value A B E e : ~ (E ^ 2 = e ^ 2 /\ B * e = 0) ->
  lorentz_term e (A, B, E) =
  Some (A * (E ^ 2 - e ^ 2) / ((E ^ 2 - e ^ 2) ^ 2 + (B * e) ^ 2), lorentz_absorption A B E e).
Proof.
  intros H. unfold lorentz_term, cdivo. rewrite lorentz_den.
  assert (HD : 0 < (E ^ 2 - e ^ 2) ^ 2 + (B * e) ^ 2) by (apply sq_sum_pos; intros [? ?]; apply H; split; lra).
  destruct Ceq_dec as [E0|E0].
  - exfalso. apply H. split; [apply (f_equal Re) in E0|apply (f_equal Im) in E0]; simpl in E0; lra.
  - f_equal. unfold lorentz_absorption. clear E0 H.
    set (u := E ^ 2 - e ^ 2) in *. set (v := B * e) in *. apply C_eq.
    + simpl. field. simpl in HD. lra.
    + replace (A * B * e) with (A * v) by (unfold v; ring). clearbody u v. simpl. field. simpl in HD. lra.
Qed.

Lemma lorentz_term_none A B E e : E ^ 2 = e ^ 2 -> B * e = 0 -> lorentz_term e (A, B, E) = None.
Proof.
  intros H1 H2. unfold lorentz_term, cdivo. rewrite lorentz_den.
  destruct Ceq_dec as [E0|E0]; auto. exfalso. apply E0. apply C_eq; simpl in *; lra.
Qed.


Lemma lorentz_defined os Einf e :
  lorentz_epsilon os Einf e <> None <->
  Forall (fun o => ~ (osc_E o ^ 2 = e ^ 2 /\ osc_B o * e = 0)) os.
Proof.
  unfold lorentz_epsilon. split.
  - intros H. destruct (osum (map (lorentz_term e) os)) as [z|] eqn:E; [|simpl in H; congruence].
    apply osum_inv in E. rewrite Forall_map in E.
    eapply Forall_impl; [|exact E]. intros [[A B] En] Hn [H1 H2]. unfold osc_E, osc_B in *; cbn [fst snd] in *.
    apply Hn. apply lorentz_term_none; auto.
  - intros H. destruct (osum_Some (map (lorentz_term e) os)) as [z E].
    + rewrite Forall_map. eapply Forall_impl; [|exact H]. intros [[A B] En] Hn.
      unfold osc_E, osc_B in *; cbn [fst snd] in *. rewrite lorentz_term_value; auto. discriminate.
    + rewrite E. discriminate.
Qed.

Lemma lorentz_Im os Einf e z : lorentz_epsilon os Einf e = Some z ->
  Im z = fold_right Rplus 0 (map (fun o => lorentz_absorption (osc_A o) (osc_B o) (osc_E o) e) os).
Proof.
  intros H. unfold lorentz_epsilon in H.
  destruct (osum (map (lorentz_term e) os)) as [s|] eqn:E; [|discriminate].
  assert (z = (s + RtoC Einf)%C) as -> by (simpl in H; congruence).
  rewrite <- (osum_Im (lorentz_term e)) with (z := s); auto.
  - destruct s; simpl. ring.
  - intros [[A B] En] w Hin Hw. unfold osc_A, osc_B, osc_E; simpl.
    destruct (Req_dec (En ^ 2) (e ^ 2)) as [H1|H1].
    + destruct (Req_dec (B * e) 0) as [H2|H2].
      * rewrite lorentz_term_none in Hw; auto. discriminate.
      * rewrite lorentz_term_value in Hw by tauto. assert (w = (A * (En ^ 2 - e ^ 2) / ((En ^ 2 - e ^ 2) ^ 2 + (B * e) ^ 2), lorentz_absorption A B En e)) as -> by congruence. reflexivity.
    + rewrite lorentz_term_value in Hw by tauto. assert (w = (A * (En ^ 2 - e ^ 2) / ((En ^ 2 - e ^ 2) ^ 2 + (B * e) ^ 2), lorentz_absorption A B En e)) as -> by congruence. reflexivity.
Qed.

Lemma div_nonneg a b : 0 <= a -> 0 <= b -> 0 <= a / b.
Proof.
  intros Ha Hb. destruct (Req_dec b 0) as [->|H].
  - unfold Rdiv. rewrite Rinv_0. lra.
  - apply Rmult_le_pos; auto. left. apply Rinv_0_lt_compat. lra.
Qed.

Lemma lorentz_passive os Einf e z : 0 <= e -> Forall (fun o => 0 <= osc_A o /\ 0 <= osc_B o) os ->
  lorentz_epsilon os Einf e = Some z -> 0 <= Im z.
Proof.
  intros He Hf H. rewrite (lorentz_Im _ _ _ _ H). apply sum_nonneg. rewrite Forall_map.
  eapply Forall_impl; [|exact Hf]. intros [[A B] E] [HA HB]. unfold osc_A, osc_B, osc_E in *; simpl in *.
  unfold lorentz_absorption. apply div_nonneg; [|apply Rplus_le_le_0_compat; apply pow2_ge_0]. apply Rmult_le_pos; auto. apply Rmult_le_pos; auto.
Qed.

Lemma complex_eps_passive (eps : R -> option C) wav n : 0 < wav ->
  (forall e z, 0 < e -> eps e = Some z -> 0 <= Im z) ->
  complex_of_epsilon (fun e => Ok (eps e)) wav = Ok (Some n) -> passive_index n.
Proof.
  intros Hw He H. unfold complex_of_epsilon, nm_eV_conversion in H.
  destruct (Req_EM_T wav 0); [discriminate|]. cbn [rmap] in H.
  set (en := 1239841984055 / 1000000000 / wav) in *.
  assert (Hen : 0 < en) by (unfold en; apply Rdiv_lt_0_compat; lra).
  destruct (eps en) as [z|] eqn:E; [|discriminate]. simpl in H.
  assert (n = csqrt z) as -> by congruence. apply csqrt_passive. eauto.
Qed.

Lemma lorentz_index os Einf wl name w n : 0 < w -> Forall (fun o => 0 <= osc_A o /\ 0 <= osc_B o) os ->
  sc_complex (Scatterer (K_Lorentz os Einf) wl name) (Some w) = Ok (Some n) -> passive_index n.
Proof.
  intros Hw Hf H. unfold sc_complex in H. cbn [sc_kind sc_wavelength] in H.
  rewrite choose_wav_some in H by lra.
  eapply complex_eps_passive; eauto. intros e z He Hz. simpl in Hz. eapply lorentz_passive; eauto. lra.
Qed.

Lemma lorentz_conj os Einf e :
  lorentz_epsilon os Einf (- e) = omap Cconj (lorentz_epsilon os Einf e).
Proof.
  unfold lorentz_epsilon.
  assert (K : osum (map (lorentz_term (- e)) os) = omap Cconj (osum (map (lorentz_term e) os))).
  { induction os as [|[[A B] E] os IH]; [simpl; f_equal; apply C_eq; simpl; ring|].
    cbn [map osum]. rewrite IH.
    assert (T : lorentz_term (- e) (A, B, E) = omap Cconj (lorentz_term e (A, B, E))).
    { destruct (Req_dec (E ^ 2) (e ^ 2)) as [H1|H1]; [destruct (Req_dec (B * e) 0) as [H2|H2]|].
      - rewrite !lorentz_term_none; auto; lra.
      - rewrite !lorentz_term_value by (try tauto; intros [_ ?]; lra). cbn [omap]. f_equal.
        unfold lorentz_absorption. replace (- e) with ((-1) * e) by ring.
        apply C_eq; unfold Cconj; cbn [fst snd].
        + replace ((-1 * e) ^ 2) with (e ^ 2) by ring. replace ((B * (-1 * e)) ^ 2) with ((B * e) ^ 2) by ring. reflexivity.
        + unfold Rdiv. replace (((E ^ 2 - (-1 * e) ^ 2) ^ 2 + (B * (-1 * e)) ^ 2)) with ((E ^ 2 - e ^ 2) ^ 2 + (B * e) ^ 2) by ring. simpl. ring.
      - assert (H1' : ~ (E ^ 2 = (- e) ^ 2)) by (replace ((- e) ^ 2) with (e ^ 2) by ring; auto).
        rewrite !lorentz_term_value by tauto. cbn [omap]. f_equal.
        unfold lorentz_absorption. replace (- e) with ((-1) * e) by ring.
        apply C_eq; unfold Cconj; cbn [fst snd].
        + replace ((-1 * e) ^ 2) with (e ^ 2) by ring. replace ((B * (-1 * e)) ^ 2) with ((B * e) ^ 2) by ring. reflexivity.
        + unfold Rdiv. replace (((E ^ 2 - (-1 * e) ^ 2) ^ 2 + (B * (-1 * e)) ^ 2)) with ((E ^ 2 - e ^ 2) ^ 2 + (B * e) ^ 2) by ring. simpl. ring. }
    rewrite T. destruct (lorentz_term e (A, B, E)) as [a|]; cbn [omap olift2]; auto.
    destruct (osum (map (lorentz_term e) os)) as [b|]; cbn [omap olift2]; auto.
    f_equal. apply C_eq; simpl; ring. }
  rewrite K. destruct (osum (map (lorentz_term e) os)) as [b|]; cbn [omap]; auto.
  f_equal. apply C_eq; simpl; ring.
Qed.

Lemma eps_perm (t : osc -> option C) os os' (Einf : R) : Permutation os os' ->
  omap (fun s => s + RtoC Einf)%C (osum (map t os)) = omap (fun s => s + RtoC Einf)%C (osum (map t os')).
Proof. intros H. f_equal. apply osum_perm. apply Permutation_map. auto. Qed.

Lemma eps_app (t : osc -> option C) os os' (E1 E2 : R) :
  omap (fun s => s + RtoC (E1 + E2))%C (osum (map t (os ++ os'))) =
  olift2 Cplus (omap (fun s => s + RtoC E1)%C (osum (map t os))) (omap (fun s => s + RtoC E2)%C (osum (map t os'))).
Proof.
  rewrite map_app, osum_app. destruct (osum (map t os)), (osum (map t os')); simpl; auto.
  f_equal. rewrite RtoC_plus. ring.
Qed.

Lemma lorentz_perm os os' Einf e : Permutation os os' -> lorentz_epsilon os Einf e = lorentz_epsilon os' Einf e.
Proof. intros H. apply eps_perm. auto. Qed.
Lemma lorentz_app os os' E1 E2 e :
  lorentz_epsilon (os ++ os') (E1 + E2) e = olift2 Cplus (lorentz_epsilon os E1 e) (lorentz_epsilon os' E2 e).
Proof. apply eps_app. Qed.

Lemma lorentz_no_pole B E (z : C) : 0 < B -> E <> 0 -> 0 <= Im z -> lorentz_denominator B E z <> RtoC 0.
Proof.
  intros HB HE Hz H. destruct z as [x y]. simpl in Hz.
  pose proof (f_equal Re H) as H1. pose proof (f_equal Im H) as H2. clear H. simpl in H1, H2.
  assert (x * (2 * y + B) = 0) by lra.
  assert (x = 0) by (apply Rmult_integral in H; destruct H; [auto|lra]). subst x.
  assert (0 < E * E) by nra. nra.
Qed.

Lemma lorentz_real_energy A B E e : lorentz_denominator B E (RtoC e) <> RtoC 0 ->
  lorentz_term e (A, B, E) = Some (RtoC A / lorentz_denominator B E (RtoC e))%C.
Proof.
  intros H. unfold lorentz_term, cdivo.
  assert (((RtoC (E ^ 2 - e ^ 2) - Ci * RtoC (B * e)))%C = lorentz_denominator B E (RtoC e)) as ->.
  { unfold lorentz_denominator. apply C_eq; simpl; ring. }
  destruct Ceq_dec; [contradiction|reflexivity].
Qed.

(** ** Gauss *)
Lemma e_pad_length : List.length e_pad = 2048%nat.
Proof. unfold e_pad. rewrite map_length, seq_length. reflexivity. Qed.

Definition grid (j : nat) : R := -20 + 40 * INR j / 2047.

Lemma e_pad_nth i : (i < 2048)%nat -> nth i e_pad 0 = grid i.
Proof.
  intros H. unfold e_pad.
  rewrite (nth_indep _ 0 (grid 0)) by (rewrite map_length, seq_length; auto).
  change (fun j : nat => -20 + 40 * INR j / 2047) with grid.
  rewrite map_nth, seq_nth by auto. reflexivity.
Qed.

Lemma sorted_map_seq (f : nat -> R) (Hf : forall i j, (i < j)%nat -> f i < f j) n : forall s,
  StronglySorted Rlt (map f (seq s n)).
Proof.
  induction n; intros s; simpl; constructor; auto.
  rewrite Forall_forall. intros y Hy. apply in_map_iff in Hy. destruct Hy as [j [<- Hj]].
  apply in_seq in Hj. apply Hf. lia.
Qed.

Lemma grid_mono i j : (i < j)%nat -> grid i < grid j.
Proof. intros H. unfold grid. apply lt_INR in H. lra. Qed.

Lemma e_pad_increasing : increasing e_pad.
Proof. unfold e_pad, increasing. apply (sorted_map_seq grid). apply grid_mono. Qed.

Lemma e_pad_nonempty : e_pad <> [].
Proof. intros H. pose proof e_pad_length. rewrite H in H0. discriminate. Qed.

Lemma e_pad_last : last e_pad 0 = 20.
Proof.
  assert (L : forall (l : list R), l <> [] -> last l 0 = nth (List.length l - 1) l 0).
  { induction l as [|a [|b l] IH]; intros H; [congruence|reflexivity|].
    change (last (a :: b :: l) 0) with (last (b :: l) 0). rewrite IH by discriminate.
    simpl. rewrite Nat.sub_0_r. reflexivity. }
  rewrite L by apply e_pad_nonempty. rewrite e_pad_length, e_pad_nth by lia.
  unfold grid. rewrite INR_IZR_INZ. simpl. lra.
Qed.

Global Opaque e_pad.

Lemma sqrt_ln2_pos : 0 < sqrt (ln 2).
Proof. apply sqrt_lt_R0. rewrite <- ln_1. apply ln_increasing; lra. Qed.

Lemma gauss_bell_value B E x : 0 < B ->
  gauss_bell B E x = Some (exp (- (4 * ln 2) * ((x - E) / B) ^ 2)).
Proof.
  intros HB. unfold gauss_bell. pose proof sqrt_ln2_pos as Hs.
  assert (Hl : 0 < ln 2) by (rewrite <- ln_1; apply ln_increasing; lra).
  assert (0 < B / 2 / sqrt (ln 2)) by (apply Rdiv_lt_0_compat; lra).
  destruct Req_EM_T; [lra|]. do 2 f_equal.
  assert (Hq : ln 2 = sqrt (ln 2) * sqrt (ln 2)) by (rewrite sqrt_sqrt; lra).
  rewrite Hq at 2. field. split; lra.
Qed.

Lemma gauss_e2_value A B E x : 0 < B -> gauss_e2 (A, B, E) x = Some (gauss_absorption A B E x).
Proof.
  intros HB. unfold gauss_e2. rewrite !gauss_bell_value by auto. cbn [obind].
  unfold gauss_absorption. replace (x - - E) with (x + E) by ring. reflexivity.
Qed.

Definition absorb (o : osc) (x : R) : R := gauss_absorption (osc_A o) (osc_B o) (osc_E o) x.
Definition total (os : list osc) (x : R) : R := fold_right Rplus 0 (map (fun o => absorb o x) os).

Lemma gauss_rows os : Forall (fun o => 0 < osc_B o) os ->
  mapM (fun o => mapM (gauss_e2 o) e_pad) os = Some (map (fun o => map (absorb o) e_pad) os).
Proof.
  intros H. apply mapM_some. intros [[A B] E] Hin. rewrite Forall_forall in H.
  specialize (H _ Hin). unfold osc_B in H; simpl in H.
  apply mapM_some. intros x _. rewrite gauss_e2_value by auto. reflexivity.
Qed.

Lemma map2_map {A} (f g : A -> R) l : map2 Rplus (map f l) (map g l) = map (fun x => f x + g x) l.
Proof. induction l; simpl; auto. f_equal; auto. Qed.

Lemma map_zero_repeat {A} (l : list A) : map (fun _ => 0) l = repeat 0 (List.length l).
Proof. induction l; simpl; auto. f_equal; auto. Qed.

Lemma vsum_total os (xs : list R) : 
  vsum (List.length xs) (map (fun o => map (absorb o) xs) os) = map (total os) xs.
Proof.
  induction os as [|o os IH].
  - unfold vsum, total. simpl. symmetry. apply map_zero_repeat.
  - unfold vsum in *. cbn [map fold_right]. rewrite IH, map2_map. reflexivity.
Qed.

Lemma vsum_length n rows : Forall (fun r => List.length r = n) rows -> List.length (vsum n rows) = n.
Proof.
  induction 1; unfold vsum in *; simpl; [apply repeat_length|]. rewrite map2_length, IHForall, H. lia.
Qed.


(** the code's result, for positive widths *)
Lemma gauss_result h os Einf e : keeps_length h -> os <> [] -> Forall (fun o => 0 < osc_B o) os ->
  exists re im, gauss_epsilon h os Einf e = Ok (Some (re, im)) /\
   interpolates e_pad (map (fun v => v + Einf) (vsum 2048 (map h (map (fun o => map (absorb o) e_pad) os)))) e re /\
   interpolates e_pad (map (total os) e_pad) e im.
Proof.
  intros Hh Hne Hf.
  destruct (np_interp_spec e e_pad (map (fun v => v + Einf) (vsum 2048 (map h (map (fun o => map (absorb o) e_pad) os)))))
    as [re [E1 I1]]; [apply e_pad_increasing|apply e_pad_nonempty| |].
  { rewrite map_length, vsum_length; [apply e_pad_length|].
    rewrite !Forall_map, Forall_forall. intros o _. rewrite Hh, map_length. apply e_pad_length. }
  destruct (np_interp_spec e e_pad (map (total os) e_pad)) as [im [E2 I2]];
    [apply e_pad_increasing|apply e_pad_nonempty|rewrite map_length; auto|].
  exists re, im. split; auto. unfold gauss_epsilon. destruct os as [|o os]; [congruence|].
  rewrite gauss_rows by auto. cbv zeta. rewrite E1. cbn [rbind].
  rewrite <- e_pad_length at 1. rewrite vsum_total, E2. reflexivity.
Qed.

Lemma absorb_odd o x : absorb o (- x) = - absorb o x.
Proof.
  unfold absorb, gauss_absorption.
  assert (Hx : forall E B, ((- x - E) / B) ^ 2 = ((x + E) / B) ^ 2) by (intros; unfold Rdiv; ring).
  assert (Hy : forall E B, ((- x + E) / B) ^ 2 = ((x - E) / B) ^ 2) by (intros; unfold Rdiv; ring).
  rewrite Hx, Hy. ring.
Qed.

Lemma absorb_nonneg o x : 0 <= osc_A o -> 0 < osc_B o -> 0 <= osc_E o -> 0 <= x -> 0 <= absorb o x.
Proof.
  intros HA HB HE Hx. unfold absorb, gauss_absorption.
  set (A := osc_A o) in *. set (B := osc_B o) in *. set (E := osc_E o) in *. clearbody A B E.
  assert (exp (- (4 * ln 2) * ((x + E) / B) ^ 2) <= exp (- (4 * ln 2) * ((x - E) / B) ^ 2)).
  { assert (Hl : 0 < ln 2) by (rewrite <- ln_1; apply ln_increasing; lra).
    assert (K : ((x - E) / B) ^ 2 <= ((x + E) / B) ^ 2).
    { assert (((x + E) / B) ^ 2 - ((x - E) / B) ^ 2 = 4 * (x * E) * (/ B * / B)) by (unfold Rdiv; ring).
      assert (0 < / B) by (apply Rinv_0_lt_compat; auto).
      assert (0 <= 4 * (x * E) * (/ B * / B)).
      { apply Rmult_le_pos; [|nra]. assert (0 <= x * E) by (apply Rmult_le_pos; auto). lra. }
      lra. }
    destruct (Rle_lt_or_eq_dec _ _ K) as [K'|K']; [left; apply exp_increasing; nra|right; rewrite K'; auto]. }
  nra.
Qed.

Lemma total_odd os x : total os (- x) = - total os x.
Proof. unfold total. induction os; simpl; [lra|]. rewrite IHos, absorb_odd. lra. Qed.


Lemma total_nonneg os x : Forall good_gauss os -> 0 <= x -> 0 <= total os x.
Proof.
  intros H Hx. unfold total. apply sum_nonneg. rewrite Forall_map.
  eapply Forall_impl; [|exact H]. intros o [? [? ?]]. apply absorb_nonneg; auto.
Qed.

Lemma grid_sym i : (i <= 2047)%nat -> grid (2047 - i) = - grid i.
Proof. intros H. unfold grid. rewrite minus_INR by lia. rewrite (INR_IZR_INZ 2047). simpl (IZR (Z.of_nat 2047)). lra. Qed.

Lemma grid_cell e : -20 <= e <= 20 -> exists i, (i <= 2046)%nat /\ grid i <= e <= grid (S i).
Proof.
  intros He.
  assert (K : forall n, (n <= 2047)%nat -> e <= grid n -> exists i, (i < n)%nat /\ grid i <= e <= grid (S i) \/ e = -20).
  { induction n as [|n IH]; intros Hn H.
    - exists 0%nat. right. unfold grid in H; simpl in H. lra.
    - destruct (Rle_dec e (grid n)) as [L|L].
      + destruct (IH ltac:(lia) L) as [i [[Hi Hx]|Hx]]; exists i; [left; split; [lia|auto]|right; auto].
      + exists n. left. split; [lia|lra]. }
  destruct (K 2047%nat) as [i [[Hi Hx]|Hx]]; [lia| | |].
  - unfold grid. rewrite INR_IZR_INZ. simpl. lra.
  - exists i. split; [lia|auto].
  - exists 0%nat. split; [lia|]. unfold grid; simpl. lra.
Qed.

Lemma interp_cell f e v i : interpolates e_pad (map f e_pad) e v -> (i <= 2046)%nat ->
  grid i <= e <= grid (S i) ->
  v = f (grid i) + (f (grid (S i)) - f (grid i)) * ((e - grid i) / (grid (S i) - grid i)).
Proof.
  intros [_ [_ H]] Hi Hx. specialize (H i). rewrite e_pad_length in H.
  assert (N : forall j, (j < 2048)%nat -> nth j (map f e_pad) 0 = f (grid j)).
  { intros j Hj. rewrite (nth_indep _ 0 (f 0)) by (rewrite map_length, e_pad_length; auto).
    rewrite map_nth, e_pad_nth by auto. reflexivity. }
  rewrite !N, !e_pad_nth in H by lia. apply H; auto; lia.
Qed.

Lemma interp_right f e v : interpolates e_pad (map f e_pad) e v -> 20 <= e -> v = f 20.
Proof.
  intros [_ [H _]] He. rewrite e_pad_last in H. rewrite H by auto.
  assert (E : f (last e_pad 0) = last (map f e_pad) (f 0)).
  { generalize e_pad e_pad_nonempty. intros l. induction l as [|a [|b l] IH]; intros Hn; [congruence|reflexivity|].
    change (last (map f (a :: b :: l)) (f 0)) with (last (map f (b :: l)) (f 0)).
    change (last (a :: b :: l) 0) with (last (b :: l) 0). apply IH. discriminate. }
  rewrite e_pad_last in E. rewrite E.
  pose proof e_pad_nonempty. destruct e_pad as [|a l]; [congruence|].
  generalize a. clear. induction l as [|b l IH]; intros a; auto.
  change (last (map f (b :: l)) 0 = last (map f (b :: l)) (f 0)). apply IH.
Qed.

Lemma interp_left f e v : interpolates e_pad (map f e_pad) e v -> e <= -20 -> v = f (-20).
Proof.
  intros [H _] He. rewrite e_pad_nth in H by lia.
  assert (G0 : grid 0 = -20) by (unfold grid; simpl; lra).
  rewrite G0 in H. rewrite H by auto.
  rewrite (nth_indep _ 0 (f 0)) by (rewrite map_length, e_pad_length; lia).
  rewrite map_nth, e_pad_nth, G0 by lia. reflexivity.
Qed.

(** cell fractions *)
Lemma cell_frac e i : grid i <= e <= grid (S i) ->
  0 <= (e - grid i) / (grid (S i) - grid i) <= 1.
Proof.
  intros H. assert (Hd : grid (S i) - grid i = 40 / 2047).
  { unfold grid. rewrite S_INR. field. }
  rewrite Hd. split.
  - apply Rmult_le_pos; [lra|]. left. apply Rinv_0_lt_compat. lra.
  - apply (Rmult_le_reg_r (40 / 2047)); [lra|]. unfold Rdiv at 1. rewrite Rmult_assoc, Rinv_l by lra. lra.
Qed.

Lemma gauss_nonneg os e v : Forall good_gauss os -> 0 <= e ->
  interpolates e_pad (map (total os) e_pad) e v -> 0 <= v.
Proof.
  intros Hg He H. destruct (Rle_dec 20 e) as [G|G].
  - rewrite (interp_right _ _ _ H G). apply total_nonneg; auto. lra.
  - destruct (grid_cell e) as [i [Hi Hx]]; [lra|].
    rewrite (interp_cell _ _ _ _ H Hi Hx). pose proof (cell_frac _ _ Hx) as Ht.
    assert (P1 : 0 <= total os (grid (S i))) by (apply total_nonneg; auto; lra).
    destruct (Rle_dec 0 (grid i)) as [L|L].
    + assert (P0 : 0 <= total os (grid i)) by (apply total_nonneg; auto).
      set (t := (e - grid i) / (grid (S i) - grid i)) in *. nra.
    + assert (Ei : i = 1023%nat).
      { assert (INR i < 2047 / 2) by (unfold grid in L; lra).
        assert (2047 / 2 <= INR (S i)) by (unfold grid in Hx; lra). rewrite S_INR in H1.
        assert (INR i < INR 1024) by (rewrite (INR_IZR_INZ 1024); simpl; lra).
        assert (INR 1022 < INR i) by (rewrite (INR_IZR_INZ 1022); simpl; lra).
        apply INR_lt in H2, H3. lia. }
      subst i.
      assert (Hs : grid 1024 = - grid 1023) by (rewrite <- grid_sym by lia; f_equal).
      change (S 1023) with 1024%nat in *.
      assert (Hy : total os (grid 1023) = - total os (grid 1024)).
      { rewrite Hs, total_odd. lra. }
      rewrite Hy. set (y := total os (grid 1024)) in *. clearbody y.
      assert (Hg' : grid 1023 = - (20 / 2047)).
      { unfold grid. rewrite (INR_IZR_INZ 1023). simpl. lra. }
      rewrite Hs, Hg' in *.
      replace (- y + (y - - y) * ((e - - (20 / 2047)) / (- - (20 / 2047) - - (20 / 2047))))
        with (y * (e * (2047 / 20))) by (field).
      apply Rmult_le_pos; [auto|]. lra.
Qed.

Lemma gauss_odd os e v v' : interpolates e_pad (map (total os) e_pad) e v ->
  interpolates e_pad (map (total os) e_pad) (- e) v' -> v' = - v.
Proof.
  intros H H'.
  destruct (Rle_dec 20 e) as [G|G]; [|destruct (Rle_dec e (-20)) as [G'|G']].
  - rewrite (interp_right _ _ _ H G), (interp_left _ _ _ H') by lra.
    replace (-20) with (- (20)) by ring. apply total_odd.
  - rewrite (interp_left _ _ _ H G'), (interp_right _ _ _ H') by lra.
    replace (-20) with (- (20)) by ring. rewrite total_odd. ring.
  - destruct (grid_cell e) as [i [Hi Hx]]; [lra|].
    rewrite (interp_cell _ _ _ _ H Hi Hx).
    assert (S1 : grid (2046 - i) = - grid (S i)).
    { rewrite <- grid_sym by lia. f_equal; lia. }
    assert (S2 : grid (S (2046 - i)) = - grid i).
    { rewrite <- grid_sym by lia. f_equal; lia. }
    rewrite (interp_cell _ _ _ (2046 - i) H'); [|lia|rewrite S1, S2; lra].
    rewrite S1, S2, !total_odd.
    assert (Hd : grid (S i) - grid i <> 0).
    { pose proof (grid_mono i (S i) ltac:(lia)). lra. }
    field. lra.
Qed.

Lemma interpolates_add xs f g x v w : List.length f = List.length xs -> List.length g = List.length xs -> xs <> [] ->
  interpolates xs f x v -> interpolates xs g x w -> interpolates xs (map2 Rplus f g) x (v + w).
Proof.
  intros Lf Lg Hne [A1 [A2 A3]] [B1 [B2 B3]].
  assert (N : forall i, nth i (map2 Rplus f g) 0 = nth i f 0 + nth i g 0).
  { assert (L : List.length f = List.length g) by lia. clear - L. revert g L.
    induction f as [|a f IH]; destruct g as [|b g]; simpl; intros L i; try discriminate.
    - destruct i; lra.
    - destruct i; auto. }
  assert (La : last (map2 Rplus f g) 0 = last f 0 + last g 0).
  { assert (L : List.length f = List.length g) by lia. clear - L. revert g L.
    induction f as [|a f IH]; destruct g as [|b g]; simpl map2; intros L; try discriminate; [simpl; lra|].
    destruct f as [|a' f], g as [|b' g]; try discriminate; [reflexivity|].
    apply (IH (b' :: g)). simpl in *. lia. }
  repeat split.
  - intros H. rewrite N, A1, B1; auto.
  - intros H. rewrite La, A2, B2; auto.
  - intros i Hi Hx. rewrite !N, (A3 i Hi Hx), (B3 i Hi Hx). ring.
Qed.

Lemma vsum_app n r1 r2 : Forall (fun r => List.length r = n) r1 -> Forall (fun r => List.length r = n) r2 ->
  vsum n (r1 ++ r2) = map2 Rplus (vsum n r1) (vsum n r2).
Proof.
  intros H1 H2.
  assert (Z : forall v m, List.length v = m -> map2 Rplus (repeat 0 m) v = v).
  { clear. induction v; destruct m; simpl; intros H; try discriminate; auto. f_equal; [lra|]. apply IHv. congruence. }
  assert (As : forall a b c, map2 Rplus (map2 Rplus a b) c = map2 Rplus a (map2 Rplus b c)).
  { clear. induction a; destruct b; destruct c; simpl; auto. f_equal; [lra|auto]. }
  induction H1 as [|r l H H1 IH]; unfold vsum in *; cbn [app fold_right].
  - rewrite Z; auto. apply (vsum_length n r2); auto.
  - rewrite IH, As. reflexivity.
Qed.

Lemma vsum_perm n r1 r2 : Permutation r1 r2 -> vsum n r1 = vsum n r2.
Proof.
  assert (Sw : forall a b c, map2 Rplus b (map2 Rplus a c) = map2 Rplus a (map2 Rplus b c)).
  { induction a; destruct b; destruct c; simpl; auto. f_equal; [lra|auto]. }
  induction 1; unfold vsum in *; cbn [fold_right]; auto; congruence.
Qed.

Lemma map_total_app os1 os2 : map (total (os1 ++ os2)) e_pad =
  map2 Rplus (map (total os1) e_pad) (map (total os2) e_pad).
Proof.
  rewrite map2_map. apply map_ext. intros x. unfold total. rewrite map_app, fold_right_app.
  induction os1; simpl; [lra|]. rewrite IHos1. lra.
Qed.

Lemma map2_shift E1 E2 (a : list R) : forall b,
  map2 Rplus (map (fun v => v + E1) a) (map (fun v => v + E2) b) = map (fun v => v + (E1 + E2)) (map2 Rplus a b).
Proof.
  induction a as [|x a IH]; intros [|y b]; simpl; auto. rewrite IH. f_equal. lra.
Qed.

Lemma gauss_additive h os1 os2 E1 E2 e z1 z2 : keeps_length h -> os1 <> [] -> os2 <> [] ->
  Forall (fun o => 0 < osc_B o) os1 -> Forall (fun o => 0 < osc_B o) os2 ->
  gauss_epsilon h os1 E1 e = Ok (Some z1) -> gauss_epsilon h os2 E2 e = Ok (Some z2) ->
  gauss_epsilon h (os1 ++ os2) (E1 + E2) e = Ok (Some (z1 + z2)%C).
Proof.
  intros Hh N1 N2 F1 F2 G1 G2.
  destruct (gauss_result h os1 E1 e Hh N1 F1) as [r1 [i1 [Q1 [R1 I1]]]].
  destruct (gauss_result h os2 E2 e Hh N2 F2) as [r2 [i2 [Q2 [R2 I2]]]].
  destruct (gauss_result h (os1 ++ os2) (E1 + E2) e Hh) as [r [i [Q [Rr Ii]]]].
  { destruct os1; [congruence|discriminate]. }
  { apply Forall_app; auto. }
  assert (z1 = (r1, i1)) as -> by congruence. assert (z2 = (r2, i2)) as -> by congruence.
  rewrite Q. do 2 f_equal.
  assert (Li : forall os, List.length (map (total os) e_pad) = List.length e_pad) by (intros; apply map_length).
  assert (Lr : forall os E, List.length (map (fun v => v + E) (vsum 2048 (map h (map (fun o => map (absorb o) e_pad) os)))) = List.length e_pad).
  { intros os E. rewrite map_length, vsum_length; [symmetry; apply e_pad_length|].
    rewrite !Forall_map, Forall_forall. intros o _. rewrite Hh, map_length. apply e_pad_length. }
  pose proof (interpolates_add _ _ _ _ _ _ (Li os1) (Li os2) e_pad_nonempty I1 I2) as I12.
  rewrite <- map_total_app in I12.
  rewrite (interpolates_unique _ _ _ _ _ e_pad_increasing e_pad_nonempty Ii I12).
  pose proof (interpolates_add _ _ _ _ _ _ (Lr os1 E1) (Lr os2 E2) e_pad_nonempty R1 R2) as R12.
  assert (Er : map2 Rplus (map (fun v => v + E1) (vsum 2048 (map h (map (fun o => map (absorb o) e_pad) os1))))
      (map (fun v => v + E2) (vsum 2048 (map h (map (fun o => map (absorb o) e_pad) os2)))) =
      map (fun v => v + (E1 + E2)) (vsum 2048 (map h (map (fun o => map (absorb o) e_pad) (os1 ++ os2))))).
  { rewrite !map_app, vsum_app.
    - apply map2_shift.
    - rewrite !Forall_map, Forall_forall. intros o _. rewrite Hh, map_length. apply e_pad_length.
    - rewrite !Forall_map, Forall_forall. intros o _. rewrite Hh, map_length. apply e_pad_length. }
  rewrite Er in R12.
  rewrite (interpolates_unique _ _ _ _ _ e_pad_increasing e_pad_nonempty Rr R12). reflexivity.
Qed.

Lemma mapM_perm_gauss os os' : Permutation os os' ->
  match mapM (fun o => mapM (gauss_e2 o) e_pad) os, mapM (fun o => mapM (gauss_e2 o) e_pad) os' with
  | Some a, Some b => Permutation a b
  | None, None => True
  | _, _ => False
  end.
Proof.
  generalize (fun o => mapM (gauss_e2 o) e_pad). intros f. induction 1.
  - simpl. auto.
  - simpl. destruct (f x); simpl; auto. destruct (mapM f l), (mapM f l'); simpl; auto.
  - simpl. destruct (f x), (f y); simpl; auto; destruct (mapM f l); simpl; auto. constructor.
  - destruct (mapM f l), (mapM f l'), (mapM f l''); auto; try contradiction. eapply Permutation_trans; eauto.
Qed.

Lemma gauss_perm h os os' Einf e : Permutation os os' -> gauss_epsilon h os Einf e = gauss_epsilon h os' Einf e.
Proof.
  intros HP. unfold gauss_epsilon. pose proof (mapM_perm_gauss _ _ HP) as K.
  destruct os as [|o os]; destruct os' as [|o' os'].
  - auto.
  - apply Permutation_nil in HP. discriminate.
  - apply Permutation_sym, Permutation_nil in HP. discriminate.
  - destruct (mapM (fun o => mapM (gauss_e2 o) e_pad) (o :: os)) as [a|],
      (mapM (fun o => mapM (gauss_e2 o) e_pad) (o' :: os')) as [b|]; try contradiction; auto.
    cbv zeta. rewrite (vsum_perm 2048 (map h a) (map h b)) by (apply Permutation_map; auto).
    rewrite (vsum_perm 2048 a b) by auto. reflexivity.
Qed.

Lemma gauss_beyond h os Einf e : keeps_length h -> os <> [] -> Forall (fun o => 0 < osc_B o) os -> 20 <= e ->
  gauss_epsilon h os Einf e = gauss_epsilon h os Einf 20.
Proof.
  intros Hh Hn Hf He.
  destruct (gauss_result h os Einf e Hh Hn Hf) as [r1 [i1 [Q1 [[_ [A1 _]] [_ [B1 _]]]]]].
  destruct (gauss_result h os Einf 20 Hh Hn Hf) as [r2 [i2 [Q2 [[_ [A2 _]] [_ [B2 _]]]]]].
  rewrite Q1, Q2. rewrite e_pad_last in *. rewrite A1, B1, A2, B2; auto; lra.
Qed.

Lemma gauss_absorption_nonneg h os Einf e : keeps_length h -> os <> [] -> Forall good_gauss os -> 0 <= e ->
  exists z, gauss_epsilon h os Einf e = Ok (Some z) /\ 0 <= Im z.
Proof.
  intros Hh Hn Hg He.
  assert (Hf : Forall (fun o => 0 < osc_B o) os).
  { eapply Forall_impl; [|exact Hg]. intros o [_ [? _]]; auto. }
  destruct (gauss_result h os Einf e Hh Hn Hf) as [r1 [i1 [Q1 [_ I1]]]].
  eexists; split; [exact Q1|]. simpl. eapply gauss_nonneg; eauto.
Qed.

Lemma gauss_Im_odd h os Einf e : keeps_length h -> os <> [] -> Forall (fun o => 0 < osc_B o) os ->
  exists z z', gauss_epsilon h os Einf e = Ok (Some z) /\ gauss_epsilon h os Einf (- e) = Ok (Some z') /\
  Im z' = - Im z.
Proof.
  intros Hh Hn Hf.
  destruct (gauss_result h os Einf e Hh Hn Hf) as [r1 [i1 [Q1 [_ I1]]]].
  destruct (gauss_result h os Einf (- e) Hh Hn Hf) as [r2 [i2 [Q2 [_ I2]]]].
  do 2 eexists; split; [exact Q1|]. split; [exact Q2|]. simpl. eapply gauss_odd; eauto.
Qed.

(** at a grid energy the absorption is the sum of the bells *)
Lemma gauss_at_grid h os Einf j : keeps_length h -> os <> [] -> Forall (fun o => 0 < osc_B o) os ->
  (j <= 2047)%nat ->
  exists z, gauss_epsilon h os Einf (-20 + 40 * INR j / 2047) = Ok (Some z) /\
  Im z = fold_right Rplus 0 (map (fun o => gauss_absorption (osc_A o) (osc_B o) (osc_E o) (-20 + 40 * INR j / 2047)) os).
Proof.
  intros Hh Hn Hf Hj. fold (grid j).
  destruct (gauss_result h os Einf (grid j) Hh Hn Hf) as [r1 [i1 [Q1 [_ I1]]]].
  eexists; split; [exact Q1|]. simpl.
  rewrite <- (e_pad_nth j) in I1 at 1 by lia.
  apply interpolates_node in I1; [|apply e_pad_increasing|rewrite e_pad_length; lia|apply map_length].
  rewrite (nth_indep _ 0 (total os 0)) in I1 by (rewrite map_length, e_pad_length; lia).
  rewrite map_nth, e_pad_nth in I1 by lia. exact I1.
Qed.

(** ** Tauc-Lorentz *)
Lemma tl_e2_value A Cc Ei Eg e v : tl_e2 Eg e (A, Cc, Ei) = Some v ->
  v = tauc_lorentz_absorption A Cc Ei Eg e.
Proof.
  unfold tl_e2, odiv, tauc_lorentz_absorption.
  destruct Req_EM_T as [|Hn]; [discriminate|]. cbn [omap]. intros H. injection H as <-.
  destruct (Rlt_dec 0 (e - Eg)), (Rlt_dec Eg e); try lra.
  assert (e <> 0) by (intros ->; apply Hn; ring).
  assert ((e ^ 2 - Ei ^ 2) ^ 2 + (Cc * e) ^ 2 <> 0) by (intros H0; apply Hn; rewrite H0; ring).
  replace (Cc ^ 2 * e ^ 2) with ((Cc * e) ^ 2) by ring. field. auto.
Qed.

Lemma tl_Im os Eg Einf e z : tl_epsilon os Eg Einf e = Some z ->
  Im z = fold_right Rplus 0 (map (fun o => tauc_lorentz_absorption (osc_A o) (osc_B o) (osc_E o) Eg e) os).
Proof.
  intros H. unfold tl_epsilon in H.
  destruct (osum (map (tl_term Eg e) os)) as [s|] eqn:E; [|discriminate].
  assert (z = (s + RtoC Einf)%C) as -> by (simpl in H; congruence).
  rewrite <- (osum_Im (tl_term Eg e)) with (z := s); auto.
  - destruct s; simpl. ring.
  - intros [[A B] En] w Hin Hw. unfold osc_A, osc_B, osc_E; cbn [fst snd].
    unfold tl_term in Hw. apply obind_inv in Hw. destruct Hw as [re [_ Hw]].
    apply obind_inv in Hw. destruct Hw as [im [Hi Hw]].
    assert (w = (re, im)) as -> by congruence. simpl. apply tl_e2_value; auto.
Qed.

Lemma tl_below os Eg Einf e z : e <= Eg -> tl_epsilon os Eg Einf e = Some z -> Im z = 0.
Proof.
  intros He H. rewrite (tl_Im _ _ _ _ _ H). clear H. induction os; simpl; auto.
  rewrite IHos. unfold tauc_lorentz_absorption. destruct Rlt_dec; lra.
Qed.

Lemma tl_passive os Eg Einf e z : 0 < e ->
  Forall (fun o => 0 <= osc_A o /\ 0 <= osc_B o /\ 0 <= osc_E o) os ->
  tl_epsilon os Eg Einf e = Some z -> 0 <= Im z.
Proof.
  intros He Hf H. rewrite (tl_Im _ _ _ _ _ H). apply sum_nonneg. rewrite Forall_map.
  eapply Forall_impl; [|exact Hf]. intros o [HA [HB HE]].
  unfold tauc_lorentz_absorption. destruct Rlt_dec; [|lra].
  apply Rmult_le_pos; [|left; apply Rinv_0_lt_compat; auto].
  apply div_nonneg; [|apply Rplus_le_le_0_compat; [apply pow2_ge_0|apply Rmult_le_pos; apply pow2_ge_0]].
  apply Rmult_le_pos; [|apply pow2_ge_0]. apply Rmult_le_pos; [|auto]. apply Rmult_le_pos; auto.
Qed.

Lemma tl_index os Eg Einf wl name w n : 0 < w ->
  Forall (fun o => 0 <= osc_A o /\ 0 <= osc_B o /\ 0 <= osc_E o) os ->
  sc_complex (Scatterer (K_TaucLorentz os Eg Einf) wl name) (Some w) = Ok (Some n) -> passive_index n.
Proof.
  intros Hw Hf H. unfold sc_complex in H. cbn [sc_kind sc_wavelength] in H.
  rewrite choose_wav_some in H by lra.
  eapply complex_eps_passive; eauto. intros e z He Hz. simpl in Hz. eapply tl_passive; eauto.
Qed.

Lemma tl_perm os os' Eg Einf e : Permutation os os' -> tl_epsilon os Eg Einf e = tl_epsilon os' Eg Einf e.
Proof. intros H. apply eps_perm. auto. Qed.
Lemma tl_app os os' Eg E1 E2 e :
  tl_epsilon (os ++ os') Eg (E1 + E2) e = olift2 Cplus (tl_epsilon os Eg E1 e) (tl_epsilon os' Eg E2 e).
Proof. apply eps_app. Qed.

(** closed form of the real part *)
Definition tl_re (A Cc Ei Eg e : R) : R :=
  let al := sqrt (4 * Ei ^ 2 - Cc ^ 2) in
  let ga := sqrt (Ei ^ 2 - Cc ^ 2 / 2) in
  let z4 := tl_zeta4 e Cc al ga in
  A * Cc * tl_a_ln Eg e Cc Ei / 2 / PI / z4 / al / Ei *
    ln ((Ei ^ 2 + Eg ^ 2 + al * Eg) / (Ei ^ 2 + Eg ^ 2 - al * Eg))
  - A / PI * tl_a_atan Eg e Cc Ei / z4 / Ei * (PI - atan ((2 * Eg + al) / Cc) + atan ((al - 2 * Eg) / Cc))
  + 2 * A * Ei * Eg * (e ^ 2 - ga ^ 2) / PI / z4 / al * (PI + 2 * atan (2 * (ga ^ 2 - Eg ^ 2) / al / Cc))
  - A * Ei * Cc * (e ^ 2 + Eg ^ 2) / PI / z4 / e * ln (Rabs (e - Eg) / (e + Eg))
  + 2 * A * Ei * Eg * Cc / PI / z4 *
    ln (Rabs (e - Eg) * (e + Eg) / sqrt ((Ei ^ 2 - Eg ^ 2) ^ 2 + Eg ^ 2 * Cc ^ 2)).

Lemma odiv_some x y : y <> 0 -> odiv x y = Some (x / y).
Proof. intros H. unfold odiv. destruct Req_EM_T; [contradiction|auto]. Qed.
Lemma oln_some x : 0 < x -> oln x = Some (ln x).
Proof. intros H. unfold oln. destruct Rlt_dec; [auto|contradiction]. Qed.
Lemma oatan_some x y : y <> 0 -> oatan_div x y = Some (atan (x / y)).
Proof. intros H. unfold oatan_div. destruct Req_EM_T; [contradiction|auto]. Qed.
Lemma osqrt_some x : 0 <= x -> osqrt x = Some (sqrt x).
Proof. intros H. unfold osqrt. destruct Rle_dec; [auto|contradiction]. Qed.

Lemma tl_domain (Cc Ei : R) : 0 < Cc -> 0 < Ei -> Cc ^ 2 <= 2 * Ei ^ 2 -> Cc ^ 2 < 4 * Ei ^ 2.
Proof. intros. nra. Qed.

Lemma tl_e1_defined A Cc Ei Eg e : 0 < Cc -> 0 < Ei -> Cc ^ 2 <= 2 * Ei ^ 2 -> 0 <= Eg -> 0 < e -> e <> Eg ->
  tl_e1 Eg e (A, Cc, Ei) = Some (tl_re A Cc Ei Eg e).
Proof.
  intros HC HE HCE Hg He Hne.
  assert (HP := PI_RGT_0).
  assert (Ha : 0 < 4 * Ei ^ 2 - Cc ^ 2) by (pose proof (tl_domain Cc Ei HC HE HCE); lra).
  unfold tl_e1, tl_re. rewrite !osqrt_some by (try lra). cbn [obind].
  pose proof (sqrt_lt_R0 _ Ha) as Hal. pose proof (sqrt_sqrt _ (Rlt_le _ _ Ha)) as Hal2.
  set (al := sqrt (4 * Ei ^ 2 - Cc ^ 2)) in *.
  set (ga := sqrt (Ei ^ 2 - Cc ^ 2 / 2)) in *.
  assert (Hz : 0 < tl_zeta4 e Cc al ga).
  { unfold tl_zeta4. assert (0 <= (e ^ 2 - ga ^ 2) ^ 2) by apply pow2_ge_0.
    assert (0 < 1 / 4 * al ^ 2 * Cc ^ 2). { apply Rmult_lt_0_compat; [apply Rmult_lt_0_compat; [lra|]|]; nra. } lra. }
  set (z4 := tl_zeta4 e Cc al ga) in *.
  assert (Hq : 0 < Ei ^ 2 + Eg ^ 2 - al * Eg).
  { assert (al * Eg <= 2 * Ei * Eg).
    { apply Rmult_le_compat_r; auto. apply Rsqr_incr_0; unfold Rsqr; try lra. nra. }
    destruct (Req_dec Eg 0) as [->|H0]; [nra|].
    assert (al < 2 * Ei). { apply Rsqr_incrst_0; unfold Rsqr; try lra. nra. }
    assert (al * Eg < 2 * Ei * Eg) by (apply Rmult_lt_compat_r; lra).
    assert (HH : 0 <= (Ei - Eg) ^ 2) by apply pow2_ge_0.
    replace ((Ei - Eg) ^ 2) with (Ei ^ 2 + Eg ^ 2 - 2 * Ei * Eg) in HH by ring. lra. }
  assert (Hq' : 0 < Ei ^ 2 + Eg ^ 2 + al * Eg).
  { assert (0 <= al * Eg) by (apply Rmult_le_pos; lra). nra. }
  assert (Hab : 0 < Rabs (e - Eg)) by (apply Rabs_pos_lt; lra).
  assert (Hs : 0 < sqrt ((Ei ^ 2 - Eg ^ 2) ^ 2 + Eg ^ 2 * Cc ^ 2)).
  { apply sqrt_lt_R0. destruct (Req_dec Eg 0) as [->|H0].
    - assert (0 < Ei ^ 2) by nra. nra.
    - assert (0 <= (Ei ^ 2 - Eg ^ 2) ^ 2) by apply pow2_ge_0.
      assert (0 < Eg ^ 2 * Cc ^ 2) by (apply Rmult_lt_0_compat; nra). lra. }
  set (sq := sqrt ((Ei ^ 2 - Eg ^ 2) ^ 2 + Eg ^ 2 * Cc ^ 2)) in *.
  cbv zeta.
  rewrite (odiv_some _ z4) by lra. cbn [obind].
  rewrite (odiv_some _ al) by lra. cbn [obind].
  rewrite (odiv_some _ Ei) by lra. cbn [obind].
  rewrite (odiv_some _ (Ei ^ 2 + Eg ^ 2 - al * Eg)) by lra. cbn [obind].
  rewrite oln_some by (apply Rdiv_lt_0_compat; auto). cbn [obind].
  rewrite (odiv_some _ z4) by lra. cbn [obind].
  rewrite (odiv_some _ Ei) by lra. cbn [obind].
  rewrite !oatan_some by lra. cbn [obind].
  rewrite (odiv_some _ z4) by lra. cbn [obind].
  rewrite (odiv_some _ al) by lra. cbn [obind].
  rewrite (odiv_some _ al) by lra. cbn [obind].
  rewrite !oatan_some by lra. cbn [obind].
  rewrite (odiv_some _ z4) by lra. cbn [obind].
  rewrite (odiv_some _ e) by lra. cbn [obind].
  rewrite (odiv_some _ (e + Eg)) by lra. cbn [obind].
  rewrite oln_some by (apply Rdiv_lt_0_compat; lra). cbn [obind].
  rewrite (odiv_some _ z4) by lra. cbn [obind].
  rewrite (odiv_some _ sq) by lra. cbn [obind].
  rewrite oln_some by (apply Rdiv_lt_0_compat; auto; apply Rmult_lt_0_compat; lra). cbn [obind].
  reflexivity.
Qed.

Lemma tl_e2_defined A Cc Ei Eg e : 0 < Cc -> 0 < e -> exists v, tl_e2 Eg e (A, Cc, Ei) = Some v.
Proof.
  intros HC He. unfold tl_e2. rewrite odiv_some; [cbn [omap]; eauto|].
  assert (0 <= (e ^ 2 - Ei ^ 2) ^ 2) by apply pow2_ge_0. assert (0 < Cc * e) by nra.
  assert (0 < (Cc * e) ^ 2) by nra. assert (0 < e * ((e ^ 2 - Ei ^ 2) ^ 2 + (Cc * e) ^ 2)); [|lra].
  apply Rmult_lt_0_compat; lra.
Qed.

Lemma tl_finite os Eg Einf e : 0 <= Eg -> 0 < e -> e <> Eg ->
  Forall (fun o => 0 < osc_B o /\ 0 < osc_E o /\ osc_B o ^ 2 <= 2 * osc_E o ^ 2) os ->
  exists z, tl_epsilon os Eg Einf e = Some z.
Proof.
  intros Hg He Hne Hf. unfold tl_epsilon. destruct (osum_Some (map (tl_term Eg e) os)) as [z E].
  - rewrite Forall_map. eapply Forall_impl; [|exact Hf].
    intros [[A B] Ei] [H1 [H2 H3]]. unfold osc_B, osc_E in *. cbn [fst snd] in *.
    unfold tl_term. rewrite tl_e1_defined by auto. destruct (tl_e2_defined A B Ei Eg e) as [v Ev]; auto.
    rewrite Ev. cbn [obind]. discriminate.
  - rewrite E. simpl. eauto.
Qed.

Lemma tl_nan_term os Eg Einf e : Exists (fun o => tl_e1 Eg e o = None) os -> tl_epsilon os Eg Einf e = None.
Proof.
  intros H. unfold tl_epsilon. rewrite osum_None; auto. rewrite Exists_map.
  eapply Exists_impl; [|exact H]. intros o Ho. unfold tl_term. rewrite Ho. reflexivity.
Qed.

(** gamma is nan for sqrt 2 * En < C *)
Lemma tl_gamma_nan A Cc Ei Eg e : 2 * Ei ^ 2 < Cc ^ 2 -> tl_e1 Eg e (A, Cc, Ei) = None.
Proof.
  intros H. unfold tl_e1. unfold osqrt at 1. destruct Rle_dec; auto. cbn [obind].
  unfold osqrt. destruct Rle_dec; [lra|]. reflexivity.
Qed.

Lemma tl_edge_nan A Cc Ei Eg : 0 < Eg -> tl_e1 Eg Eg (A, Cc, Ei) = None.
Proof.
  intros H. unfold tl_e1.
  repeat match goal with |- obind ?x _ = None => destruct x eqn:?; cbn [obind]; [|reflexivity] end.
  exfalso.
  match goal with H1 : oln ?q = Some _, H2 : odiv (Rabs (Eg - Eg)) (Eg + Eg) = Some ?q |- _ =>
    rename H1 into K1; rename H2 into K2 end.
  rewrite odiv_some in K2 by lra. replace (Eg - Eg) with 0 in K2 by ring. rewrite Rabs_R0 in K2.
  injection K2 as <-. unfold oln in K1. destruct Rlt_dec as [L|L]; [|discriminate].
  unfold Rdiv in L. rewrite Rmult_0_l in L. lra.
Qed.

Lemma tl_refute_wide os Eg Einf e : Exists (fun o => 2 * osc_E o ^ 2 < osc_B o ^ 2) os ->
  tl_epsilon os Eg Einf e = None.
Proof.
  intros H. apply tl_nan_term. eapply Exists_impl; [|exact H].
  intros [[A B] E] Ho. apply tl_gamma_nan. exact Ho.
Qed.
Lemma tl_refute_edge os Eg Einf : os <> [] -> 0 < Eg -> tl_epsilon os Eg Einf Eg = None.
Proof.
  intros Hn H. apply tl_nan_term. destruct os as [|[[A B] E] os]; [congruence|].
  left. apply tl_edge_nan. auto.
Qed.

Lemma lorentz_single A B E Einf e : lorentz_denominator B E (RtoC e) <> RtoC 0 ->
  lorentz_epsilon [(A, B, E)] Einf e = Some (RtoC A / lorentz_denominator B E (RtoC e) + RtoC Einf)%C.
Proof.
  intros H. unfold lorentz_epsilon. cbn [map osum]. rewrite lorentz_real_energy; auto.
  cbn [olift2 omap]. f_equal. ring.
Qed.
