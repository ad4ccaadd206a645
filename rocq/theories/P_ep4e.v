(** * Rounding, datasets built by the loaders, examples *)

Require Import Reals ZArith Lra Lia List Bool String Sorting.Sorted Permutation.
From Verif Require Import Base M_disp M_model M_data Spec_data P_data P_struct M_ep4 Spec_ep4 P_ep4 P_ep4b P_ep4c P_ep4d.
From Verif Require Import Spec_objective.
Import ListNotations.
Open Scope list_scope.
Open Scope R_scope.

(** ** rounding *)
Lemma rint_spec x : exists k, rint x = IZR k /\ nearest_even x k.
Proof.
  unfold rint, nearest_even. destruct (base_Int_part x) as (H1 & H2). set (f := Int_part x) in *.
  destruct (Rlt_dec (x - IZR f) (1 / 2)) as [L|L].
  { exists f. split; [reflexivity|]. rewrite Rabs_pos_eq by lra. split; lra. }
  destruct (Rlt_dec (1 / 2) (x - IZR f)) as [G|G].
  { exists (f + 1)%Z. split; [reflexivity|]. rewrite plus_IZR. rewrite Rabs_left by lra. split; lra. }
  destruct (Z.even f) eqn:E.
  { exists f. split; [reflexivity|]. rewrite Rabs_pos_eq by lra. split; [lra|]. intros _. exact E. }
  exists (f + 1)%Z. split; [reflexivity|]. rewrite plus_IZR. rewrite Rabs_left1 by lra. split; [lra|].
  intros _. rewrite Z.even_add, E. reflexivity.
Qed.
Lemma even_unique x k k' : nearest_even x k -> nearest_even x k' -> k = k'.
Proof.
  intros (H1 & H2) (H1' & H2').
  assert (Rabs (IZR (k - k')) <= 1) as B.
  { rewrite minus_IZR. replace (IZR k - IZR k') with ((x - IZR k') - (x - IZR k)) by ring.
    eapply Rle_trans; [apply Rabs_triang|]. rewrite Rabs_Ropp. lra. }
  rewrite <- abs_IZR in B. apply le_IZR in B.
  destruct (Z.eq_dec k k') as [|N]; [assumption|exfalso].
  assert (k = k' + 1 \/ k' = k + 1)%Z as D by lia.
  destruct D as [D|D]; subst; rewrite plus_IZR in *; rewrite Z.even_add in *.
  - assert (x = IZR k' + 1 / 2) by (destruct (Rcase_abs (x - (IZR k' + 1))); destruct (Rcase_abs (x - IZR k'));
      unfold Rabs in H1, H1'; repeat destruct Rcase_abs; lra). subst x.
    rewrite H2' in H2.
    + discriminate H2. replace (IZR k' + 1 / 2 - (IZR k' + 1)) with (- (1 / 2)) by lra. rewrite Rabs_Ropp. apply Rabs_pos_eq. lra.
    + replace (IZR k' + 1 / 2 - IZR k') with (1 / 2) by lra. apply Rabs_pos_eq. lra.
  - assert (x = IZR k + 1 / 2) by (unfold Rabs in H1, H1'; repeat destruct Rcase_abs; lra). subst x.
    rewrite H2 in H2'.
    + discriminate H2'. replace (IZR k + 1 / 2 - (IZR k + 1)) with (- (1 / 2)) by lra. rewrite Rabs_Ropp. apply Rabs_pos_eq. lra.
    + replace (IZR k + 1 / 2 - IZR k) with (1 / 2) by lra. apply Rabs_pos_eq. lra.
Qed.
Lemma rint_eq x k : nearest_even x k -> rint x = IZR k.
Proof. intros H. destruct (rint_spec x) as (k' & -> & H'). f_equal. eapply even_unique; eassumption. Qed.
Lemma rint_IZR k : rint (IZR k) = IZR k.
Proof. apply rint_eq. unfold nearest_even. replace (IZR k - IZR k) with 0 by ring. rewrite Rabs_R0. split; lra. Qed.
Lemma nearest_any x k j : nearest_even x k -> Rabs (x - IZR k) <= Rabs (x - IZR j).
Proof.
  intros (H & _). destruct (Z.eq_dec j k) as [->|N]; [lra|].
  assert (1 <= Rabs (IZR (k - j))) as B by (rewrite <- abs_IZR; apply IZR_le; lia).
  rewrite minus_IZR in B. replace (IZR k - IZR j) with ((x - IZR j) - (x - IZR k)) in B by ring.
  pose proof (Rabs_triang (x - IZR j) (- (x - IZR k))) as T. rewrite Rabs_Ropp in T.
  unfold Rminus in *. lra.
Qed.
Lemma custom_round_spec x j : j <> 0%Z ->
  exists y k, custom_round x (IZR j / 100) = Some y /\ y = IZR k * (IZR j / 100) /\
    nearest_even (x / (IZR j / 100)) k /\ nearest_multiple (IZR j / 100) x y /\
    custom_round y (IZR j / 100) = Some y.
Proof.
  intros N. assert (IZR j <> 0) as NR by (apply not_0_IZR; exact N).
  assert (IZR j / 100 <> 0) as NB by (unfold Rdiv; apply Rmult_integral_contrapositive; split; lra).
  assert (forall k : Z, round2 (IZR j / 100 * IZR k) = IZR k * (IZR j / 100)) as R2.
  { intros k. unfold round2. replace (IZR j / 100 * IZR k * 100) with (IZR (j * k)) by (rewrite mult_IZR; field).
    rewrite rint_IZR, mult_IZR. field. }
  destruct (rint_spec (x / (IZR j / 100))) as (k & E & NE).
  exists (IZR k * (IZR j / 100)), k. unfold custom_round, odiv. destruct (Req_EM_T (IZR j / 100) 0); [contradiction|].
  cbn [omap]. rewrite E, R2. split; [reflexivity|]. split; [reflexivity|]. split; [exact NE|]. split.
  - split; [exists k; reflexivity|]. intros i. pose proof (nearest_any _ _ i NE) as A.
    assert (forall z, Rabs (x - IZR z * (IZR j / 100)) = Rabs (IZR j / 100) * Rabs (x / (IZR j / 100) - IZR z)) as X.
    { intros z. rewrite <- Rabs_mult. f_equal. field. exact NR. }
    rewrite !X. apply Rmult_le_compat_l; [apply Rabs_pos|exact A].
  - replace (IZR k * (IZR j / 100) / (IZR j / 100)) with (IZR k) by (field; exact NR).
    rewrite rint_IZR, R2. reflexivity.
Qed.
Lemma custom_round_third : exists x base, base <> 0 /\ exists y, custom_round x base = Some y /\
  forall k : Z, y <> IZR k * base.
Proof.
  exists (1 / 3), (1 / 3). split; [lra|]. exists (33 / 100). split.
  - unfold custom_round, odiv. destruct (Req_EM_T (1 / 3) 0); [lra|]. cbn [omap].
    replace (1 / 3 / (1 / 3)) with (IZR 1) by lra. rewrite rint_IZR. unfold round2.
    rewrite (rint_eq _ 33); [reflexivity|]. split.
    + replace (1 / 3 * 1 * 100 - 33) with (1 / 3) by lra. rewrite Rabs_pos_eq; lra.
    + replace (1 / 3 * 1 * 100 - 33) with (1 / 3) by lra. rewrite Rabs_pos_eq; lra.
  - intros k H. assert (IZR 99 = IZR (k * 100)) as E by (rewrite mult_IZR; lra). apply eq_IZR in E. lia.
Qed.

(** ** means *)
Lemma sum_bounds l lo hi : Forall (fun x => lo <= x <= hi) l ->
  lo * INR (List.length l) <= fold_right Rplus 0 l <= hi * INR (List.length l).
Proof.
  induction 1 as [|x l H F IH]; cbn [fold_right List.length]; [cbn; lra|]. rewrite S_INR. lra.
Qed.
Lemma mean_between l x lo hi : mean_of l x -> Forall (fun y => lo <= y <= hi) l -> lo <= x <= hi.
Proof.
  intros (N & E) F. apply sum_bounds in F. rewrite <- E in F.
  assert (0 < INR (List.length l)) as P by (apply lt_0_INR; destruct l; [tauto|cbn; lia]).
  split; apply Rmult_le_reg_r with (INR (List.length l)); lra.
Qed.

(** ** DataSE objects built by the loaders *)
Lemma install_spec h l pts : map p_wav pts = ld_wav l -> map p_aoi pts = ld_aoi l ->
  map p_psi pts = ld_psi l -> map p_delta pts = ld_delta l ->
  exists d h', install h l = Ok (d, h') /\ ds_flipped d = ld_reflect l /\
    (ld_reflect l = false -> get_data h' d = Ok (columns pts)) /\
    (ld_reflect l = true -> exists pts', Forall2 folded_point pts pts' /\ get_data h' d = Ok (columns pts')) /\
    (forall a, (a < List.length h)%nat -> nth_error h' a = nth_error h a).
Proof.
  intros E1 E2 E3 E4. unfold install, alloc. rewrite !app_length. cbn [List.length].
  rewrite <- !app_assoc. cbn [app].
  set (h4 := h ++ [ld_wav l; ld_aoi l; ld_psi l; ld_delta l]). set (n := List.length h).
  assert (forall i v, nth_error [ld_wav l; ld_aoi l; ld_psi l; ld_delta l] i = Some v -> nth_error h4 (n + i) = Some v) as G.
  { intros i v H. unfold h4, n. rewrite nth_error_app2 by lia. rewrite Nat.add_comm, Nat.add_sub. exact H. }
  replace (n + 1 + 1 + 1)%nat with (n + 3)%nat by lia. replace (n + 1 + 1)%nat with (n + 2)%nat by lia.
  destruct (from_arrays (fun _ => None) h4 tab n (n + 1) (n + 2) (n + 3) pts (ld_reflect l)) as (d & h' & E & EF & EM & HT & HF).
  - unfold holds. cbn [ds_wav ds_aoi ds_psi ds_delta]. rewrite E1, E2, E3, E4.
    split; [rewrite <- (Nat.add_0_r n); apply G; reflexivity|]. repeat split; apply G; reflexivity.
  - cbn [In]. lia.
  - exists d, h'. split; [exact E|]. split; [exact EF|]. split; [|split].
    + intros ER. destruct (HF ER) as (_ & HH). apply getters_all; assumption.
    + intros ER. destruct (HT ER) as (pts' & A & _ & B). exists pts'. split; assumption.
    + intros a La. unfold new_dataset in E. cbn [take_source rbind ds_delta ds_wav ds_aoi ds_psi] in E.
      injection E as _ <-. assert (nth_error h4 a = nth_error h a) as EA by (unfold h4; apply nth_error_app1; exact La).
      destruct (ld_reflect l); [|exact EA]. rewrite nth_error_update_ne; [exact EA|]. unfold n in *. lia.
Qed.

(** ** examples *)
Definition cols6 : list string := (["#Lambda"; "AOI"; "Psi"; "Delta"; "X_pos"; "Y_pos"; "Time"])%string.
Definition meas_row (m : meas) : list R := [me_lam m; me_aoi m; me_psi m; me_delta m; me_x m; me_y m; me_t m].
Definition ep4_table (ms : list meas) : table := Table cols6 (map (fun m => map Some (meas_row m)) ms).

Lemma cols6_nodup : NoDup cols6.
Proof. unfold cols6. repeat constructor; cbn; intuition discriminate. Qed.
Lemma ep4_rect ms : rectangular (ep4_table ms).
Proof.
  split; [exact cols6_nodup|]. cbn [tb_rows tb_cols ep4_table]. apply Forall_forall. intros r Hr.
  apply in_map_iff in Hr as (m & <- & _). reflexivity.
Qed.
Lemma ep4_complete ms : complete (tb_rows (ep4_table ms)) (map meas_row ms).
Proof. cbn [tb_rows ep4_table]. induction ms; cbn [map]; constructor. exact IHms. Qed.
Lemma ep4_fields ms : Forall2 (optics cols6) (map meas_row ms) ms /\ Forall2 (place cols6) (map meas_row ms) ms /\
  Forall2 (moment cols6) (map meas_row ms) ms.
Proof.
  split; [|split]; induction ms as [|m ms IH]; cbn [map]; constructor; try exact IH.
  - split; [exists 0%nat|split; [exists 1%nat|split; [exists 2%nat|exists 3%nat]]]; split; reflexivity.
  - split; [exists 4%nat|exists 5%nat]; split; reflexivity.
  - exists 6%nat; split; reflexivity.
Qed.
Lemma ep4_four : four_columns cols6.
Proof. unfold four_columns, cols6. cbn. tauto. Qed.
Lemma ep4_change name (f : meas -> R) i ms : nth_error cols6 i = Some name -> (forall m, nth_error (meas_row m) i = Some (f m)) ->
  (no_change cols6 (map meas_row ms) name <-> forall m m', In m ms -> In m' ms -> f m = f m').
Proof.
  intros E H. assert (forall m v, field cols6 (meas_row m) name v <-> v = f m) as X.
  { intros m v. split.
    - intros (j & Ej & Er). assert (j = i) as ->.
      { apply (proj1 (NoDup_nth_error cols6) cols6_nodup); [|congruence]. apply nth_error_Some. congruence. }
      rewrite H in Er. congruence.
    - intros ->. exists i. split; auto. }
  split.
  - intros [N|K] m m' Hm Hm'; [exfalso; apply N; eapply nth_error_In; exact E|].
    apply (K (meas_row m) (meas_row m')); try (apply in_map; assumption); apply X; reflexivity.
  - intros K. right. intros r r' v v' Hr Hr'. apply in_map_iff in Hr as (m & <- & Hm), Hr' as (m' & <- & Hm').
    rewrite !X. intros -> ->. apply K; assumption.
Qed.
Lemma ep4_no_change_time ms : no_change cols6 (map meas_row ms) "Time" <-> forall m m', In m ms -> In m' ms -> me_t m = me_t m'.
Proof. apply (ep4_change _ me_t 6); reflexivity. Qed.
Lemma ep4_one_place ms : one_place cols6 (map meas_row ms) <->
  forall m m', In m ms -> In m' ms -> me_x m = me_x m' /\ me_y m = me_y m'.
Proof.
  unfold one_place. rewrite (ep4_change _ me_x 4 ms), (ep4_change _ me_y 5 ms) by reflexivity. split.
  - intros [N|[N|(A & B)]]; [exfalso; apply N; cbn; tauto|exfalso; apply N; cbn; tauto|]. intros; split; auto.
  - intros H. right; right. split; intros; apply H; assumption.
Qed.

(** repeated measurement at two angles, unsorted *)
Definition ms_rep : list meas :=
  [Meas 633 60 30 100 0 0 0; Meas 633 50 31 120 0 0 0; Meas 500 50 33 130 0 0 0; Meas 633 50 33 140 0 0 0].
(** delta on both sides of 0 *)
Definition ms_wrap : list meas := [Meas 633 50 30 359 0 0 0; Meas 633 50 30 1 0 0 0].
(** a map with two areas *)
Definition ms_map : list meas := [Meas 633 50 30 100 0 0 0; Meas 633 50 31 101 (1/10) 0 0; Meas 633 50 40 110 5 0 0].
(** two time steps at fixed positions *)
Definition ms_time : list meas := [Meas 633 50 30 100 0 0 1; Meas 633 50 31 101 5 0 2; Meas 633 50 32 102 0 0 1].
(** two time steps of a map with three areas *)
Definition ms_mt : list meas :=
  [Meas 633 50 30 100 0 0 1; Meas 633 50 31 101 5 0 1; Meas 633 50 32 102 9 0 1; Meas 633 50 33 103 0 0 2].
(** two scans with positions that differ a little *)
Definition scan1 : list meas := [Meas 633 50 30 100 0 0 1; Meas 700 50 31 101 (5/100) 0 1].
Definition scan2 : list meas := [Meas 633 50 40 110 0 0 2; Meas 700 50 41 111 (5/100) 0 2].

Ltac members := repeat match goal with
  | H : In _ (_ :: _) |- _ => destruct H as [<-|H]
  | H : In _ [] |- _ => destruct H end.
Ltac fld := unfold near, close; cbn [me_x me_y me_t]; try (split; apply Rabs_le; cbn -[IZR]; lra).

Lemma rep_hyps : no_change cols6 (map meas_row ms_rep) "Time" /\ one_place cols6 (map meas_row ms_rep).
Proof.
  split; [apply ep4_no_change_time|apply ep4_one_place]; intros m m' H H'; unfold ms_rep in *; members;
    cbn [me_x me_y me_t]; try split; reflexivity.
Qed.
Lemma near_of a b : Rabs (me_x a - me_x b) <= 2 / 10 -> Rabs (me_y a - me_y b) <= 2 / 10 -> near a b.
Proof.
  intros A B. unfold near, close. pose proof (Rabs_pos (me_x b)). pose proof (Rabs_pos (me_y b)). split; lra.
Qed.
Lemma far_of a b : 2 / 10 + / 100000 * Rabs (me_x b) < Rabs (me_x a - me_x b) -> ~ near a b.
Proof. intros A (B & _). unfold close in B. lra. Qed.

Lemma map_hyps : no_change cols6 (map meas_row ms_map) "Time" /\ ~ one_place cols6 (map meas_row ms_map) /\
  blocks [[Meas 633 50 30 100 0 0 0; Meas 633 50 31 101 (1/10) 0 0]; [Meas 633 50 40 110 5 0 0]].
Proof.
  split; [|split].
  - apply ep4_no_change_time; intros m m' H H'; unfold ms_map in *; members; reflexivity.
  - rewrite ep4_one_place. intros H. destruct (H (Meas 633 50 30 100 0 0 0) (Meas 633 50 40 110 5 0 0)) as (E & _).
    + left; reflexivity.
    + right; right; left; reflexivity.
    + cbn [me_x] in E. lra.
  - constructor.
    + repeat constructor; unfold close; cbn [me_x me_y].
      * replace (0 - 1 / 10) with (- (1 / 10)) by lra. rewrite Rabs_Ropp, Rabs_pos_eq by lra. lra.
      * replace (0 - 0) with 0 by lra. rewrite Rabs_R0. lra.
    + apply far_of. cbn [me_x]. unfold Rabs. repeat destruct Rcase_abs; lra.
    + constructor. constructor.
Qed.

Lemma time_hyps : ~ no_change cols6 (map meas_row ms_time) "Time" /\ steady cols6 (map meas_row ms_time) "X_pos" /\
  steady cols6 (map meas_row ms_time) "Y_pos".
Proof.
  assert (forall name (f : meas -> R) i m v, nth_error cols6 i = Some name -> nth_error (meas_row m) i = Some (f m) ->
    field cols6 (meas_row m) name v -> v = f m) as X.
  { intros name f i m v E H (j & Ej & Er). assert (j = i) as ->.
    { apply (proj1 (NoDup_nth_error cols6) cols6_nodup); [|congruence]. apply nth_error_Some. congruence. }
    rewrite H in Er. congruence. }
  split; [|split].
  - rewrite ep4_no_change_time. intros H. assert (1 = 2) as E; [|lra].
    apply (H (Meas 633 50 30 100 0 0 1) (Meas 633 50 31 101 5 0 2)); [left; reflexivity|right; left; reflexivity].
  - intros r r' t v v' Hr Hr'. apply in_map_iff in Hr as (m & <- & Hm), Hr' as (m' & <- & Hm').
    intros Ht Ht' Hv Hv'. apply (X "Time"%string me_t 6%nat) in Ht; [|reflexivity..]. apply (X "Time"%string me_t 6%nat) in Ht'; [|reflexivity..].
    apply (X "X_pos"%string me_x 4%nat) in Hv; [|reflexivity..]. apply (X "X_pos"%string me_x 4%nat) in Hv'; [|reflexivity..]. subst v v'.
    rewrite Ht in Ht'. unfold ms_time in *. members; cbn [me_x me_t] in *; lra.
  - intros r r' t v v' Hr Hr'. apply in_map_iff in Hr as (m & <- & Hm), Hr' as (m' & <- & Hm').
    intros Ht Ht' Hv Hv'.
    apply (X "Y_pos"%string me_y 5%nat) in Hv; [|reflexivity..]. apply (X "Y_pos"%string me_y 5%nat) in Hv'; [|reflexivity..]. subst v v'.
    unfold ms_time in *. members; reflexivity.
Qed.

Lemma mt_hyps : ~ no_change cols6 (map meas_row ms_mt) "Time" /\
  at_time 1 ms_mt = List.concat [[Meas 633 50 30 100 0 0 1]; [Meas 633 50 31 101 5 0 1]; [Meas 633 50 32 102 9 0 1]] /\
  blocks [[Meas 633 50 30 100 0 0 1]; [Meas 633 50 31 101 5 0 1]; [Meas 633 50 32 102 9 0 1]].
Proof.
  split; [|split].
  - rewrite ep4_no_change_time. intros H. assert (1 = 2) as E; [|lra].
    apply (H (Meas 633 50 30 100 0 0 1) (Meas 633 50 33 103 0 0 2)); [left; reflexivity|right; right; right; left; reflexivity].
  - unfold at_time, ms_mt. cbn [filter me_t]. destruct (Req_EM_T 1 1); [|lra]. destruct (Req_EM_T 2 1); [lra|]. reflexivity.
  - constructor; [constructor| |constructor; [constructor| |constructor; constructor]].
    + apply far_of. cbn [me_x]. unfold Rabs. repeat destruct Rcase_abs; lra.
    + apply far_of. cbn [me_x]. unfold Rabs. repeat destruct Rcase_abs; lra.
Qed.

Lemma scans_hyps : scans 2 [1; 2] [scan1; scan2].
Proof.
  split; [repeat constructor; cbn; lra|].
  assert (forall a b : meas, me_x a = 0 -> me_x b = 5 / 100 -> me_y a = 0 -> me_y b = 0 -> blocks [[a; b]] /\ scattered [a; b]) as X.
  { intros a b A B C D. split.
    - constructor. constructor; [|constructor]. apply near_of.
      + rewrite A, B. replace (0 - 5 / 100) with (- (5 / 100)) by lra. rewrite Rabs_Ropp, Rabs_pos_eq; lra.
      + rewrite C, D. replace (0 - 0) with 0 by lra. rewrite Rabs_R0. lra.
    - exists a, b. cbn [In]. rewrite A, B. split; [tauto|]. split; [tauto|]. left. lra. }
  constructor; [|constructor; [|constructor]]; (split; [reflexivity|]; split; [repeat constructor|]; apply X; reflexivity).
Qed.

(** the rows of the second scan are lost *)
Lemma scans_lost pr fname : exists s d,
  open_EP4file pr fname (ep4_table (scan1 ++ scan2)) false = Ok (One d) /\ snd (fst d) = s /\
  averaged scan1 s /\ sm_time s = Some (Some 2).
Proof.
  destruct (ep4_fields (scan1 ++ scan2)) as (F & P & G).
  assert (scan1 ++ scan2 = List.concat [scan1; scan2]) as E by (cbn [List.concat]; rewrite app_nil_r; reflexivity).
  rewrite E in F, P, G.
  destruct (open_scans pr fname (ep4_table (scan1 ++ scan2)) false (map meas_row (scan1 ++ scan2)) 2 1 [2] scan1 [scan2])
    as (r & s & EO & (ds & FD & ->) & A & _ & ET).
  - apply ep4_rect.
  - apply ep4_complete.
  - rewrite E. exact F.
  - rewrite E. exact P.
  - rewrite E. exact G.
  - exact scans_hyps.
  - discriminate.
  - inversion FD as [|? d ? ds' (ES & _) FD']; subst. inversion FD'; subst.
    exists (snd (fst d)), d. split; [exact EO|]. split; [reflexivity|]. split; [exact A|exact ET].
Qed.

(** C72: the average of 359 and 1 *)
Lemma wrap_average pr fname :
  exists s d, open_EP4file pr fname (ep4_table ms_wrap) false = Ok (One d) /\ snd (fst d) = s /\ sm_delta s = [180] /\
    circle_distance 360 359 1 2 /\ circle_distance 360 180 359 179 /\ circle_distance 360 180 1 179.
Proof.
  destruct (ep4_fields ms_wrap) as (F & P & G).
  destruct (open_single pr fname (ep4_table ms_wrap) false (map meas_row ms_wrap) ms_wrap)
    as (r & s & EO & (ds & FD & ->) & A & _ & ET).
  - apply ep4_rect.
  - apply ep4_complete.
  - exact ep4_four.
  - exact F.
  - apply ep4_no_change_time; intros m m' H H'; unfold ms_wrap in *; members; reflexivity.
  - apply ep4_one_place; intros m m' H H'; unfold ms_wrap in *; members; split; reflexivity.
  - inversion FD as [|? d ? ds' (ES & _) FD']; subst. inversion FD'; subst.
    exists (snd (fst d)), d. split; [exact EO|]. split; [reflexivity|]. split.
    + destruct A as (L1 & L2 & L3 & S & K & M). set (s := snd (fst d)) in *.
      assert (combine (sm_aoi s) (sm_lambda s) = [(50, 633)]) as EK.
      { assert (forall k, In k (combine (sm_aoi s) (sm_lambda s)) -> k = (50, 633)) as X.
        { intros (a & l) Hk. apply K in Hk as (m & Hm & <- & <-). unfold ms_wrap in Hm. members; reflexivity. }
        assert (In (50, 633) (combine (sm_aoi s) (sm_lambda s))) as Y.
        { apply K. exists (Meas 633 50 30 359 0 0 0). cbn [In ms_wrap me_aoi me_lam]. tauto. }
        destruct (combine (sm_aoi s) (sm_lambda s)) as [|k [|k' ks]]; [destruct Y| |].
        - rewrite (X k) by (left; reflexivity). reflexivity.
        - exfalso. inversion S as [|? ? _ FF]; subst. inversion FF as [|? ? B _]; subst.
          rewrite (X k), (X k') in B by (cbn; tauto). revert B. apply before_irrefl. }
      assert (List.length (combine (sm_aoi s) (sm_lambda s)) = 1%nat) as LC by (rewrite EK; reflexivity).
      rewrite combine_length, L1, Nat.min_id in LC. rewrite LC in L2, L3.
      destruct (sm_psi s) as [|p [|]] eqn:EP; [discriminate| |discriminate].
      destruct (sm_delta s) as [|dd [|]] eqn:ED; [discriminate| |discriminate].
      destruct (M 0%nat 50 633 p dd) as (_ & (_ & HD)).
      * rewrite EK. reflexivity.
      * reflexivity.
      * reflexivity.
      * unfold at_key, ms_wrap in HD. cbn [filter me_aoi me_lam] in HD.
        destruct (Req_EM_T 50 50) as [_|]; [|lra]. destruct (Req_EM_T 633 633) as [_|]; [|lra].
        cbn [map me_delta fold_right List.length INR] in HD. f_equal. lra.
    + assert (forall a b d : R, 0 <= d -> d <= 180 -> (a - b = d \/ a - b = - d \/ a - b = 360 - d) -> circle_distance 360 a b d) as X.
      { intros a b dd D0 D1 HC. split.
        - destruct HC as [H|[H|H]]; rewrite H.
          + exists 0%Z. rewrite Rabs_pos_eq; lra.
          + exists 0%Z. rewrite Rabs_left1; lra.
          + exists (-1)%Z. rewrite Rabs_left1; lra.
        - intros k. destruct (Z.lt_trichotomy k 0) as [HK|[->|HK]].
          + destruct (Z.eq_dec k (-1)) as [->|].
            * unfold Rabs. destruct Rcase_abs; lra.
            * assert (IZR k <= -2) by (apply IZR_le; lia). unfold Rabs. destruct Rcase_abs; lra.
          + unfold Rabs. destruct Rcase_abs; lra.
          + assert (1 <= IZR k) by (apply IZR_le; lia). unfold Rabs. destruct Rcase_abs; lra. }
      repeat split; try (apply X; lra).
Qed.

(** a column is missing *)
Lemma load_missing cols rows : ~ four_columns cols -> load_EP4 cols rows = Raise KeyError.
Proof.
  intros N. assert (need_cols cols (["#Lambda"; "AOI"; "Psi"; "Delta"])%string = Raise KeyError) as E.
  { unfold need_cols. destruct (forallb _ _) eqn:B; [|reflexivity]. exfalso. apply N.
    cbn [forallb] in B. rewrite !andb_true_iff, !has_col_true in B. unfold four_columns. tauto. }
  unfold load_EP4. rewrite E. destruct (multi_location cols rows); reflexivity.
Qed.
Lemma open_missing pr fname t refl : ~ four_columns (tb_cols t) -> open_EP4file pr fname t refl = Raise KeyError.
Proof.
  intros N. destruct (complete_exists (tb_rows t)) as (rows & CO). rewrite (open_rows _ _ _ _ _ CO).
  destruct (_ && _)%bool eqn:B.
  - apply andb_true_iff in B as (_ & B). apply Nat.ltb_lt in B.
    destruct (drop_duplicates _) as [|t0 ts]; [cbn in B; lia|]. cbn [time_loop]. rewrite load_missing by exact N. reflexivity.
  - rewrite load_missing by exact N. reflexivity.
Qed.
Lemma two_columns : ~ four_columns ["#Lambda"%string; "AOI"%string].
Proof. intros (_ & _ & H & _). cbn in H. intuition discriminate. Qed.
