(** * Refractive indices at arrays of wavelengths: proofs *)

Require Import Reals List Bool Arith String Lra Lia.
From Coquelicot Require Import Complex.
From Verif Require Import Base Cplx M_ema M_disp P_disp P_struct M_array Spec_array.
Import ListNotations.
Open Scope list_scope.
Open Scope R_scope.

Lemma any_nonzero l : l <> [] -> Forall (fun w => w <> 0) l -> np_any l = true.
Proof. intros N F. apply np_any_spec. destruct F as [|w l W F]; [congruence|]. exists w. split; [left; reflexivity|exact W]. Qed.
Lemma any_zero l : Forall (fun w => w = 0) l -> np_any l = false.
Proof.
  intros F. destruct (np_any l) eqn:E; [|reflexivity]. apply np_any_spec in E. destruct E as [x [H1 H2]].
  rewrite Forall_forall in F. elim H2. auto.
Qed.
Lemma not_constant s : ~ constant_RI s -> is_constant (sc_kind s) = false.
Proof.
  intros H. destruct (is_constant (sc_kind s)) eqn:E; [|reflexivity]. elim H. unfold constant_RI.
  destruct (sc_kind s) as [d| | | | | | |] eqn:K; try discriminate. destruct d as [n k| |w n k]; try discriminate.
  - exists n, k. left; reflexivity.
  - cbn in E. destruct (Req_EM_T w 0) as [->|]; [|discriminate]. exists n, k. right; reflexivity.
Qed.

(** an entry that is not zero *)
Lemma at_entry_nonzero s w : w <> 0 -> at_entry (sc_kind s) w = sc_complex s (Some w).
Proof.
  intros W. unfold sc_complex, choose_wav, at_entry, complex_of_epsilon, nm_eV_conversion.
  destruct (Req_EM_T w 0) as [K|_]; [contradiction|].
  destruct (Req_EM_T w 0) as [K|_]; [contradiction|].
  destruct (sc_kind s); try reflexivity.
Qed.

Lemma mapR_raises {A B} (f : A -> result B) l e : mapR f l = Raise e -> exists a, In a l /\ f a = Raise e.
Proof.
  induction l as [|a l IH]; cbn [mapR]; [discriminate|]. destruct (f a) eqn:E; cbn [rbind].
  - destruct (mapR f l) eqn:M; cbn [rbind]; [discriminate|]. intros H. injection H as ->.
    destruct (IH eq_refl) as [b [I1 I2]]. exists b. split; [right; exact I1|exact I2].
  - intros H. injection H as ->. exists a. split; [left; reflexivity|exact E].
Qed.
Lemma mapR_ok {A B} (f : A -> result B) l : forall vs, mapR f l = Ok vs -> Forall2 (fun a v => f a = Ok v) l vs.
Proof.
  induction l as [|a l IH]; cbn [mapR]; intros vs.
  - intros H. injection H as <-. constructor.
  - destruct (f a) eqn:E; cbn [rbind]; [|discriminate]. destruct (mapR f l) eqn:M; cbn [rbind]; [|discriminate].
    intros H. injection H as <-. constructor; auto.
Qed.
Lemma F2_nonzero s l vs : Forall (fun w => w <> 0) l ->
  Forall2 (fun w v => at_entry (sc_kind s) w = Ok v) l vs -> Forall2 (fun w v => sc_complex s (Some w) = Ok v) l vs.
Proof.
  intros F H. induction H as [|w v l vs E H IH]; [constructor|]. inversion F; subst. constructor; auto.
  rewrite <- at_entry_nonzero by assumption. exact E.
Qed.

Lemma array_entries s l : l <> [] -> Forall (fun w => w <> 0) l -> ~ constant_RI s ->
  match complex_at s (W_arr l) with
  | Ok v => exists vs, v = V_arr vs /\ Forall2 (fun w x => sc_complex s (Some w) = Ok x) l vs
  | Raise e => exists w, In w l /\ sc_complex s (Some w) = Raise e
  end.
Proof.
  intros N F K. unfold complex_at. rewrite any_nonzero by assumption. rewrite not_constant by assumption.
  destruct (mapR (at_entry (sc_kind s)) l) as [vs|e] eqn:M; cbn [rmap].
  - exists vs. split; [reflexivity|]. apply F2_nonzero; [exact F|]. apply mapR_ok, M.
  - destruct (mapR_raises _ _ _ M) as [w [I1 I2]]. exists w. split; [exact I1|].
    rewrite Forall_forall in F. rewrite <- at_entry_nonzero; auto.
Qed.

Lemma constant_number s w : constant_RI s -> exists n k,
  (sc_kind s = K_RI (RI_const n k) \/ sc_kind s = K_RI (RI_row 0 n k)) /\ complex_at s w = Ok (V_num (Some (n, k))).
Proof.
  intros (n & k & H). exists n, k. split; [exact H|].
  assert (E : forall v, sc_complex s v = Ok (Some (n, k))).
  { intros v. unfold sc_complex. destruct H as [-> | ->]; cbn [ri_complex]; [reflexivity|]. destruct (Req_EM_T 0 0); [reflexivity|congruence]. }
  assert (I : is_constant (sc_kind s) = true).
  { destruct H as [-> | ->]; cbn [is_constant]; [reflexivity|]. destruct (Req_EM_T 0 0); [reflexivity|congruence]. }
  unfold complex_at. rewrite I. destruct w as [|w|l|rows]; rewrite ?E; cbn [rmap]; try reflexivity.
  - destruct (np_any l); reflexivity.
  - destruct (np_any (List.concat rows)); reflexivity.
Qed.

Lemma all_zero s l : Forall (fun w => w = 0) l -> complex_at s (W_arr l) = complex_at s W_none.
Proof. intros F. unfold complex_at. rewrite any_zero by exact F. reflexivity. Qed.
Lemma all_zero2 s rows : Forall (Forall (fun w => w = 0)) rows -> complex_at s (W_arr2 rows) = complex_at s W_none.
Proof.
  intros F. unfold complex_at. rewrite any_zero; [reflexivity|]. rewrite Forall_forall in *. intros w I.
  apply in_concat in I. destruct I as [r [R1 R2]]. specialize (F r R1). rewrite Forall_forall in F. auto.
Qed.

(** a zero between other wavelengths *)
Lemma osum_none l : In None l -> osum l = None.
Proof.
  induction l as [|x l IH]; [contradiction|]. intros [-> | I]; [reflexivity|]. cbn [osum]. rewrite IH by exact I.
  destruct x; reflexivity.
Qed.
Lemma zero_energy : nm_eV_conversion 0 = None.
Proof. unfold nm_eV_conversion. destruct (Req_EM_T 0 0); [reflexivity|congruence]. Qed.
Lemma zero_terms f os Einf : os <> [] -> root_of_sum (map (at_energy f None) os) Einf = None.
Proof.
  intros N. unfold root_of_sum. rewrite osum_none; [reflexivity|]. destruct os as [|o os]; [congruence|]. left. reflexivity.
Qed.
Lemma zero_entry s l i : (exists w, In w l /\ w <> 0) -> nth_error l i = Some 0 ->
  ((exists A B Cc, sc_kind s = K_Cauchy A B Cc) \/ (exists os Einf, oscillator_class s os Einf /\ os <> [])) ->
  exists vs, complex_at s (W_arr l) = Ok (V_arr vs) /\ nth_error vs i = Some None.
Proof.
  intros A Z K. apply np_any_spec in A. unfold complex_at. rewrite A.
  assert (IC : is_constant (sc_kind s) = false).
  { destruct K as [(a & b & c & ->)|(os & Ei & [->|[Eg ->]] & _)]; reflexivity. }
  rewrite IC.
  assert (T : forall w, exists v, at_entry (sc_kind s) w = Ok v).
  { intros w. destruct K as [(a & b & c & ->)|(os & Ei & [->|[Eg ->]] & _)]; eexists; reflexivity. }
  assert (Z0 : at_entry (sc_kind s) 0 = Ok None).
  { unfold at_entry. rewrite zero_energy. destruct K as [(a & b & c & ->)|(os & Ei & [->|[Eg ->]] & N)].
    - unfold cauchy_complex, odiv. destruct (Req_EM_T (0 ^ 2) 0) as [|Q]; [reflexivity|]. elim Q. ring.
    - rewrite zero_terms by exact N. reflexivity.
    - rewrite zero_terms by exact N. reflexivity. }
  destruct (mapR (at_entry (sc_kind s)) l) as [vs|e] eqn:M; cbn [rmap].
  - exists vs. split; [reflexivity|]. apply mapR_ok in M. clear - M Z Z0. revert i Z.
    induction M as [|w v l vs E M IH]; intros [|i] Z; cbn in *; try discriminate.
    + injection Z as ->. rewrite Z0 in E. injection E as <-. reflexivity.
    + auto.
  - destruct (mapR_raises _ _ _ M) as [w [_ E]]. destruct (T w) as [v V]. rewrite V in E. discriminate.
Qed.

(** two dimensions *)
Lemma grid_any rows p q : grid rows p q -> (0 < p)%nat -> (0 < q)%nat -> np_any (List.concat rows) = true.
Proof.
  intros (L & RL & NZ) P Q. apply np_any_spec. destruct rows as [|r rows]; [cbn in L; lia|].
  inversion RL as [|? ? Lr _]; subst. inversion NZ as [|? ? Nr _]; subst. destruct r as [|w r]; [cbn in Q; lia|].
  inversion Nr; subst. exists w. split; [left; reflexivity|assumption].
Qed.
Lemma table_2d s rows p q : grid rows p q -> (0 < p)%nat -> (0 < q)%nat -> ~ constant_RI s ->
  (forall os Einf, ~ oscillator_class s os Einf) ->
  match complex_at s (W_arr2 rows) with
  | Ok v => exists vs, v = V_arr2 vs /\ Forall2 (Forall2 (fun w x => sc_complex s (Some w) = Ok x)) rows vs
  | Raise e => exists w, In w (List.concat rows) /\ sc_complex s (Some w) = Raise e
  end.
Proof.
  intros G P Q K O. unfold complex_at. rewrite (grid_any _ _ _ G P Q). rewrite not_constant by exact K.
  destruct G as (_ & _ & NZ).
  assert (E : match sc_kind s with
    | K_Lorentz os Einf => osc_arr2 lorentz_term os Einf rows
    | K_TaucLorentz os Eg Einf => osc_arr2 (tl_term Eg) os Einf rows
    | kd => rmap V_arr2 (mapR (mapR (at_entry kd)) rows) end = rmap V_arr2 (mapR (mapR (at_entry (sc_kind s))) rows)).
  { destruct (sc_kind s) eqn:S; try reflexivity; exfalso.
    - apply (O os Einf). left. exact S.
    - apply (O os Einf). right. exists Eg. exact S. }
  rewrite E. clear E. destruct (mapR (mapR (at_entry (sc_kind s))) rows) as [vs|e] eqn:M; cbn [rmap].
  - exists vs. split; [reflexivity|]. apply mapR_ok in M.
    induction M as [|r v rows vs E M IH]; [constructor|]. inversion NZ; subst. constructor; [|auto].
    apply F2_nonzero; [assumption|]. apply mapR_ok, E.
  - destruct (mapR_raises _ _ _ M) as [r [I1 I2]]. destruct (mapR_raises _ _ _ I2) as [w [J1 J2]].
    exists w. split; [apply in_concat; exists r; auto|]. rewrite Forall_forall in NZ. specialize (NZ r I1).
    rewrite Forall_forall in NZ. rewrite <- at_entry_nonzero; auto.
Qed.

(** the contribution of the oscillators *)
Definition term_of (kd : scatterer_kind) : R -> osc -> option C :=
  match kd with K_TaucLorentz _ Eg _ => tl_term Eg | _ => lorentz_term end.
Lemma class_2d s os Einf rows : oscillator_class s os Einf -> np_any (List.concat rows) = true ->
  complex_at s (W_arr2 rows) = osc_arr2 (term_of (sc_kind s)) os Einf rows.
Proof. intros K A. unfold complex_at. rewrite A. destruct K as [->|[Eg ->]]; reflexivity. Qed.
Lemma class_scalar s os Einf w : oscillator_class s os Einf -> w <> 0 ->
  sc_complex s (Some w) = Ok (root_of_sum (map (at_energy (term_of (sc_kind s)) (nm_eV_conversion w)) os) Einf).
Proof.
  intros K W. rewrite <- at_entry_nonzero by exact W. unfold at_entry. destruct K as [->|[Eg ->]]; reflexivity.
Qed.

Lemma osum_map_sum (g : nat -> option C) (f : nat -> C) : forall n a, (forall i, (a <= i < a + n)%nat -> g i = Some (f i)) ->
  exists z, osum (map g (seq a n)) = Some z /\ z = csum_to n (fun i => f (a + i)%nat).
Proof.
  induction n as [|n IH]; intros a H; cbn [seq map osum csum_to].
  - eexists. split; reflexivity.
  - destruct (IH (S a)) as (z & Z & E); [intros; apply H; lia|].
    rewrite Z, (H a) by lia. cbn [olift2]. eexists. split; [reflexivity|]. rewrite E.
    clear. replace (a + n)%nat with (a + n)%nat by reflexivity.
    assert (Q : forall m (h : nat -> C), (csum_to m (fun i => h (S i)) + h 0%nat)%C = (csum_to m h + h m)%C).
    { induction m; intros h; cbn [csum_to]; [reflexivity|]. rewrite <- (IHm h). ring. }
    rewrite (Cplus_comm (f a)). pose proof (Q n (fun i => f (a + i)%nat)) as Q1. cbn beta in Q1.
    replace (a + 0)%nat with a in Q1 by lia. rewrite <- Q1. f_equal.
    assert (X : forall m (h1 h2 : nat -> C), (forall i, h1 i = h2 i) -> csum_to m h1 = csum_to m h2).
    { induction m; intros h1 h2 HH; cbn [csum_to]; [reflexivity|]. rewrite (IHm h1 h2 HH), HH. reflexivity. }
    apply X. intros i. f_equal. lia.
Qed.

Lemma row_of_many {A} (d : A) l i : (i < List.length l)%nat -> row_of d l i = nth i l d.
Proof. destruct l as [|a [|b l]]; cbn [row_of List.length]; intros H; try reflexivity. replace i with 0%nat by lia. reflexivity. Qed.

Lemma grid_entry rows p q i j : grid rows p q -> (i < p)%nat -> (j < q)%nat -> entry2 rows i j <> 0.
Proof.
  intros (L & RL & NZ) I J. unfold entry2. subst p. rewrite Forall_forall in RL, NZ.
  specialize (NZ (nth i rows []) (nth_In _ _ I)). rewrite Forall_forall in NZ. apply NZ, nth_In.
  rewrite (RL (nth i rows []) (nth_In _ _ I)). exact J.
Qed.

(** one oscillator: the rows are added up *)
Lemma one_oscillator_2d s o Einf rows p q (N : nat -> nat -> C) : oscillator_class s [o] Einf ->
  grid rows p q -> (0 < p)%nat -> (0 < q)%nat ->
  (forall i j, (i < p)%nat -> (j < q)%nat -> sc_complex s (Some (entry2 rows i j)) = Ok (Some (N i j))) ->
  exists vs, complex_at s (W_arr2 rows) = Ok (V_arr vs) /\ List.length vs = q /\
  forall j, (j < q)%nat -> exists v, nth_error vs j = Some (Some v) /\
    (v * v = RtoC Einf + csum_to p (fun i => N i j * N i j - RtoC Einf))%C.
Proof.
  intros K G P Q H. rewrite (class_2d s [o] Einf rows K (grid_any _ _ _ G P Q)).
  set (f := term_of (sc_kind s)).
  assert (LP : List.length rows = p) by apply G.
  assert (LQ : List.length (hd [] rows) = q).
  { destruct G as (_ & RL & _). destruct rows as [|r rows]; [cbn in LP; lia|]. inversion RL; subst. reflexivity. }
  unfold osc_arr2. rewrite LP, LQ.
  assert (B : broadcast (List.length [o]) p = Some p).
  { unfold broadcast. cbn [List.length]. destruct (Nat.eqb_spec 1 p) as [<-|]; reflexivity. }
  rewrite B. eexists. split; [reflexivity|]. split; [rewrite map_length, seq_length; reflexivity|].
  intros j J. rewrite nth_error_map, (nth_error_nth' _ 0%nat) by (rewrite seq_length; exact J).
  rewrite seq_nth by exact J. cbn [option_map Nat.add].
  destruct (osum_map_sum (fun i => at_energy f (nm_eV_conversion (nth j (row_of [] rows i) 0)) (row_of (0, 0, 0) [o] i))
              (fun i => N i j * N i j - RtoC Einf)%C p 0) as (z & Z & E).
  - intros i I. rewrite row_of_many by (rewrite LP; lia). cbn [row_of].
    assert (W : entry2 rows i j <> 0) by (apply (grid_entry rows p q); auto; lia).
    assert (X : sc_complex s (Some (entry2 rows i j)) = Ok (Some (N i j))) by (apply H; auto; lia).
    rewrite (class_scalar s [o] Einf _ K W) in X. fold f in X. unfold entry2 in X.
    unfold root_of_sum in X. cbn [map osum] in X.
    destruct (at_energy f (nm_eV_conversion (nth j (nth i rows []) 0)) o) as [t|]; cbn [olift2 omap] in X; [|discriminate].
    injection X as X. f_equal. rewrite <- X, csqrt_sq. ring.
  - unfold root_of_sum. rewrite Z. cbn [omap]. eexists. split; [reflexivity|]. rewrite csqrt_sq, E.
    cbn [Nat.add]. apply Cplus_comm.
Qed.

(** one row: the values are right, but the result has one dimension *)
Lemma one_row_2d s os Einf r : oscillator_class s os Einf -> r <> [] -> Forall (fun w => w <> 0) r ->
  complex_at s (W_arr2 [r]) = complex_at s (W_arr r).
Proof.
  intros K N F.
  assert (A : np_any (List.concat [r]) = true) by (cbn [List.concat]; rewrite app_nil_r; apply any_nonzero; assumption).
  rewrite (class_2d s os Einf [r] K A). unfold complex_at. rewrite any_nonzero by assumption.
  assert (IC : is_constant (sc_kind s) = false) by (destruct K as [->|[Eg ->]]; reflexivity). rewrite IC.
  unfold osc_arr2. cbn [List.length hd].
  assert (B : broadcast (List.length os) 1 = Some (List.length os)).
  { unfold broadcast. destruct (Nat.eqb_spec (List.length os) 1) as [->|]; [reflexivity|]. reflexivity. }
  rewrite B. cbn [row_of].
  assert (M : mapR (at_entry (sc_kind s)) r =
    Ok (map (fun w => root_of_sum (map (at_energy (term_of (sc_kind s)) (nm_eV_conversion w)) os) Einf) r)).
  { clear - K. induction r as [|w r IH]; [reflexivity|]. cbn [mapR map].
    assert (at_entry (sc_kind s) w = Ok (root_of_sum (map (at_energy (term_of (sc_kind s)) (nm_eV_conversion w)) os) Einf)) as ->.
    { unfold at_entry. destruct K as [->|[Eg ->]]; reflexivity. }
    cbn [rbind]. rewrite IH. reflexivity. }
  rewrite M. cbn [rmap]. do 2 f_equal.
  apply nth_ext with (d := None) (d' := None); rewrite !map_length, seq_length; [reflexivity|].
  intros j J. rewrite !(nth_indep _ None (root_of_sum (map (at_energy (term_of (sc_kind s)) (nm_eV_conversion 0)) os) Einf))
    by (rewrite map_length, ?seq_length; exact J).
  rewrite (map_nth (fun w => root_of_sum (map (at_energy (term_of (sc_kind s)) (nm_eV_conversion w)) os) Einf) r 0 j).
  set (g := fun j0 => root_of_sum _ Einf).
  rewrite (nth_indep _ _ (g 0%nat)) by (rewrite map_length, seq_length; exact J).
  rewrite (map_nth g (seq 0 (List.length r)) 0%nat j), seq_nth by exact J. unfold g. cbn [Nat.add].
  f_equal. clear. destruct os as [|o [|o2 os]]; [reflexivity|reflexivity|].
  set (l := o :: o2 :: os). apply nth_ext with (d := None) (d' := None); rewrite !map_length, ?seq_length; [reflexivity|].
  intros i I.
  set (h := at_energy (term_of (sc_kind s)) (nm_eV_conversion (nth j r 0))).
  rewrite (nth_indep _ None (h (0, 0, 0))) by (rewrite map_length, seq_length; exact I).
  rewrite (map_nth (fun i => h (row_of (0, 0, 0) l i)) _ 0%nat i) || idtac.
  rewrite (nth_indep (map h l) None (h (0, 0, 0))) by (rewrite map_length; exact I).
  rewrite (map_nth h l (0, 0, 0) i).
  set (g2 := fun i => h (row_of (0, 0, 0) l i)).
  rewrite (nth_indep (map g2 _) _ (g2 0%nat)) by (rewrite map_length, seq_length; exact I).
  rewrite (map_nth g2 (seq 0 (List.length l)) 0%nat i), seq_nth by exact I. unfold g2. cbn [Nat.add].
  rewrite row_of_many by exact I. reflexivity.
Qed.

(** the numbers of rows and of oscillators do not fit *)
Lemma mismatch_2d s os Einf rows p q : oscillator_class s os Einf -> grid rows p q -> (0 < p)%nat -> (0 < q)%nat ->
  List.length os <> p -> List.length os <> 1%nat -> p <> 1%nat -> complex_at s (W_arr2 rows) = Raise ValueError.
Proof.
  intros K G P Q H1 H2 H3. rewrite (class_2d s os Einf rows K (grid_any _ _ _ G P Q)). unfold osc_arr2, broadcast.
  assert (LP : List.length rows = p) by apply G. rewrite LP.
  destruct (Nat.eqb_spec (List.length os) p); [contradiction|]. destruct (Nat.eqb_spec (List.length os) 1); [contradiction|].
  destruct (Nat.eqb_spec p 1); [contradiction|]. reflexivity.
Qed.

(** a Lorentz oscillator at a column of two equal wavelengths *)
Definition lor : scatterer := Scatterer (K_Lorentz [(5, 1, 2)] 1) 658 EmptyString.
Lemma lor_class : oscillator_class lor [(5, 1, 2)] 1.
Proof. left. reflexivity. Qed.
Lemma lor_finite w : w <> 0 -> exists n, sc_complex lor (Some w) = Ok (Some n) /\ (n * n)%C <> RtoC 1.
Proof.
  intros W. rewrite (class_scalar lor [(5, 1, 2)] 1 w lor_class W). unfold root_of_sum. cbn [map osum].
  unfold nm_eV_conversion. destruct (Req_EM_T w 0) as [|_]; [contradiction|]. cbn [at_energy].
  set (e := 1239841984055 / 1000000000 / w).
  assert (E : e <> 0). { unfold e, Rdiv. apply Rmult_integral_contrapositive_currified; [lra|]. apply Rinv_neq_0_compat, W. }
  change (term_of (sc_kind lor)) with lorentz_term. unfold lorentz_term, cdivo.
  destruct (Ceq_dec (RtoC (2 ^ 2 - e ^ 2) - Ci * RtoC (1 * e))%C 0) as [Z|Z].
  - exfalso. apply (f_equal Im) in Z. cbn in Z. apply E. lra.
  - cbn [olift2 omap]. eexists. split; [reflexivity|]. rewrite csqrt_sq. intros Q.
    assert (X : (RtoC 5 / (RtoC (2 ^ 2 - e ^ 2) - Ci * RtoC (1 * e)) = 0)%C).
    { transitivity ((RtoC 5 / (RtoC (2 ^ 2 - e ^ 2) - Ci * RtoC (1 * e)) + RtoC 0 + RtoC 1) - RtoC 1)%C; [ring|].
      rewrite Q. ring. }
    assert (Y : (RtoC 5 = 0)%C).
    { transitivity (RtoC 5 / (RtoC (2 ^ 2 - e ^ 2) - Ci * RtoC (1 * e)) * (RtoC (2 ^ 2 - e ^ 2) - Ci * RtoC (1 * e)))%C; [field; exact Z|].
      rewrite X. ring. }
    apply (f_equal Re) in Y. cbn in Y. lra.
Qed.
Lemma column_wrong : exists s rows n v,
  grid rows 2 1 /\ sc_complex s (Some 500) = Ok (Some n) /\ rows = [[500]; [500]] /\
  complex_at s (W_arr2 rows) = Ok (V_arr [Some v]) /\ v <> n.
Proof.
  destruct (lor_finite 500) as (n & E & NE); [lra|].
  assert (G : grid [[500]; [500]] 2 1) by (repeat split; repeat constructor; lra).
  destruct (one_oscillator_2d lor (5, 1, 2) 1 [[500]; [500]] 2 1 (fun _ _ => n) lor_class G) as (vs & V & L & H); [lia|lia| |].
  { intros i j I J. replace (entry2 [[500]; [500]] i j) with 500; [exact E|].
    assert (j = 0%nat) as -> by lia. destruct i as [|[|i]]; [reflexivity|reflexivity|lia]. }
  destruct (H 0%nat) as (v & Hv & Sq); [lia|].
  destruct vs as [|x [|y vs]]; try (cbn in L; lia). cbn in Hv. injection Hv as ->.
  exists lor, [[500]; [500]], n, v. repeat (split; [assumption || reflexivity|]).
  intros ->. apply NE. cbn [csum_to] in Sq.
  assert (X : (n * n - RtoC 1 = 0)%C).
  { transitivity ((RtoC 1 + (RtoC 0 + (n * n - RtoC 1) + (n * n - RtoC 1))) - n * n)%C; [ring|]. rewrite <- Sq. ring. }
  transitivity ((n * n - RtoC 1) + RtoC 1)%C; [ring|]. rewrite X. ring.
Qed.
