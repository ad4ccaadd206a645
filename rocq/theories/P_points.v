(** * Which thicknesses of a layer fit two measured points: proofs *)

Require Import Reals.
From Coquelicot Require Import Rcomplements Complex.
Require Import List Bool Arith ZArith Lra Lia.
From Verif Require Import Base Cplx M_tmm Spec_optics Spec_ident P_psidelta P_psidelta2 P_ident P_ident2 P_ident3 Spec_thick P_thick P_thick2 P_thick3 P_film P_cont P_cont2 P_cont3 P_identex Spec_points.
Import ListNotations.
Open Scope R_scope.

Lemma order_pos p : clear p -> 0 < order_of p.
Proof.
  intros (W & T & S). unfold order_of, order_thickness.
  assert (Q : 0 < sqrt (Re (pt_layer p) * Re (pt_layer p) - pt_s p * pt_s p)).
  { apply sqrt_lt_R0. set (a := Re (pt_layer p)) in *. set (b := pt_s p) in *.
    assert (Rabs b * Rabs b = b * b) as <- by (rewrite <- Rabs_mult; apply Rabs_pos_eq; nra).
    pose proof (Rabs_pos b). nra. }
  apply Rmult_lt_0_compat; [lra|]. apply Rdiv_lt_0_compat; lra.
Qed.

(** the remainder of a thickness after whole orders *)
Definition orders (D d : R) : Z := Int_part (d / D).
Definition rest (D d : R) : R := d - IZR (orders D d) * D.
Lemma rest_range D d : 0 < D -> 0 <= rest D d < D.
Proof.
  intros P. unfold rest, orders. destruct (base_Int_part (d / D)) as [A B]. set (k := Int_part (d / D)) in *.
  assert (E : d = d / D * D) by (field; lra). split.
  - apply Rplus_le_reg_r with (IZR k * D). ring_simplify. rewrite E at 1. 
    apply Rmult_le_compat_r with (r := D) in A; lra.
  - assert (d / D < IZR k + 1) by lra. apply Rmult_lt_compat_r with (r := D) in H; [|exact P]. lra.
Qed.

Lemma predicted_orders off refl p d k : clear p ->
  predicted off refl p (d + IZR k * order_of p) = predicted off refl p d.
Proof.
  intros (W & T & S). unfold predicted, order_of.
  exact (order_ambiguity 0 (pt_fronting p) 0 (pt_pre p) (pt_layer p) d 0 (pt_post p) 0 (pt_backing p) 0 (pt_aoi p) (pt_w p) off refl k
    (Rgt_not_eq _ _ W) T S).
Qed.
Lemma fits_rest off refl p d : clear p -> fits off refl p d -> fits off refl p (rest (order_of p) d).
Proof.
  intros K F. unfold fits in *. rewrite <- F. unfold rest.
  replace (d - IZR (orders (order_of p) d) * order_of p) with (d + IZR (- orders (order_of p) d) * order_of p).
  - apply predicted_orders, K.
  - rewrite opp_IZR. ring.
Qed.

Lemma nodup_rests off refl p c l : clear p -> at_most c off refl p -> Forall (fits off refl p) l ->
  (List.length (nodup Req_EM_T (map (rest (order_of p)) l)) <= c)%nat.
Proof.
  intros K A F. apply A; [apply NoDup_nodup| |]; rewrite Forall_forall; intros x I; apply nodup_In, in_map_iff in I; destruct I as (d & <- & I).
  - apply rest_range, order_pos, K.
  - apply fits_rest; [exact K|]. rewrite Forall_forall in F. auto.
Qed.

Lemma NoDup_map_pairs {A B} (f : A -> B) l : NoDup l -> (forall a b, In a l -> In b l -> f a = f b -> a = b) -> NoDup (map f l).
Proof.
  induction l as [|a l IH]; intros N H; cbn [map]; [constructor|]. inversion N; subst. constructor.
  - intros I. apply in_map_iff in I. destruct I as (b & E & I). assert (b = a) as -> by (apply H; [right; exact I|left; reflexivity|exact E]). contradiction.
  - apply IH; [assumption|]. intros; apply H; [right|right|]; assumption.
Qed.

Lemma product off refl p1 p2 c1 c2 L l : clear p1 -> clear p2 -> at_most c1 off refl p1 -> at_most c2 off refl p2 ->
  coincide_beyond (order_of p1) (order_of p2) L -> NoDup l -> within L l ->
  Forall (fits off refl p1) l -> Forall (fits off refl p2) l -> (List.length l <= c1 * c2)%nat.
Proof.
  intros K1 K2 A1 A2 CB N W F1 F2.
  set (D1 := order_of p1) in *. set (D2 := order_of p2) in *.
  pose proof (nodup_rests off refl p1 c1 l K1 A1 F1) as B1. pose proof (nodup_rests off refl p2 c2 l K2 A2 F2) as B2.
  fold D1 in B1. fold D2 in B2. set (l1 := nodup Req_EM_T (map (rest D1) l)) in *. set (l2 := nodup Req_EM_T (map (rest D2) l)) in *.
  set (f := fun d => (rest D1 d, rest D2 d)).
  assert (ND : NoDup (map f l)).
  { apply NoDup_map_pairs; [exact N|]. intros a b Ia Ib E. unfold f in E. injection E as E1 E2. unfold rest in E1, E2.
    assert (X1 : a - b = IZR (orders D1 a - orders D1 b) * D1) by (rewrite minus_IZR; lra).
    assert (X2 : a - b = IZR (orders D2 a - orders D2 b) * D2) by (rewrite minus_IZR; lra).
    set (k := (orders D1 a - orders D1 b)%Z) in *. set (m := (orders D2 a - orders D2 b)%Z) in *.
    destruct (Z.eq_dec k 0) as [Z|Z].
    - rewrite Z in X1. lra.
    - exfalso. assert (Q : L <= Rabs (IZR k * D1)) by (apply (CB k m); [lra|exact Z]).
      specialize (W a b Ia Ib). rewrite X1 in W. lra. }
  assert (INC : incl (map f l) (list_prod l1 l2)).
  { intros x I. apply in_map_iff in I. destruct I as (d & <- & I). unfold f. apply in_prod; apply nodup_In, in_map, I. }
  pose proof (NoDup_incl_length ND INC) as X. rewrite map_length, prod_length in X.
  eapply Nat.le_trans; [exact X|]. apply Nat.mul_le_mono; assumption.
Qed.

(** a lone film *)
Lemma lone_at_most off refl p : clear p -> lone_film p -> at_most (if refl : bool then 4 else 2)%nat off refl p.
Proof.
  intros (W & T & S) (E1 & E2 & HA & HI & HB & N1 & N2) l N RG F.
  assert (PL : passive (pt_layer p)).
  { destruct T as [T1 T2]. split; [exact T1|rewrite T2; lra]. }
  apply (single_two 0 (pt_fronting p) 0 (pt_layer p) 0 0 (pt_backing p) 0 (pt_aoi p) (pt_w p) off refl l (pt_psi p) (pt_delta p)); auto.
  - split; [exact N|]. left. split; [exact T|]. split; [exact S|]. exists 0. rewrite Forall_forall in *. intros d I. specialize (RG d I).
    unfold order_of in RG. fold (pt_s p). lra.
  - rewrite Forall_forall in *. intros d I. specialize (F d I). unfold fits, predicted, stack in F. rewrite E1, E2 in F. exact F.
Qed.

Lemma lone_two off refl p1 p2 L l : clear p1 -> clear p2 -> lone_film p1 -> lone_film p2 ->
  coincide_beyond (order_of p1) (order_of p2) L -> NoDup l -> within L l ->
  Forall (fits off refl p1) l -> Forall (fits off refl p2) l -> (List.length l <= if refl then 16 else 4)%nat.
Proof.
  intros K1 K2 L1 L2 CB N W F1 F2.
  pose proof (product off refl p1 p2 _ _ L l K1 K2 (lone_at_most off refl p1 K1 L1) (lone_at_most off refl p2 K2 L2) CB N W F1 F2) as X.
  destruct refl; exact X.
Qed.

Lemma bounded_list (l : list R) : exists L, within L l.
Proof.
  assert (B : exists M, forall d, In d l -> Rabs d <= M).
  { induction l as [|a l [M H]]; [exists 0; intros d []|]. exists (Rmax (Rabs a) M). intros d [<-|I]; [apply Rmax_l|].
    eapply Rle_trans; [apply H, I|apply Rmax_r]. }
  destruct B as [M H]. exists (2 * M + 1). intros d d' I I'. specialize (H d I) as H1. specialize (H d' I') as H2.
  pose proof (Rabs_triang d (- d')) as T. rewrite Rabs_Ropp in T. unfold Rminus. lra.
Qed.
Lemma incommensurable_beyond D1 D2 L : incommensurable D1 D2 -> coincide_beyond D1 D2 L.
Proof. intros H k m E Z. elim Z. exact (H k m E). Qed.
Lemma lone_all off refl p1 p2 l : clear p1 -> clear p2 -> lone_film p1 -> lone_film p2 ->
  incommensurable (order_of p1) (order_of p2) -> NoDup l ->
  Forall (fits off refl p1) l -> Forall (fits off refl p2) l -> (List.length l <= if refl then 16 else 4)%nat.
Proof.
  intros K1 K2 L1 L2 I N F1 F2. destruct (bounded_list l) as [L W].
  apply (lone_two off refl p1 p2 L l); auto. apply incommensurable_beyond, I.
Qed.

Lemma ambiguous off refl p1 p2 d k m : clear p1 -> clear p2 -> IZR k * order_of p1 = IZR m * order_of p2 ->
  predicted off refl p1 (d + IZR k * order_of p1) = predicted off refl p1 d /\
  predicted off refl p2 (d + IZR k * order_of p1) = predicted off refl p2 d.
Proof.
  intros K1 K2 E. split; [apply predicted_orders, K1|]. rewrite E. apply predicted_orders, K2.
Qed.

(** a film of index 1.6 in air at the wavelength 633 nm / k *)
Definition ex_point (k psi delta : R) : point :=
  Point (RtoC 1) [] (RtoC (8 / 5)) [] graz_back graz (633 / k) psi delta.
Lemma ex_point_order k psi delta : k <> 0 -> order_of (ex_point k psi delta) = 6330 / (2 * (32 / 25)) / k.
Proof.
  intros K. destruct ex_order as (E & _). unfold order_of, order_thickness, pt_s in *. cbn [pt_layer pt_fronting pt_aoi pt_w ex_point].
  transitivity (10 * (633 / (2 * sqrt (Re (RtoC (8 / 5)) * Re (RtoC (8 / 5)) - Re (RtoC 1) * sin (rad graz) * (Re (RtoC 1) * sin (rad graz))))) / k); [|rewrite E; reflexivity].
  field. split; [|exact K]. intros Z. rewrite Z in E. unfold Rdiv in E at 1. rewrite Rmult_0_r, Rinv_0 in E. lra.
Qed.
Lemma ex_point_clear k psi delta : 0 < k -> clear (ex_point k psi delta).
Proof.
  intros K. destruct ex_order as (_ & T & S & _). split; [|split; [exact T|exact S]]. cbn. apply Rdiv_lt_0_compat; lra.
Qed.
Lemma graz_range : 0 < graz < 90.
Proof.
  assert (B : (0 < rad graz < PI / 2)%R).
  { rewrite rad_graz. pose proof (asin_bound (24 / 25)) as [B1 B2]. pose proof sin_graz as X. rewrite rad_graz in X. pose proof PI_RGT_0. split.
    - apply Rnot_le_lt. intros L. assert (sin (asin (24 / 25)) <= 0)%R; [|lra]. rewrite <- sin_0. apply sin_incr_1; lra.
    - destruct B2 as [L|E]; [exact L|]. rewrite E, sin_PI2 in X. lra. }
  pose proof PI_RGT_0. unfold rad in B. split; [nra|].
  apply (Rmult_lt_reg_r (PI / 180)); [lra|]. lra.
Qed.
Lemma ex_point_lone k psi delta : lone_film (ex_point k psi delta).
Proof.
  repeat split; cbn; try lra; try (apply graz_range); try (intros E; injection E; intros; unfold graz_back in *; lra).
Qed.
Lemma ex_point_fits : exists psi delta, fits 0 false (ex_point 3 psi delta) (quarter_plus 0) /\ fits 0 false (ex_point 5 psi delta) (quarter_plus 0).
Proof.
  destruct ex_order as (ED & T & S & psi & delta & P). exists psi, delta.
  assert (H : forall k, k <> 0 -> fits 0 false (ex_point k psi delta) (quarter_plus 0) <->
     fst (Delta_Psi_TMM [graz] (table 0 (RtoC 1) 0 ([] ++ (RtoC (8/5), k * quarter_plus 0, 0) :: []) 0 graz_back 0) 633 0 false) = Ok [(Some psi, Some delta)]).
  { intros k K. pose proof (table_scale 0 (RtoC 1) 0 [(RtoC (8 / 5), quarter_plus 0, 0)] 0 graz_back 0 0 0 0 0 [graz] (633 / k) 0 false k K) as X.
    replace (k * (633 / k)) with 633 in X by (field; exact K). cbn [P_psidelta2.scale_rows map fst snd] in X. cbn [app]. rewrite X. reflexivity. }
  assert (Q : quarter_plus 0 = 6330 / (2 * (32 / 25)) / 2) by (unfold quarter_plus; field; apply PI_neq0).
  split; apply H; try lra; rewrite <- P.
  - replace (3 * quarter_plus 0) with (quarter_plus 0 + IZR 1 * (10 * order_thickness (Re (RtoC (8/5))) (Re (RtoC 1) * sin (rad graz)) 633))
      by (rewrite ED, Q; lra).
    apply order_ambiguity; [lra|exact T|exact S].
  - replace (5 * quarter_plus 0) with (quarter_plus 0 + IZR 2 * (10 * order_thickness (Re (RtoC (8/5))) (Re (RtoC 1) * sin (rad graz)) 633))
      by (rewrite ED, Q; lra).
    apply order_ambiguity; [lra|exact T|exact S].
Qed.
Lemma ex_point_beyond a b c d : coincide_beyond (order_of (ex_point 3 a b)) (order_of (ex_point 5 c d)) (6330 / (2 * (32 / 25))).
Proof.
  intros k m E Z. rewrite !ex_point_order in * by lra. set (D := 6330 / (2 * (32 / 25))) in *. assert (P : 0 < D) by (unfold D; lra).
  assert (K : (5 * k = 3 * m)%Z).
  { apply eq_IZR. rewrite !mult_IZR. apply (Rmult_eq_reg_r (D / 15)); [|lra]. lra. }
  assert (T : exists q, (k = 3 * q)%Z /\ q <> 0%Z) by (exists (m - k - (k - (m - k)))%Z; lia).
  destruct T as (q & -> & Q). rewrite mult_IZR. replace (3 * IZR q * (D / 3)) with (IZR q * D) by field.
  rewrite Rabs_mult, (Rabs_pos_eq D) by lra. rewrite <- abs_IZR.
  assert (1 <= IZR (Z.abs q)) by (apply IZR_le; lia). nra.
Qed.

Lemma sq_two_nat : forall n m : nat, (n * n = 2 * (m * m))%nat -> m = 0%nat.
Proof.
  induction n as [n IH] using lt_wf_ind. intros m E. destruct m as [|m]; [reflexivity|exfalso].
  assert (EV : Nat.even n = true).
  { destruct (Nat.even n) eqn:Q; [reflexivity|]. exfalso. assert (O : Nat.even (n * n) = false) by (rewrite Nat.even_mul, Q; reflexivity).
    rewrite E, Nat.even_mul in O. discriminate. }
  apply Nat.even_spec in EV. destruct EV as [h ->].
  assert (X : (S m * S m = 2 * (h * h))%nat) by nia.
  assert (h = 0%nat) by (apply (IH (S m)); [nia|exact X]). subst. nia.
Qed.
Lemma sq_two k m : IZR k * sqrt 2 = IZR m -> k = 0%Z.
Proof.
  intros E. assert (Q : IZR (m * m) = IZR (2 * (k * k))).
  { rewrite !mult_IZR, <- E. transitivity (IZR k * IZR k * (sqrt 2 * sqrt 2)); [ring|]. rewrite sqrt_sqrt by lra. ring. }
  apply eq_IZR in Q.
  assert (N : (Z.abs_nat m * Z.abs_nat m = 2 * (Z.abs_nat k * Z.abs_nat k))%nat) by (apply Nat2Z.inj; rewrite !Nat2Z.inj_mul, !Zabs2Nat.id_abs; lia).
  apply sq_two_nat in N. lia.
Qed.
Lemma ex_point_incommensurable a b c d : incommensurable (order_of (ex_point 3 a b)) (order_of (ex_point (sqrt 2) c d)).
Proof.
  intros k m E. assert (P : 0 < sqrt 2) by (apply sqrt_lt_R0; lra). rewrite !ex_point_order in E by lra.
  apply (sq_two k (3 * m)). rewrite mult_IZR.
  set (D := 6330 / (2 * (32 / 25))) in *. assert (0 < D) by (unfold D; lra).
  apply (Rmult_eq_reg_r (D / sqrt 2 / 3)); [|apply Rgt_not_eq; apply Rdiv_lt_0_compat; [apply Rdiv_lt_0_compat|]; lra].
  transitivity (IZR k * (D / 3)); [field; lra|]. rewrite E. field. lra.
Qed.
