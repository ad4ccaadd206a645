(** * Tauc-Lorentz and Gauss oscillators are differentiable in their parameters *)

Require Import Reals.
From Coquelicot Require Import Coquelicot.
Require Import List Bool Arith String Lra Lia Psatz.
From Verif Require Import Base Cplx M_ema M_tmm M_disp M_struct M_model M_data M_objective Spec_struct Spec_optics Spec_whole Spec_objective Spec_diff Spec_jac Spec_smooth
  P_tmm P_struct P_diff P_smooth.
Import ListNotations.
Open Scope list_scope.
Open Scope R_scope.

Ltac bust := repeat match goal with
  | H : obind ?f _ <> None |- _ => let E := fresh "E" in destruct f eqn:E; [cbn [obind] in H|exfalso; apply H; reflexivity] end.

Lemma tl_domain Eg e A C0 Ei : tl_e1 Eg e (A, C0, Ei) <> None -> C0 ^ 2 <= 2 * Ei ^ 2 /\ e - Eg <> 0.
Proof.
  intros N. unfold tl_e1 in N. cbv zeta in N. bust. split.
  - clear - E0. unfold osqrt in E0. destruct (Rle_dec 0 (Ei ^ 2 - C0 ^ 2 / 2)); [lra|discriminate].
  - intros Z. match goal with H : odiv (Rabs (e - Eg)) (e + Eg) = Some _ |- _ => revert H end.
    match goal with H : oln ?q = Some _ , H' : oln ?q' = Some _ |- _ => idtac end.
    unfold odiv at 1. destruct (Req_EM_T (e + Eg) 0); [discriminate|]. rewrite Z, Rabs_R0. unfold Rdiv at 1. rewrite Rmult_0_l. intros HH.
    match type of HH with Some 0 = Some ?r => assert (r = 0) by congruence; subst r end.
    match goal with H : oln 0 = Some _ |- _ => unfold oln in H; destruct (Rlt_dec 0 0); [lra|discriminate] end.
Qed.

Ltac ostep := match goal with |- osm (fun t => obind (@?f t) (@?h t)) ?x => refine (osm_bind f h x _ _ _); cbv beta end.

Lemma tl_e1_smooth (Eg A C0 Ei : R -> R) e x : ex_derive Eg x -> ex_derive A x -> ex_derive C0 x -> ex_derive Ei x -> C0 x <> 0 -> C0 x ^ 2 <> 2 * Ei x ^ 2 ->
  tl_e1 (Eg x) e (A x, C0 x, Ei x) <> None -> osm (fun t => tl_e1 (Eg t) e (A t, C0 t, Ei t)) x.
Proof.
  intros HG HA HC HE N0 N2 N. destruct (tl_domain _ _ _ _ _ N) as [D1 D2]. assert (D3 : C0 x ^ 2 < 2 * Ei x ^ 2) by lra.
  unfold tl_e1, tl_zeta4, tl_a_ln, tl_a_atan in *. cbv zeta in *.
  assert (AB : ex_derive (fun t => Rabs (e - Eg t)) x) by (apply (diff_abs (fun t => e - Eg t)); [dd|exact D2]).
  ostep; [intros _; apply osm_osqrt; [dd|nra]| |exact N]. clear N. intros al HAL _ N.
  ostep; [intros _; apply osm_osqrt; [dd|nra]| |exact N]. clear N. intros ga HGA _ N.
  ostep; [intros K; apply osm_odiv; [dd|intros _; dd|exact K]| |exact N]. clear N. intros u1 HU1 _ N.
  ostep; [intros K; apply osm_odiv; [dd|intros _; dd|exact K]| |exact N]. clear N. intros u2 HU2 _ N.
  ostep; [intros K; apply osm_odiv; [dd|intros _; dd|exact K]| |exact N]. clear N. intros u3 HU3 _ N.
  ostep; [intros K; apply osm_odiv; [dd|intros _; dd|exact K]| |exact N]. clear N. intros q1 HQ1 _ N.
  ostep; [intros K; apply osm_oln; [dd|exact K]| |exact N]. clear N. intros l1 HL1 _ N.
  ostep; [intros K; apply osm_odiv; [dd|intros _; dd|exact K]| |exact N]. clear N. intros v1 HV1 _ N.
  ostep; [intros K; apply osm_odiv; [dd|intros _; dd|exact K]| |exact N]. clear N. intros v2 HV2 _ N.
  ostep; [intros K; apply osm_oatan; [dd|dd|exact N0]| |exact N]. clear N. intros t1 HT1 _ N.
  ostep; [intros K; apply osm_oatan; [dd|dd|exact N0]| |exact N]. clear N. intros t2 HT2 _ N.
  ostep; [intros K; apply osm_odiv; [dd|intros _; dd|exact K]| |exact N]. clear N. intros w1 HW1 _ N.
  ostep; [intros K; apply osm_odiv; [dd|intros _; dd|exact K]| |exact N]. clear N. intros w2 HW2 _ N.
  ostep; [intros K; apply osm_odiv; [dd|intros _; dd|exact K]| |exact N]. clear N. intros r0 HR _ N.
  ostep; [intros K; apply osm_oatan; [dd|dd|exact N0]| |exact N]. clear N. intros t3 HT3 _ N.
  ostep; [intros K; apply osm_odiv; [dd|intros _; dd|exact K]| |exact N]. clear N. intros x1 HX1 _ N.
  ostep; [intros K; apply osm_odiv; [dd|intros _; dd|exact K]| |exact N]. clear N. intros x2 HX2 _ N.
  ostep; [intros K; apply osm_odiv; [exact AB|intros _; dd|exact K]| |exact N]. clear N. intros q2 HQ2 _ N.
  ostep; [intros K; apply osm_oln; [dd|exact K]| |exact N]. clear N. intros l2 HL2 _ N.
  ostep; [intros K; apply osm_odiv; [dd|intros _; dd|exact K]| |exact N]. clear N. intros y1 HY1 _ N.
  ostep; [intros K; apply osm_odiv; [apply (diff_mult (fun t => Rabs (e - Eg t))); [exact AB|dd]| |exact K]| |exact N].
  { intros Z. apply (diff_comp sqrt); [apply diff_sqrt|dd]. apply Rnot_le_lt. intros L. apply Z. apply sqrt_neg_0. exact L. }
  clear N. intros q3 HQ3 _ N.
  ostep; [intros K; apply osm_oln; [dd|exact K]| |exact N]. clear N. intros l3 HL3 _ _.
  apply osm_some. dd.
Qed.

Lemma tl_e2_smooth (Eg A C0 Ei : R -> R) e x : ex_derive Eg x -> ex_derive A x -> ex_derive C0 x -> ex_derive Ei x -> e - Eg x <> 0 ->
  tl_e2 (Eg x) e (A x, C0 x, Ei x) <> None -> osm (fun t => tl_e2 (Eg t) e (A t, C0 t, Ei t)) x.
Proof.
  intros HG HA HC HE D N. unfold tl_e2 in *.
  set (den := fun t => e * ((e ^ 2 - Ei t ^ 2) ^ 2 + (C0 t * e) ^ 2)). set (num := fun t => A t * Ei t * C0 t * (e - Eg t) ^ 2).
  assert (S : osm (fun t => odiv (num t) (den t)) x).
  { apply osm_odiv; [unfold num; dd|intros _; unfold den; dd|]. intros Z. unfold num, den in Z. cbv beta in Z. rewrite Z in N. apply N. reflexivity. }
  destruct S as (g & L & G). assert (DK : ex_derive (fun t => e - Eg t) x) by dd.
  set (s := if Rlt_dec 0 (e - Eg x) then 1 else 0). exists (fun t => g t * s). split; [|dd].
  assert (LS : locally x (fun t => (if Rlt_dec 0 (e - Eg t) then 1 else 0) = s)).
  { unfold s. destruct (Rlt_dec 0 (e - Eg x)) as [P|P].
    - apply filter_imp with (2 := pos_near _ x (diff_cont _ _ DK) P). intros t T. destruct (Rlt_dec 0 (e - Eg t)); [reflexivity|lra].
    - assert (DM : ex_derive (fun t => Eg t - e) x) by dd. apply filter_imp with (2 := pos_near (fun t => Eg t - e) x (diff_cont _ _ DM) ltac:(lra)).
      intros t T. destruct (Rlt_dec 0 (e - Eg t)); [lra|reflexivity]. }
  apply filter_imp with (2 := filter_and _ _ L LS). intros t [T1 T2]. unfold num, den in T1. rewrite T1, T2. reflexivity.
Qed.

Lemma tl_term_smooth Eg e (o : trip) x : ex_derive Eg x -> ex_derive (fst (fst o)) x -> ex_derive (snd (fst o)) x -> ex_derive (snd o) x ->
  snd (fst o) x <> 0 -> snd (fst o) x ^ 2 <> 2 * snd o x ^ 2 -> tl_term (Eg x) e (at_t x o) <> None -> csm (fun t => tl_term (Eg t) e (at_t t o)) x.
Proof.
  destruct o as [[A C0] Ei]. unfold at_t. cbn [fst snd]. intros HG HA HC HE N0 N2 N. unfold tl_term in *.
  destruct (tl_e1 (Eg x) e (A x, C0 x, Ei x)) as [re|] eqn:E1; [|exfalso; apply N; reflexivity].
  destruct (tl_e2 (Eg x) e (A x, C0 x, Ei x)) as [im|] eqn:E2; [|exfalso; apply N; reflexivity].
  assert (T1 : tl_e1 (Eg x) e (A x, C0 x, Ei x) <> None) by (rewrite E1; discriminate).
  assert (T2 : tl_e2 (Eg x) e (A x, C0 x, Ei x) <> None) by (rewrite E2; discriminate).
  destruct (tl_e1_smooth Eg A C0 Ei e x HG HA HC HE N0 N2 T1) as (f & Lf & Df).
  destruct (tl_e2_smooth Eg A C0 Ei e x HG HA HC HE (proj2 (tl_domain _ _ _ _ _ T1)) T2) as (g & Lg & Dg).
  exists (fun t => (f t, g t)). split; [|split; [exact Df|exact Dg]].
  apply filter_imp with (2 := filter_and _ _ Lf Lg). intros t [-> ->]. reflexivity.
Qed.

Lemma tl_smooth (os : list trip) Eg Ei e x : List.Forall (fun o : trip => ex_derive (fst (fst o)) x /\ ex_derive (snd (fst o)) x /\ ex_derive (snd o) x) os ->
  List.Forall (fun o : trip => snd (fst o) x <> 0 /\ snd (fst o) x ^ 2 <> 2 * snd o x ^ 2) os -> ex_derive Eg x -> ex_derive Ei x ->
  tl_epsilon (map (at_t x) os) (Eg x) (Ei x) e <> None -> csm (fun t => tl_epsilon (map (at_t t) os) (Eg t) (Ei t) e) x.
Proof.
  intros F F2 HG H N. unfold tl_epsilon in *. apply plus_inf; [|exact H].
  apply csm_ext with (fun t => osum (map (fun o => tl_term (Eg t) e (at_t t o)) os)); [intros t; rewrite map_map; reflexivity|].
  apply (osum_smooth (fun t o => tl_term (Eg t) e (at_t t o))).
  - rewrite List.Forall_forall in *. intros o Ho. destruct (F o Ho) as (A & B & E). destruct (F2 o Ho). apply tl_term_smooth; assumption.
  - rewrite map_map in N. intros Z. rewrite Z in N. apply N. reflexivity.
Qed.

(** ** Gauss *)
Definition lsm (f : R -> option (list R)) (x : R) : Prop :=
  exists fs : list (R -> R), locally x (fun t => f t = Some (map (fun f : R -> R => f t) fs)) /\ List.Forall (fun f : R -> R => ex_derive f x) fs.

Lemma bell_smooth (B E : R -> R) y x : ex_derive B x -> ex_derive E x -> B x <> 0 -> osm (fun t => gauss_bell (B t) (E t) y) x.
Proof.
  intros HB HE N. assert (L2 : 0 < sqrt (ln 2)) by (apply sqrt_lt_R0; pose proof ln_lt_2; lra).
  set (s := fun t => B t / 2 / sqrt (ln 2)). assert (DS : ex_derive s x) by (unfold s; dd).
  assert (NS : forall t, B t <> 0 -> s t <> 0).
  { intros t K Z. apply K. unfold s in Z. replace (B t) with (B t / 2 / sqrt (ln 2) * (2 * sqrt (ln 2))) by (field; lra). rewrite Z. ring. }
  exists (fun t => exp (- ((y - E t) / s t) ^ 2)). split.
  - apply filter_imp with (2 := ne_near B x 0 (diff_cont _ _ HB) N). intros t T. unfold gauss_bell. cbv zeta. fold (s t). destruct (Req_EM_T (s t) 0) as [Z|]; [exfalso; apply (NS t T Z)|reflexivity].
  - apply (diff_comp exp); [apply diff_exp|]. apply diff_opp. apply (diff_pow (fun t => (y - E t) / s t)). apply ex_derive_div; [dd|exact DS|apply NS; exact N].
Qed.
Lemma gauss_e2_smooth (o : trip) y x : ex_derive (fst (fst o)) x -> ex_derive (snd (fst o)) x -> ex_derive (snd o) x -> snd (fst o) x <> 0 ->
  osm (fun t => gauss_e2 (at_t t o) y) x.
Proof.
  destruct o as [[A B] E]. unfold at_t. cbn [fst snd]. intros HA HB HE N. unfold gauss_e2.
  destruct (bell_smooth B E y x HB HE N) as (f & Lf & Df). destruct (bell_smooth B (fun t => - E t) y x HB ltac:(dd) N) as (g & Lg & Dg).
  exists (fun t => A t * f t - A t * g t). split; [|dd]. apply filter_imp with (2 := filter_and _ _ Lf Lg). intros t [-> ->]. reflexivity.
Qed.
Lemma mapM_smooth {A} (f : R -> A -> option R) l (x : R) : (forall a, osm (fun t => f t a) x) -> exists fs : list (R -> R), List.length fs = List.length l /\
  locally x (fun t => mapM (f t) l = Some (map (fun f : R -> R => f t) fs)) /\ List.Forall (fun f : R -> R => ex_derive f x) fs.
Proof.
  intros H. induction l as [|a l (fs & LL & L & D)]; [exists []; split; [reflexivity|split; [apply locally_all; reflexivity|constructor]]|].
  destruct (H a) as (g & Lg & Dg). exists (g :: fs). split; [cbn [List.length]; f_equal; exact LL|]. split; [|constructor; assumption].
  apply filter_imp with (2 := filter_and _ _ Lg L). intros t [E1 E2]. cbn [mapM]. rewrite E1, E2. reflexivity.
Qed.
Definition rows_t (t : R) (rows : list (list (R -> R))) : list (list R) := map (map (fun f : R -> R => f t)) rows.
Lemma mapM2_smooth n (os : list trip) (grid : list R) (x : R) : List.length grid = n ->
  List.Forall (fun o : trip => ex_derive (fst (fst o)) x /\ ex_derive (snd (fst o)) x /\ ex_derive (snd o) x) os -> List.Forall (fun o : trip => snd (fst o) x <> 0) os ->
  exists rows, locally x (fun t => mapM (fun o => mapM (gauss_e2 o) grid) (map (at_t t) os) = Some (rows_t t rows)) /\
    List.Forall (fun fs => List.length fs = n /\ List.Forall (fun f : R -> R => ex_derive f x) fs) rows.
Proof.
  intros LG F N. induction os as [|o os IH]; [exists []; split; [apply locally_all; reflexivity|constructor]|].
  inversion F as [|? ? (F1 & F2 & F3) F']; subst. inversion N as [|? ? N1 N']; subst. destruct (IH F' N') as (rows & L & D).
  destruct (mapM_smooth (fun t y => gauss_e2 (at_t t o) y) grid x) as (fs & LL & Lf & Df); [intros y; apply gauss_e2_smooth; assumption|].
  exists (fs :: rows). split; [|constructor; [split; assumption|exact D]].
  apply filter_imp with (2 := filter_and _ _ Lf L). intros t [E1 E2]. cbn [map mapM]. change (mapM (gauss_e2 (at_t t o)) grid) with (mapM (fun y => gauss_e2 (at_t t o) y) grid). rewrite E1, E2. reflexivity.
Qed.

Lemma vsum_smooth n (rows : list (list (R -> R))) (x : R) : List.Forall (fun fs => List.length fs = n /\ List.Forall (fun f : R -> R => ex_derive f x) fs) rows ->
  exists fs : list (R -> R), List.length fs = n /\ (forall t, vsum n (rows_t t rows) = map (fun f : R -> R => f t) fs) /\ List.Forall (fun f : R -> R => ex_derive f x) fs.
Proof.
  induction 1 as [|r rows [LR DR] F (fs & LL & E & D)].
  - exists (repeat (fun _ => 0) n). split; [apply repeat_length|]. split.
    + intros t. unfold vsum. cbn [rows_t map fold_right]. clear. induction n as [|n IH]; cbn [repeat map]; [reflexivity|f_equal; exact IH].
    + apply List.Forall_forall. intros f Hf. apply repeat_spec in Hf. subst f. apply ex_derive_const.
  - exists (map2 (fun f g t => f t + g t) r fs). split; [|split].
    + etransitivity; [apply map2_length|]. transitivity (Nat.min n n); [f_equal; assumption|apply Nat.min_id].
    + intros t. unfold vsum in *. cbn [rows_t map fold_right]. unfold rows_t in E. rewrite E. clear. revert fs. induction r as [|f r IH]; intros [|g fs]; cbn [map map2]; try reflexivity. f_equal. apply IH.
    + clear E LR LL F. revert fs D. induction DR as [|f r Df DR IH]; intros fs D; [constructor|]. destruct D as [|g fs Dg D]; [constructor|]. cbn [map2]. constructor; [dd|apply IH; exact D].
Qed.

Lemma filter_smooth h (fs : list (R -> R)) (x : R) : linear_filter h -> List.length fs = List.length e_pad -> List.Forall (fun f : R -> R => ex_derive f x) fs ->
  exists gs : list (R -> R), List.length gs = List.length e_pad /\ (forall t, h (map (fun f : R -> R => f t) fs) = map (fun f : R -> R => f t) gs) /\ List.Forall (fun f : R -> R => ex_derive f x) gs.
Proof.
  intros [K HK] LL D. set (n := List.length e_pad) in *. clearbody n.
  exists (map (fun i t => fold_right Rplus 0 (map2 (fun j y => K i j * y) (seq 0 n) (map (fun f : R -> R => f t) fs))) (seq 0 n)). split; [rewrite map_length, seq_length; reflexivity|]. split.
  - intros t. rewrite HK by (rewrite map_length; exact LL). rewrite map_length, LL, map_map. reflexivity.
  - apply List.Forall_forall. intros g Hg. apply in_map_iff in Hg as (i & <- & _). clear - D. generalize (seq 0 n) as js. induction D as [|f fs Df D IH]; intros js.
    + destruct js; exact (diff_cst 0 x).
    + destruct js as [|j js]; [exact (diff_cst 0 x)|]. cbn [map map2 fold_right]. apply diff_plus; [dd|]. apply (IH js).
Qed.
Lemma filters_smooth h (rows : list (list (R -> R))) (x : R) : linear_filter h -> List.Forall (fun fs => List.length fs = List.length e_pad /\ List.Forall (fun f : R -> R => ex_derive f x) fs) rows ->
  exists rows', (forall t, map h (rows_t t rows) = rows_t t rows') /\ List.Forall (fun fs => List.length fs = List.length e_pad /\ List.Forall (fun f : R -> R => ex_derive f x) fs) rows'.
Proof.
  intros HL. induction 1 as [|r rows [LR DR] F (rows' & E & D)]; [exists []; split; [reflexivity|constructor]|].
  destruct (filter_smooth h r x HL LR DR) as (gs & LG & EG & DG). exists (gs :: rows'). split; [|constructor; [split; assumption|exact D]].
  intros t. unfold rows_t in *. cbn [map]. rewrite EG, E. reflexivity.
Qed.

Lemma interp_from_smooth e (rest : list (R * (R -> R))) (x : R) : forall x0 (y0 : R -> R), ex_derive y0 x -> List.Forall (fun xy : R * (R -> R) => ex_derive (snd xy) x) rest ->
  ex_derive (fun t => interp_from x0 (y0 t) (map (fun xy => (fst xy, snd xy t)) rest) e) x.
Proof.
  induction rest as [|[x1 y1] rest IH]; intros x0 y0 H0 F; [exact H0|]. inversion F as [|? ? F1 F']; subst. cbn [snd] in F1. cbn [map interp_from fst snd].
  destruct (Rle_dec x1 e); [apply IH; assumption|]. destruct (Req_EM_T x0 e); [exact H0|]. dd.
Qed.
Lemma last_map_fun {A B} (f : A -> B) l d d' : l <> [] -> last (map f l) d' = f (last l d).
Proof. induction l as [|a [|b l] IH]; intros H; [congruence|reflexivity|]. cbn [map last] in *. apply IH. discriminate. Qed.
Lemma combine_map_r {A B D} (f : B -> D) (l : list A) m : combine l (map f m) = map (fun xy => (fst xy, f (snd xy))) (combine l m).
Proof. revert m. induction l as [|a l IH]; intros [|b m]; cbn [map combine]; try reflexivity. f_equal. apply IH. Qed.
Lemma interp_smooth e xp (fs : list (R -> R)) (x : R) : List.length fs = List.length xp -> xp <> [] -> List.Forall (fun f : R -> R => ex_derive f x) fs ->
  exists g, (forall t, np_interp e xp (map (fun f : R -> R => f t) fs) = Ok (g t)) /\ ex_derive g x.
Proof.
  intros LL NE D. unfold np_interp. destruct xp as [|x0 xp]; [congruence|]. destruct fs as [|f0 fs]; [discriminate|].
  inversion D as [|? ? D0 D']; subst.
  destruct (Rlt_dec e x0) as [P|P].
  - exists f0. split; [|exact D0]. intros t. cbn [map combine]. cbn [List.length] in *. rewrite map_length. assert (List.length fs = List.length xp) by congruence. rewrite H, Nat.eqb_refl. destruct (Rlt_dec e x0); [reflexivity|contradiction].
  - destruct (Rlt_dec (last (x0 :: xp) 0) e) as [Q|Q].
    + exists (last (f0 :: fs) f0). split.
      * intros t. cbn [combine map]. cbn [List.length] in *. rewrite map_length. assert (H : List.length fs = List.length xp) by congruence. rewrite H, Nat.eqb_refl.
        destruct (Rlt_dec e x0); [contradiction|]. destruct (Rlt_dec (last (x0 :: xp) 0) e); [|contradiction]. f_equal.
        change (f0 t :: map (fun f : R -> R => f t) fs) with (map (fun f : R -> R => f t) (f0 :: fs)). rewrite (last_map_fun (fun f : R -> R => f t) (f0 :: fs) f0) by discriminate. reflexivity.
      * apply (proj1 (List.Forall_forall _ _) D). clear. destruct (@exists_last _ (f0 :: fs)) as (l & a & E); [discriminate|]. rewrite E, last_last. rewrite in_app_iff. right. left. reflexivity.
    + exists (fun t => interp_from x0 (f0 t) (map (fun xy => (fst xy, snd xy t)) (combine xp fs)) e). split.
      * intros t. cbn [combine map]. cbn [List.length] in *. rewrite map_length. assert (H : List.length fs = List.length xp) by congruence. rewrite H, Nat.eqb_refl.
        destruct (Rlt_dec e x0); [contradiction|]. destruct (Rlt_dec (last (x0 :: xp) 0) e); [contradiction|]. rewrite combine_map_r. reflexivity.
      * apply interp_from_smooth; [exact D0|]. apply List.Forall_forall. intros [a f] Hf. apply in_combine_r in Hf. cbn [snd]. apply (proj1 (List.Forall_forall _ _) D'). exact Hf.
Qed.

Lemma gauss_smooth h (os : list trip) Ei e x : os <> [] -> linear_filter h ->
  List.Forall (fun o : trip => ex_derive (fst (fst o)) x /\ ex_derive (snd (fst o)) x /\ ex_derive (snd o) x) os -> List.Forall (fun o : trip => snd (fst o) x <> 0) os -> ex_derive Ei x ->
  exists g, locally x (fun t => gauss_epsilon h (map (at_t t) os) (Ei t) e = Ok (Some (g t))) /\ cdiff g x.
Proof.
  intros NE HL F N HI. assert (L0 : List.length e_pad = 2048%nat) by (unfold e_pad; rewrite map_length; apply seq_length).
  assert (NG : e_pad <> []) by (intros Z; rewrite Z in L0; discriminate).
  destruct (mapM2_smooth (List.length e_pad) os e_pad x eq_refl F N) as (rows & L & D).
  destruct (filters_smooth h rows x HL D) as (rows' & E' & D').
  destruct (vsum_smooth _ rows x D) as (e2 & L2 & E2 & D2). destruct (vsum_smooth _ rows' x D') as (e1 & L1 & E1 & D1).
  assert (D1' : List.Forall (fun f : R -> R => ex_derive f x) (map (fun (f : R -> R) t => f t + Ei t) e1)).
  { apply List.Forall_forall. intros g Hg. apply in_map_iff in Hg as (f & <- & Hf). pose proof (proj1 (List.Forall_forall _ _) D1 f Hf). cbv beta in *. dd. }
  destruct (interp_smooth e e_pad _ x ltac:(rewrite map_length; exact L1) NG D1') as (re & ER & DR).
  destruct (interp_smooth e e_pad _ x L2 NG D2) as (im & EI & DI).
  exists (fun t => (re t, im t)). split; [|split; [exact DR|exact DI]].
  apply filter_imp with (2 := L). intros t T. unfold gauss_epsilon.
  destruct (map (at_t t) os) as [|o1 os1] eqn:EO; [destruct os; [congruence|discriminate]|]. rewrite T. rewrite E'. rewrite <- L0. rewrite E1, E2.
  assert (EE : map (fun v => v + Ei t) (map (fun f : R -> R => f t) e1) = map (fun f : R -> R => f t) (map (fun (f : R -> R) t => f t + Ei t) e1)) by (rewrite !map_map; reflexivity).
  rewrite EE, ER. cbn [rbind]. rewrite EI. reflexivity.
Qed.
