(** * Concrete instances for the objective *)

Require Import Reals List Bool ZArith String Lra Lia.
From Coquelicot Require Import Complex.
From Verif Require Import Base Cplx M_tmm Spec_optics P_tmm P_tmm2 P_psidelta P_psidelta2 P_film P_examples M_disp P_disp M_struct Spec_struct M_model
  P_struct P_struct2 P_model P_model2 M_data Spec_data P_data M_objective Spec_objective P_objective P_objective2.
Import ListNotations.
Open Scope list_scope.
Open Scope R_scope.

(** parameters: 0 is fixed, 1 (delta_offset) and 2 (lnsigma) vary *)
Definition ps_ex (p : pid) : param := Param (Nat.eqb p 1%nat || Nat.eqb p 2%nat) None (Interval (-10) 10).
Definition const_t (n k : R) : material_t := MaterialT (ScattererT (T_RI (RI_const n k)) 658 EmptyString) true.
Definition slab_t (n : R) : component_t := ComponentT (SlabT 0%nat (const_t n 0) 0%nat 0%nat) true.
Definition halves_t (n0 n1 : R) : structure_t := StructureT [slab_t n0; slab_t n1] EmptyString None false 0 "linear" (1 / 3).
Definition sys_ex (n0 n1 : R) (h : heap) : system := System ps_ex no_ext [halves_t n0 n1] [ModelT 0%nat 1%nat] h.

(** glass in air at normal incidence; the second point is masked *)
Definition heap_g : heap := [[Some 633; Some 500]; [Some 0; Some 60]; [Some 45; None]; [Some 181; Some 7]].
Definition data_g : dataset := DataSE 0%nat 1%nat 2%nat 3%nat (MBool [true; false]) false true None tab.
Definition sys_g : system := sys_ex 1 (3 / 2) heap_g.
Definition st_g (l x : R) (w : option R) : state := State (write_all (fun _ => 0) [2%nat; 1%nat] [l; x]) [w] [false].
Definition ob_g : objective := Objective 0%nat data_g (Some 2%nat) true None.
Definition pt_g : point := (Some 633, Some 0, Some 45, Some 181).

Lemma wf_ex n0 n1 h : well_formed (sys_ex n0 n1 h).
Proof. intros p _. reflexivity. Qed.
Lemma params_g : parameters sys_g ob_g = [2; 1; 0; 0; 0; 0; 0; 0]%nat.
Proof. reflexivity. Qed.
Lemma varying_g : varying_parameters sys_g ob_g = [2; 1]%nat.
Proof. reflexivity. Qed.
Lemma intervals_g : intervals sys_g ob_g [(-10, 10); (-10, 10)].
Proof. reflexivity. Qed.

Lemma data_g_has : has_data sys_g ob_g [pt_g] [(633, 0)].
Proof.
  exists [pt_g; (Some 500, Some 60, None, Some 7)], [true; false].
  split; [repeat split|]. split; [reflexivity|]. split; [repeat constructor|]. repeat constructor.
Qed.

Lemma setp_g l x l' x' w : setp sys_g ob_g (Some [l; x]) (st_g l' x' w) =
  (Ok tt, set_store (st_g l x w) (write_all (st_store (st_g l' x' w)) [2%nat; 1%nat] [l; x])).
Proof. reflexivity. Qed.

Lemma model_g st : st_store st 0%nat = 0 -> 
  fst (call_model sys_g 0%nat [(633, 0)] st) = Ok ([Some 45], [Some (180 + st_store st 1%nat)]).
Proof.
  intros E. unfold call_model.
  assert (C : current sys_g st 0%nat = set_wavelength glass (nth 0%nat (st_wavelengths st) None)).
  { unfold current, inst_structure, set_wavelength, glass, simple, layer_c, const. cbn.
    unfold inst_component. cbn. unfold value, read. cbn. rewrite E. reflexivity. }
  rewrite C. change (value sys_g st (mo_offset (the_model sys_g 0%nat))) with (st_store st 1%nat).
  change (sy_ext sys_g) with no_ext.
  destruct (model_forgets no_ext DFloat glass (nth 0%nat (st_wavelengths st) None) (st_store st 1%nat) (nth 0%nat (st_flips st) false) [(633, 0)]) as [M _].
  rewrite glass_model in M. destruct (model no_ext DFloat (set_wavelength glass _) _ _ _) as [r s]. cbn [fst] in *. exact M.
Qed.

Lemma predicts_g l x l' x' w : exists st1, setp sys_g ob_g (Some [l; x]) (st_g l' x' w) = (Ok tt, st1) /\
  predicts sys_g st1 0%nat [(633, 0)] [Some 45] [Some (180 + x)] /\ value sys_g st1 2%nat = l.
Proof.
  rewrite setp_g. eexists. split; [reflexivity|]. split; [|reflexivity].
  unfold predicts. rewrite model_g; reflexivity.
Qed.

Lemma residuals_g l x l' x' w : Rabs (x - 1) <= 180 ->
  fst (residuals sys_g ob_g (Some [l; x]) (st_g l' x' w)) = Ok [Some 0; Some (Rabs (x - 1))].
Proof.
  intros B. destruct (predicts_g l x l' x' w) as (st1 & S & P & _).
  destruct (residuals_spec _ _ _ _ _ _ _ _ _ data_g_has S P) as (rp & rd & E & L1 & L2 & _ & _ & N).
  rewrite E. destruct rp as [|a [|]]; try discriminate. destruct rd as [|b [|]]; try discriminate.
  destruct (N 0%nat pt_g (Some 45) (Some (180 + x)) eq_refl eq_refl eq_refl) as (a' & b' & A1 & A2 & B1 & B2).
  cbn in A1, B1. assert (a' = a) by congruence. assert (b' = b) by congruence. subst a' b'.
  cbn [minus pt_g p_psi fst snd] in A2. cbn [distance pt_g p_delta snd] in B2. destruct B2 as (d & D1 & D2 & _).
  subst a b. cbn [app]. f_equal. f_equal; [f_equal; ring|]. f_equal. f_equal.
  replace (180 + x - 181) with (x - 1) in D2 by ring. specialize (D2 ltac:(lra)).
  destruct D2 as [(k & K) M]. replace (180 + x - 181) with (x - 1) in K by ring.
  specialize (M 0%Z). rewrite Rmult_0_l, Rplus_0_r in M. replace (180 + x - 181) with (x - 1) in M by ring.
  pose proof (abs_shift (x - 1) 360 k ltac:(lra) ltac:(lra)) as Q. rewrite <- K in Q.
  rewrite Rmin_left in Q by lra. lra.
Qed.

Lemma chisqr_g l x l' x' w : Rabs (x - 1) <= 180 ->
  fst (chisqr sys_g ob_g (Some [l; x]) (st_g l' x' w)) = Ok (Some ((x - 1) ^ 2)).
Proof.
  intros B. destruct (chisqr_spec sys_g ob_g (Some [l; x]) (st_g l' x' w)) as (S1 & _).
  rewrite (S1 [0; Rabs (x - 1)]) by (rewrite residuals_g by auto; reflexivity).
  f_equal. f_equal. cbn [map sum]. rewrite pow2_abs. ring.
Qed.

(** the log-likelihood at lnsigma = 0, offset 1: a perfect fit *)
Lemma logl_g : fst (logl sys_g ob_g (Some [0; 1]) (st_g 0 0 None)) =
  Ok (- (1 / 2) * (ln (2 * PI * (1 + 45 ^ 2)) + ln (2 * PI * (1 + 181 ^ 2)))).
Proof.
  destruct (predicts_g 0 1 0 0 None) as (st1 & S & P & V).
  destruct (logl_spec _ _ _ _ _ _ _ _ _ data_g_has S P) as [F _].
  rewrite (F [45; 180 + 1] [0; 0] eq_refl).
  - f_equal. cbn [combine map sum fst snd]. unfold term, variance, ob_g. cbn [ob_lnsigma ob_data ob_use_weights data_g ds_weighted andb].
    rewrite V. rewrite Rmult_0_r, exp_0. replace (180 + 1) with 181 by ring. f_equal.
    rewrite !Rmult_1_l. unfold Rdiv. rewrite pow_ne_zero, !Rmult_0_l by lia. ring.
  - rewrite residuals_g.
    + replace (1 - 1) with 0 by ring. rewrite Rabs_R0. reflexivity.
    + replace (1 - 1) with 0 by ring. rewrite Rabs_R0. lra.
Qed.

(** a history of calls *)
Definition history_g : list event :=
  [E_residuals ob_g (Some [1; 2]); E_wavelength 0%nat (Some 400); E_logpost ob_g None; E_setp ob_g (Some [3; 4; 5]);
   E_covar ob_g (fun v => Probe v (fun _ => Throw FloatingPointError)) (fun v => Probe v (fun _ => Return [[1; 1]; [0; 1]]))
     (fun j _ _ => Ok j)].
Lemma history_g_allowed : Forall (allowed sys_g ob_g) history_g.
Proof.
  unfold history_g.
  apply Forall_cons; [split; [intros q; auto|left; reflexivity]|].
  apply Forall_cons; [exact I|].
  apply Forall_cons; [split; [intros q; auto|exact I]|].
  apply Forall_cons; [split; [intros q; auto|right; discriminate]|].
  apply Forall_cons; [|apply Forall_nil].
  intros v. split; constructor; auto; intros; constructor.
Qed.

(** ** two objectives with one model: total reflection in a prism *)
Definition heap_p : heap := [[Some 633]; [Some (th45 * (180 / PI))]; [Some 0]; [Some 90]].
Definition data_p (flip : bool) : dataset := DataSE 0%nat 1%nat 2%nat 3%nat (MBool [true]) flip true None tab.
Definition sys_p : system := sys_ex (25 / 16) 1 heap_p.
Definition st_p : state := State (fun _ => 0) [None] [false].
Definition pt_p : point := (Some 633, Some (th45 * (180 / PI)), Some 0, Some 90).
Definition prism : structure := simple [layer_c 0 (25/16) 0 0 0; layer_c 0 1 0 0 0] false "linear".
Definition prism_rows : list slab := [mkSlab 0 (Some (25/16, 0)) 0 0; mkSlab 0 (Some (1, 0)) 0 0].

Lemma prism_slabs ext w : structure_slabs ext (set_wavelength prism w) None = (Ok (Some prism_rows), set_wavelength prism w).
Proof.
  apply (slabs_one_each ext (set_wavelength prism w) None prism_rows); try (simpl; lra); auto.
  - do 2 eexists. split; [reflexivity|]. split; [reflexivity|]. split; do 4 eexists; reflexivity.
  - repeat constructor.
  - repeat constructor; eexists; split; reflexivity.
  - intros (r & [<-|[<-|[]]] & H); simpl in H; lra.
Qed.

Lemma prism_one ext flip : fst (one_wavelength ext prism 0 flip 633 [th45 * (180 / PI)]) =
  Ok [DP_one (RtoC (25/16)) [] 1 633 0 flip (th45 * (180 / PI))].
Proof.
  unfold one_wavelength. rewrite prism_slabs. cbn [fst].
  exact (DP_map [th45 * (180 / PI)] 0 (RtoC (25/16)) 0 [] 0 1 0 633 0 flip).
Qed.

Lemma prism_delta : exists psi delta, 180 < delta < 360 /\
  DP_one (RtoC (25/16)) [] 1 633 0 false (th45 * (180 / PI)) = (Some psi, Some delta) /\
  DP_one (RtoC (25/16)) [] 1 633 0 true (th45 * (180 / PI)) = (Some psi, Some (360 - delta)).
Proof.
  unfold DP_one. cbn [Re fst RtoC]. change (nm []) with (@nil (C * R)).
  replace (rad (th45 * (180 / PI))) with (1 * th45)%R by (unfold rad; pose proof PI_neq0; field; auto).
  destruct (TIR_amp pS 1) as [t3 E3]; [lra|]. destruct (TIR_amp pP 1) as [t4 E4]; [lra|].
  cbn [amp] in *. unfold psi_delta. rewrite E3, E4.
  set (rs := (9 / 41, 1 * (40 / 41))%R : C). set (rp := (-11529 / 19721, 1 * (16000 / 19721))%R : C).
  assert (N1 : rs <> RtoC 0) by (intros X; apply (f_equal Re) in X; simpl in X; lra).
  assert (N2 : rp <> RtoC 0) by (intros X; apply (f_equal Re) in X; simpl in X; lra).
  destruct (psi_delta_spec 0 rs rp N1 N2) as (ps & de & Q1 & Q2 & B1 & B2 & Q3).
  rewrite Rminus_0_r in B2, Q3. rewrite Q1, Q2.
  destruct (delta_reflect 0 rs rp de Q2) as (de' & D1 & _ & _ & _ & D2). rewrite D1.
  assert (S : sin (rad de) < 0).
  { unfold ellipsometric in Q3.
    assert (T : 0 < tan (rad ps)).
    { apply tan_gt_0; unfold rad; pose proof PI_RGT_0.
      - apply Rmult_lt_0_compat; lra.
      - apply Rlt_le_trans with (90 * (PI / 180)); [apply Rmult_lt_compat_r; lra|lra]. }
    assert (X : rp = ((RtoC (tan (rad ps)) * cexp (- (Ci * RtoC (rad de)))) * rs)%C) by (rewrite <- Q3; field; auto).
    assert (EX : cexp (- (Ci * RtoC (rad de)))%C = (cos (rad de), - sin (rad de))).
    { unfold cexp. cbn. replace (- (0 * rad de - 1 * 0)) with 0 by ring.
      replace (- (0 * 0 + 1 * rad de)) with (- rad de) by ring. rewrite exp_0, cos_neg, sin_neg. f_equal; ring. }
    rewrite EX in X. unfold rs, rp in X.
    pose proof (f_equal Re X) as X1. pose proof (f_equal Im X) as X2. clear X Q3 EX. simpl in X1, X2.
    generalize dependent (tan (rad ps)). intros t T X1 X2.
    set (c := cos (rad de)) in *. set (s := sin (rad de)) in *.
    assert (t * s = (-11529 / 19721) * (40 / 41) - (16000 / 19721) * (9 / 41)).
    { rewrite X1. replace (16000 / 19721) with (1 * (16000 / 19721)) by ring. rewrite X2. field. }
    assert (t * s < 0) by lra. nra. }
  assert (L : 180 < de).
  { destruct (Rlt_le_dec 180 de) as [|G]; auto. exfalso.
    assert (0 <= sin (rad de)); [|lra]. apply sin_ge_0; unfold rad; pose proof PI_RGT_0.
    - apply Rmult_le_pos; lra.
    - apply Rle_trans with (180 * (PI / 180)); [apply Rmult_le_compat_r; lra|lra]. }
  assert (de <> 360).
  { intros ->. unfold rad in S. replace (360 * (PI / 180)) with (2 * PI) in S by field. rewrite sin_2PI in S. lra. }
  exists ps, de. split; [lra|]. split; auto. f_equal. f_equal. lra.
Qed.

Lemma data_p_has flip l w x : has_data sys_p (Objective 0%nat (data_p flip) l w x) [pt_p] [(633, th45 * (180 / PI))].
Proof.
  exists [pt_p], [true]. split; [repeat split|]. split; [reflexivity|]. split; repeat constructor.
Qed.

Lemma circ_90 d : 180 < d < 360 -> circular_distance d 90 360 <> circular_distance (360 - d) 90 360.
Proof.
  intros B. unfold circular_distance, Rmin. rewrite (Rabs_right (d - 90)) by lra.
  destruct (Rle_lt_dec d 270).
  - rewrite (Rabs_right (360 - d - 90)) by lra. repeat destruct Rle_dec; lra.
  - rewrite (Rabs_left (360 - d - 90)) by lra. repeat destruct Rle_dec; lra.
Qed.

Lemma prism_residuals : exists psi delta, 180 < delta < 360 /\ forall b,
  fst (residuals sys_p (Objective 0%nat (data_p false) None true None) None (State (fun _ => 0) [None] [b])) =
  Ok [Some psi; Some (circular_distance (if b then 360 - delta else delta) 90 360)].
Proof.
  destruct prism_delta as (psi & delta & B & E1 & E2). exists psi, delta. split; auto. intros b.
  set (st := State (fun _ => 0) [None] [b]).
  assert (M : fst (call_model sys_p 0%nat [(633, th45 * (180 / PI))] st) = Ok ([Some psi], [Some (if b then 360 - delta else delta)])).
  { unfold call_model.
    assert (C0 : current sys_p st 0%nat = prism) by reflexivity.
    rewrite C0. change (value sys_p st (mo_offset (the_model sys_p 0%nat))) with 0.
    unfold st. cbn [st_flips nth].
    assert (V : val (sy_ext sys_p) prism 0 b (633, th45 * (180 / PI)) = (Some psi, Some (if b then 360 - delta else delta))).
    { unfold val. cbn [fst snd]. rewrite prism_one. destruct b; auto. }
    assert (F : fine (sy_ext sys_p) prism 0 b (633, th45 * (180 / PI))).
    { unfold fine. cbn [fst snd]. rewrite V. rewrite prism_one; destruct b; rewrite ?E1, ?E2; reflexivity. }
    rewrite (model_single _ _ _ _ _ F), V. reflexivity. }
  unfold residuals, bind at 1. cbn [setp]. unfold bind at 1.
  rewrite (evaluate_data sys_p _ _ _ st (data_p_has false None true None)). cbn [ob_model].
  destruct (call_model sys_p 0%nat _ st) as [r s]. cbn [fst] in M. subst r.
  unfold bind, lift, zip_columns, ret. cbn [map List.length Nat.eqb fst map2 app pt_p p_psi p_delta snd olift2].
  rewrite Rminus_0_r. reflexivity.
Qed.

Lemma flags_interfere : exists sy m d1 d2 st,
  let '(o1, st1) := new_objective m d1 None true None st in
  let '(o2, st2) := new_objective m d2 None true None st1 in
  exists r1 r2, fst (residuals sy o1 None st1) = Ok r1 /\ fst (residuals sy o1 None st2) = Ok r2 /\ r1 <> r2.
Proof.
  exists sys_p, 0%nat, (data_p false), (data_p true), st_p. unfold new_objective.
  destruct prism_residuals as (psi & delta & B & E).
  do 2 eexists. split; [apply (E false)|]. split; [apply (E true)|]. cbn [negb].
  intros X. apply (circ_90 delta B). congruence.
Qed.

Lemma extra_example : exists sy o v st a,
  fst (logpost sy (with_extra o None) v st) = Ok (Some a) /\
  fst (logpost sy (with_extra o (Some (fun _ _ => 1))) v st) = Ok (Some a).
Proof.
  destruct (logp_spec sys_g ob_g [(-10, 10); (-10, 10)] [0; 1] (st_g 0 0 None)) as [LP _].
  - apply wf_ex.
  - apply intervals_g.
  - intros b [<-|[<-|[]]]; cbn; lra.
  - reflexivity.
  - destruct (logpost_spec sys_g ob_g (Some [0; 1]) (st_g 0 0 None)) as [S _].
    assert (B : Forall2 (fun x b => fst b <= x <= snd b) [0; 1] [(-10, 10); (-10, 10)])
      by (repeat constructor; cbn; lra).
    specialize (S _ _ (LP B) logl_g).
    exists sys_g, ob_g, (Some [0; 1]), (st_g 0 0 None). eexists.
    destruct (extra_ignored sys_g ob_g None (Some [0; 1]) (st_g 0 0 None)) as (_ & _ & _ & _ & E1).
    destruct (extra_ignored sys_g ob_g (Some (fun _ _ => 1)) (Some [0; 1]) (st_g 0 0 None)) as (_ & _ & _ & _ & E2).
    rewrite E1, E2. split; exact S.
Qed.

Lemma logp_out : fst (logp sys_g ob_g (Some [11; 1]) (st_g 0 0 None)) = Ok None.
Proof.
  destruct (logp_spec sys_g ob_g [(-10, 10); (-10, 10)] [11; 1] (st_g 0 0 None)) as [_ LP].
  - apply wf_ex.
  - apply intervals_g.
  - intros b [<-|[<-|[]]]; cbn; lra.
  - reflexivity.
  - apply LP. intros F. inversion F as [|? ? ? ? H1 _]; subst. cbn in H1. lra.
Qed.

Lemma nan_g : exists sy o st r, fst (residuals sy o None st) = Ok r /\ In None r /\ has_data sy o [(Some 633, Some 0, None, Some 7)] [(633, 0)].
Proof.
  set (h := [[Some 633]; [Some 0]; [@None R]; [Some 7]] : heap).
  set (o := Objective 0%nat (DataSE 0%nat 1%nat 2%nat 3%nat (MBool [true]) false true None tab) None true None).
  assert (D : has_data (sys_ex 1 (3/2) h) o [(Some 633, Some 0, None, Some 7)] [(633, 0)]).
  { exists [(Some 633, Some 0, None, Some 7)], [true]. split; [repeat split|]. split; [reflexivity|]. split; repeat constructor. }
  assert (P : predicts (sys_ex 1 (3/2) h) (st_g 0 0 None) 0%nat [(633, 0)] [Some 45] [Some (180 + 0)]).
  { exact (model_g (st_g 0 0 None) eq_refl). }
  destruct (residuals_spec (sys_ex 1 (3/2) h) o None (st_g 0 0 None) (st_g 0 0 None) _ _ _ _ D eq_refl P)
    as (rp & rd & E & L1 & L2 & _ & _ & N).
  exists (sys_ex 1 (3/2) h), o, (st_g 0 0 None), (rp ++ rd). split; auto. split; auto.
  destruct (N 0%nat _ _ _ eq_refl eq_refl eq_refl) as (a & b & A1 & A2 & _). cbn in A2. subst a.
  apply nth_error_In in A1. apply in_or_app; auto.
Qed.

Lemma circ_refuted : exists a b per, 0 < per /\ ~ circle_distance per a b (circular_distance a b per).
Proof.
  exists 400, 0, 360. split; [lra|]. intros [(k & K) _].
  assert (N : circular_distance 400 0 360 < 0) by (apply circ_outside; rewrite ?Rabs_right; lra).
  rewrite K in N. pose proof (Rabs_pos (400 - 0 + IZR k * 360)). lra.
Qed.

Lemma visits_ex v : visits (List.length v) (Probe v (fun _ => Throw FloatingPointError)) /\
  visits (List.length v) (Probe v (fun _ => Return [[1; 1]; [0; 1]])).
Proof. split; constructor; auto; intros; constructor. Qed.

Lemma same_g : exists st st', (forall p, In p (parameters sys_g ob_g) -> value sys_g st p = value sys_g st' p) /\
  st_store st <> st_store st' /\ st_wavelengths st <> st_wavelengths st'.
Proof.
  exists (st_g 1 2 None), (State (write (st_store (st_g 1 2 None)) 7%nat 5) [Some 400] [false]).
  split; [|split].
  - rewrite params_g. intros p H. cbn in H. decompose [or] H; subst; try reflexivity; contradiction.
  - intros E. apply (f_equal (fun f => f 7%nat)) in E. cbn -[IZR] in E. unfold write in E. cbn -[IZR] in E. lra.
  - intros E. cbn -[IZR] in E. discriminate.
Qed.

Lemma varying_spec sy o :
  (forall p, In p (varying_parameters sy o) <-> In p (parameters sy o) /\ p_vary (sy_params sy p) = true) /\
  NoDup (varying_parameters sy o) /\
  (forall i j p q, nth_error (varying_parameters sy o) i = Some p -> nth_error (varying_parameters sy o) j = Some q ->
     (i < j)%nat -> exists l1 l2, parameters sy o = l1 ++ p :: l2 /\ ~ In p l1 /\ ~ In q l1).
Proof.
  split; [intros; apply varying_In|]. split; [apply varying_NoDup|].
  intros i j p q Hp Hq L.
  assert (Vp : p_vary (sy_params sy p) = true) by (apply nth_error_In in Hp; apply varying_In in Hp; tauto).
  assert (Vq : p_vary (sy_params sy q) = true) by (apply nth_error_In in Hq; apply varying_In in Hq; tauto).
  unfold varying_parameters in *.
  destruct (unique_order _ _ _ _ _ Hp Hq L) as (l1 & l2 & E & N1 & N2).
  clear - E N1 N2 Vp Vq. revert l1 l2 E N1 N2. generalize (parameters sy o) as l.
  induction l as [|x l IH]; intros l1 l2 E N1 N2; [destruct l1; discriminate|].
  cbn [filter] in E. destruct (p_vary (sy_params sy x)) eqn:V.
  - destruct l1 as [|y l1]; cbn [app] in E; injection E as E1 E2.
    + subst x. exists [], l. split; auto.
    + subst y. destruct (IH l1 l2 E2) as (m1 & m2 & E & M1 & M2).
      * intros I; apply N1; right; auto.
      * intros I; apply N2; right; auto.
      * exists (x :: m1), m2. split; [cbn; congruence|].
        split; intros [->|I]; auto; [apply N1|apply N2]; left; auto.
  - destruct (IH l1 l2 E N1 N2) as (m1 & m2 & E' & M1 & M2). exists (x :: m1), m2. split; [cbn; congruence|].
    split; intros [->|I]; auto; congruence.
Qed.
