(** * Whole structures move smoothly *)

Require Import Reals.
From Coquelicot Require Import Coquelicot.
Require Import List Bool Arith String Lra Lia Psatz.
From Verif Require Import Base Cplx M_ema M_tmm M_disp M_struct M_model M_data M_objective Spec_struct Spec_optics Spec_whole Spec_objective Spec_diff Spec_jac Spec_smooth
  P_tmm P_struct P_whole P_objective2 P_diff P_plot P_plot2 P_jac P_smooth P_smooth2 P_smooth3.
Import ListNotations.
Open Scope list_scope.
Open Scope R_scope.

(** a row that moves *)
Record mrow := MRow { mr_th : R -> R; mr_ri : R -> C; mr_vf : R -> R }.
Definition like (t : R) (r : slab) (m : mrow) : Prop := s_thick r = mr_th m t /\ s_ri r = Some (mr_ri m t) /\ s_vf r = mr_vf m t.
Definition msmooth (x : R) (m : mrow) : Prop := ex_derive (mr_th m) x /\ cdiff (mr_ri m) x /\ ex_derive (mr_vf m) x.

Lemma material_smooth (v : R -> pid -> R) m w x : (forall p, In p (scat_params (mt_scat m)) -> ex_derive (fun t => v t p) x) -> smooth_material (v x) m w ->
  exists n, locally x (fun t => index_at (inst_material (v t) m) (Some w) (Some (n t))) /\ cdiff n x.
Proof. intros HP (n & E & N & W). exact (scat_smooth v (mt_scat m) _ x n HP E N W). Qed.

Definition vf_of (v : R -> pid -> R) (c : component_t) : R -> R := match ct_kind c with SlabT _ _ _ f => fun t => v t f | _ => fun _ => 0 end.
Lemma component_smooth (v : R -> pid -> R) (wl : R -> option R) s w x c : (forall p, In p (component_params c) -> ex_derive (fun t => v t p) x) -> smooth_component (v x) s w c ->
  exists m, msmooth x m /\ mr_vf m = vf_of v c /\ locally x (fun t => exists r, rows_of (with_wavelength (inst_structure (v t) (wl t) s) (Some w)) (inst_component (v t) c) [r] /\ like t r m).
Proof.
  intros HP H. unfold smooth_component in H. unfold component_params in HP. unfold vf_of. unfold rows_of, inst_component. cbn [c_kind].
  destruct (ct_kind c) as [th m ro f|th mA mB f ro|ps g]; [| |contradiction].
  - destruct (material_smooth v m w x) as (n & L & D); [intros p Hp; apply HP; rewrite !in_app_iff; auto|exact H|].
    exists (MRow (fun t => v t th) n (fun t => v t f)). split; [split; [|split]; cbn [mr_th mr_ri mr_vf]; [apply HP; cbn; auto|exact D|apply HP; rewrite !in_app_iff; cbn; auto]|]. split; [reflexivity|].
    apply filter_imp with (2 := L). intros t T. eexists. split; [exists (Some (n t)); split; [reflexivity|exact T]|]. split; [|split]; reflexivity.
  - destruct H as (HA & HB & HM).
    destruct (material_smooth v mA w x) as (a & LA & DA); [intros p Hp; apply HP; rewrite !in_app_iff; auto|exact HA|].
    destruct (material_smooth v mB w x) as (b & LB & DB); [intros p Hp; apply HP; rewrite !in_app_iff; auto|exact HB|].
    pose proof (locally_singleton _ _ LA) as A0. pose proof (locally_singleton _ _ LB) as B0. cbv beta in A0, B0.
    destruct (HM _ _ A0 B0) as (k & MK).
    destruct (mix_smooth (stt_ema s) a b (fun t => v t f) (stt_dep s) x k DA DB) as (g & LG & DG & _); [apply HP; rewrite !in_app_iff; cbn; auto|exact MK|].
    exists (MRow (fun t => v t th) g (fun _ => 0)). split; [split; [|split]; cbn [mr_th mr_ri mr_vf]; [apply HP; cbn; auto|exact DG|apply ex_derive_const]|]. split; [reflexivity|].
    apply filter_imp with (2 := filter_and _ _ LG (filter_and _ _ LA LB)). intros t (TG & TA & TB). eexists. split.
    + exists (a t), (b t), (g t). split; [reflexivity|]. split; [exact TA|]. split; [exact TB|exact TG].
    + split; [|split]; reflexivity.
Qed.

Lemma components_smooth (v : R -> pid -> R) (wl : R -> option R) s w x cs : (forall p, In p (flat_map component_params cs) -> ex_derive (fun t => v t p) x) ->
  List.Forall (smooth_component (v x) s w) cs ->
  exists ms, List.Forall (msmooth x) ms /\ map mr_vf ms = map (vf_of v) cs /\ locally x (fun t => exists rs, Forall2 (rows_of (with_wavelength (inst_structure (v t) (wl t) s) (Some w))) (map (inst_component (v t)) cs) (map (fun r => [r]) rs) /\ Forall2 (like t) rs ms).
Proof.
  induction cs as [|c cs IH]; intros HP F; [exists []; split; [constructor|split; [reflexivity|apply locally_all; intros t; exists []; split; constructor]]|].
  inversion F as [|? ? Fc F']; subst. destruct IH as (ms & S & V & L); [intros p Hp; apply HP; cbn [flat_map]; rewrite in_app_iff; auto|exact F'|].
  destruct (component_smooth v wl s w x c) as (m & Sm & Vm & Lm); [intros p Hp; apply HP; cbn [flat_map]; rewrite in_app_iff; auto|exact Fc|].
  exists (m :: ms). split; [constructor; assumption|]. split; [cbn [map]; rewrite Vm, V; reflexivity|].
  apply filter_imp with (2 := filter_and _ _ L Lm). intros t [(rs & T1 & T2) (r & R1 & R2)]. exists (r :: rs). cbn [map]. split; constructor; assumption.
Qed.

Lemma concat_single {A} (l : list A) : List.concat (map (fun r => [r]) l) = l.
Proof. induction l as [|a l IH]; [reflexivity|]. cbn. f_equal. exact IH. Qed.

Lemma F2_nth {A B} (P : A -> B -> Prop) l m da db : List.length l = List.length m -> (forall i, (i < List.length l)%nat -> P (nth i l da) (nth i m db)) -> Forall2 P l m.
Proof.
  revert m. induction l as [|a l IH]; intros [|b m] L H; try discriminate; constructor; [apply (H 0%nat); cbn; lia|]. apply IH; [cbn in L; congruence|]. intros i Hi. apply (H (Datatypes.S i)). cbn. lia.
Qed.
Lemma F2_nth_inv {A B} (P : A -> B -> Prop) l m da db : Forall2 P l m -> forall i, (i < List.length l)%nat -> P (nth i l da) (nth i m db).
Proof. induction 1 as [|a b l m H F IH]; intros [|i] Hi; cbn in *; try lia; auto. apply IH. lia. Qed.

Definition mrow0 : mrow := MRow (fun _ => 0) (fun _ => RtoC 0) (fun _ => 0).
Lemma like_reversed t a b ms : reversed_table a b -> Forall2 (like t) a ms -> Forall2 (like t) b (rev ms).
Proof.
  intros (L & _ & H & _) F. pose proof (F2_length _ _ _ F) as LA. apply (F2_nth _ _ _ row0 mrow0); [rewrite rev_length; lia|].
  intros i Hi. rewrite L in Hi. destruct (H i Hi) as (E1 & E2 & E3). rewrite rev_nth by lia. pose proof (F2_nth_inv _ _ _ row0 mrow0 F (List.length a - 1 - i)%nat ltac:(lia)) as (K1 & K2 & K3).
  replace (List.length ms - Datatypes.S i)%nat with (List.length a - 1 - i)%nat by lia. unfold like. rewrite E1, E2, E3. auto.
Qed.

Lemma two_ends {A} (l : list A) : (2 <= List.length l)%nat -> exists a m b, l = a :: m ++ [b].
Proof.
  intros H. destruct l as [|a l]; [cbn in H; lia|]. destruct l as [|c l]; [cbn in H; lia|]. destruct (@exists_last _ (c :: l)) as (m & b & E); [discriminate|]. exists a, m, b. rewrite E. reflexivity.
Qed.
Lemma F2_ends {A B} (P : A -> B -> Prop) l b0 m b1 : Forall2 P l (b0 :: m ++ [b1]) -> exists a0 k a1, l = a0 :: k ++ [a1] /\ P a0 b0 /\ Forall2 P k m /\ P a1 b1.
Proof.
  intros H. inversion H as [|a0 ? l' ? H0 H1]; subst. apply Forall2_app_inv_r in H1 as (k & e & K1 & K2 & ->). inversion K2 as [|a1 ? ? ? K3 K4]; subst. inversion K4; subst. exists a0, k, a1. auto.
Qed.

Lemma mixes_smooth ema d (y : R -> C) x ms : cdiff y x -> List.Forall (msmooth x) ms -> List.Forall (fun m => exists k, mix_ok ema (mr_ri m x) (y x) (mr_vf m x) d k) ms ->
  exists gs, List.Forall (fun g => cdiff g x) gs /\ locally x (fun t => Forall2 (fun m g => overall_ri (mr_ri m t) (y t) (mr_vf m t) ema d = Ok (g t)) ms gs) /\ List.length gs = List.length ms.
Proof.
  intros DY S F. induction F as [|m ms (k & K) F IH]; [exists []; split; [constructor|split; [apply locally_all; constructor|reflexivity]]|].
  inversion S as [|? ? (S1 & S2 & S3) S']; subst. destruct (IH S') as (gs & D & L & LL). destruct (mix_smooth ema (mr_ri m) y (mr_vf m) d x k S2 DY S3 K) as (g & Lg & Dg & _).
  exists (g :: gs). split; [constructor; assumption|]. split; [|cbn; congruence]. apply filter_imp with (2 := filter_and _ _ L Lg). intros t [T1 T2]. constructor; assumption.
Qed.

Lemma ends_any (v v' : pid -> R) wl wl' s : slab_ends (st_data (inst_structure v wl s)) -> slab_ends (st_data (inst_structure v' wl' s)).
Proof.
  unfold slab_ends. cbn [inst_structure st_data]. intros (c0 & cl & H0 & Hl & S0 & Sl).
  assert (K : forall l c, hd_error (map (inst_component v) l) = Some c -> is_SlabSE c -> exists c', hd_error (map (inst_component v') l) = Some c' /\ is_SlabSE c').
  { intros [|a l] c E Sc; [discriminate|]. cbn in E. assert (c = inst_component v a) by congruence. subst c. eexists. split; [reflexivity|].
    destruct Sc as (th & m & r & f & E'). cbn [inst_component c_kind] in E'. unfold is_SlabSE. cbn [inst_component c_kind]. destruct (ct_kind a); try discriminate. do 4 eexists. reflexivity. }
  destruct (K _ _ H0 S0) as (c0' & A & B). rewrite <- map_rev in Hl. destruct (K _ _ Hl Sl) as (cl' & A' & B'). exists c0', cl'. rewrite <- map_rev. auto.
Qed.

Lemma vf_locally (v : R -> pid -> R) cs x : (forall c t m r f, In c cs -> ct_kind c = SlabT t m r f -> locally x (fun y => v y f <= 0)) ->
  locally x (fun t => List.Forall (fun g : R -> R => g t <= 0) (map (vf_of v) cs)).
Proof.
  induction cs as [|c cs IH]; intros H; [apply locally_all; constructor|].
  assert (L1 : locally x (fun t => vf_of v c t <= 0)).
  { unfold vf_of. destruct (ct_kind c) eqn:E; [eapply H; [left; reflexivity|exact E]|apply locally_all; intros; lra|apply locally_all; intros; lra]. }
  apply filter_imp with (2 := filter_and _ _ L1 (IH (fun c' t m r f I => H c' t m r f (or_intror I)))). intros t [A B]. constructor; assumption.
Qed.

Definition same_rows (t : R) (rows : list slab) (nA : R -> C) (F : films) (nB : R -> C) : Prop :=
  exists rowA mid rowB, rows = rowA :: mid ++ [rowB] /\ s_ri rowA = Some (nA t) /\ s_ri rowB = Some (nB t) /\
    Forall2 (fun r l => s_ri r = Some (fst (fst l) t) /\ s_thick r = snd (fst l) t) mid F.

Theorem structure_moves (v : R -> pid -> R) (wl : R -> option R) s w x : smooth_structure v s w x ->
  exists nA F nB, cdiff nA x /\ cdiff nB x /\ List.Forall (fun l => cdiff (fst (fst l)) x /\ ex_derive (snd (fst l)) x) F /\
    locally x (fun t => exists rows, rows_at (inst_structure (v t) (wl t) s) w rows /\ same_rows t rows nA F nB).
Proof.
  intros (HP & HE & LD & HI & HK & HC & HS).
  destruct (components_smooth v wl s w x (stt_data s)) as (ms & S & V & L); [intros p Hp; apply HP; unfold structure_params; rewrite in_app_iff; auto|exact HC|].
  set (ms' := if stt_reverse s then rev ms else ms).
  assert (LM : List.length ms = List.length (stt_data s)) by (rewrite <- (map_length mr_vf ms), V; apply map_length).
  assert (S' : List.Forall (msmooth x) ms') by (unfold ms'; destruct (stt_reverse s); [apply Forall_rev|]; exact S).
  assert (LT : forall S0 : R -> option R, locally x (fun t => exists base tbl, Forall2 (rows_of (with_wavelength (inst_structure (v t) (wl t) s) (Some w))) (st_data (inst_structure (v t) (wl t) s)) base /\
     in_order (inst_structure (v t) (wl t) s) (List.concat base) tbl /\ Forall2 (like t) tbl ms')).
  { intros _. apply filter_imp with (2 := L). intros t (rs & T1 & T2). exists (map (fun r => [r]) rs). unfold in_order, ms'. cbn [inst_structure st_reverse st_data]. rewrite concat_single.
    destruct (stt_reverse s).
    - exists (reverse_slabs rs). split; [exact T1|]. split; [apply reverse_spec|]. eapply like_reversed; [apply reverse_spec|exact T2].
    - exists rs. auto. }
  specialize (LT (fun _ => None)).
  destruct (two_ends ms') as (mA & mm & mB & EM); [unfold ms'; destruct (stt_reverse s); rewrite ?rev_length; lia|].
  rewrite EM in LT, S'. inversion S' as [|? ? SA S'']; subst. apply List.Forall_app in S'' as [SM SB]. inversion SB as [|? ? SB' _]; subst.
  destruct HS as [HU|(HV & HM & HSV & HX)].
  - exists (mr_ri mA), (map (fun m => (mr_ri m, mr_th m, 0)) mm), (mr_ri mB). split; [apply SA|]. split; [apply SB'|]. split.
    + apply List.Forall_forall. intros l Hl. apply in_map_iff in Hl as (m & <- & Hm). pose proof (proj1 (List.Forall_forall _ _) SM m Hm) as (A & B & D). cbn [fst snd]. auto.
    + pose proof (vf_locally v (stt_data s) x HU) as LV. rewrite <- V in LV. apply filter_imp with (2 := filter_and _ _ LT LV). intros t [(base & tbl & T1 & T2 & T3) TV].
      exists tbl. split.
      * exists base, tbl. split; [exact T1|]. split; [exact T2|]. left. split; [|reflexivity]. intros (r & Hr & P).
        destruct (F2_in _ _ _ _ T3 Hr) as (m & Hm & (_ & _ & E)). rewrite <- EM in Hm. assert (I : In m ms) by (unfold ms' in Hm; destruct (stt_reverse s); [apply in_rev in Hm|]; exact Hm).
        pose proof (proj1 (List.Forall_forall _ _) TV (mr_vf m) (in_map _ _ _ I)) as K. cbv beta in K. lra.
      * destruct (F2_ends _ _ _ _ _ T3) as (rA & mid & rB & E & PA & PM & PB). exists rA, mid, rB. split; [exact E|]. split; [apply PA|]. split; [apply PB|].
        clear - PM. induction PM as [|r m mid mm (K1 & K2 & K3) PM IH]; cbn [map]; constructor; auto.
  - assert (YS : exists y, cdiff y x /\ locally x (fun t => forall tbl, Forall2 (like t) tbl (mA :: mm ++ [mB]) -> solvent_index (with_wavelength (inst_structure (v t) (wl t) s) (Some w)) tbl (Some (y t)))).
    { unfold solvent_index. cbn [with_wavelength inst_structure st_solvent st_wavelength]. destruct (stt_solvent s) as [sc|] eqn:ES.
      - destruct (HSV sc eq_refl) as (n & E & N & W). destruct (scat_smooth v sc (Some w) x n) as (y & LY & DY); auto.
        { intros p Hp. apply HP. unfold structure_params. rewrite ES, in_app_iff. auto. }
        exists y. split; [exact DY|]. apply filter_imp with (2 := LY). intros t T tbl _. exact T.
      - exists (mr_ri mB). split; [apply SB'|]. apply locally_all. intros t tbl T. destruct (F2_ends _ _ _ _ _ T) as (rA & mid & rB & -> & _ & _ & PB).
        rewrite <- last_nth'. change (rA :: mid ++ [rB]) with ((rA :: mid) ++ [rB]). rewrite last_last. symmetry. apply PB. }
    destruct YS as (y & DY & LY).
    assert (MX : List.Forall (fun m => exists k, mix_ok (stt_ema s) (mr_ri m x) (y x) (mr_vf m x) (stt_dep s) k) mm).
    { destruct (locally_singleton _ _ LT) as (base & tbl & T1 & T2 & T3). pose proof (locally_singleton _ _ LY) as Y0. cbv beta in Y0. specialize (Y0 tbl T3).
      apply List.Forall_forall. intros m Hm. apply In_nth with (d := mrow0) in Hm as (i & Hi & Em). pose proof (F2_length _ _ _ T3) as LL. cbn [List.length] in LL. rewrite app_length in LL. cbn [List.length] in LL.
      pose proof (F2_nth_inv _ _ _ row0 mrow0 T3 (Datatypes.S i) ltac:(lia)) as K. cbn [nth] in K. rewrite app_nth1 in K by exact Hi. rewrite Em in K. destruct K as (K1 & K2 & K3).
      destruct (HX base tbl (y x)) with (i := Datatypes.S i) (n := mr_ri m x) as (k & MK).
      - exact T1.
      - exact T2.
      - exact Y0.
      - lia.
      - exact K2.
      - exists k. rewrite <- K3. exact MK. }
    destruct (mixes_smooth (stt_ema s) (stt_dep s) y x mm DY SM MX) as (gs & DG & LG & LL).
    exists (mr_ri mA), (map2 (fun m g => (g, mr_th m, 0)) mm gs), (mr_ri mB). split; [apply SA|]. split; [apply SB'|]. split.
    + clear - DG SM. revert gs DG. induction SM as [|m mm (A & B & D) SM IH]; intros gs DG; [constructor|]. destruct DG as [|g gs Dg DG]; cbn [map2]; constructor; [cbn [fst snd]; auto|apply IH; exact DG].
    + assert (LV : locally x (fun t => exists m, In m ms /\ 0 < mr_vf m t)).
      { destruct HV as (c & th & m0 & r & f & Ic & Ec & P). assert (I : In (vf_of v c) (map mr_vf ms)) by (rewrite V; apply in_map; exact Ic). apply in_map_iff in I as (m & Em & Im).
        assert (Sm : msmooth x m) by exact (proj1 (List.Forall_forall _ _) S m Im). destruct Sm as (_ & _ & Dv).
        assert (P' : 0 < mr_vf m x) by (rewrite Em; unfold vf_of; rewrite Ec; exact P).
        apply filter_imp with (2 := pos_near _ x (diff_cont _ _ Dv) P'). intros t T. exists m. auto. }
      apply filter_imp with (2 := filter_and _ _ (filter_and _ _ LT LV) (filter_and _ _ LY LG)). intros t [[(base & tbl & T1 & T2 & T3) (m & Im & Pm)] [TY TG]].
      destruct (F2_ends _ _ _ _ _ T3) as (rA & mid & rB & E & PA & PM & PB).
      assert (NEW : exists new, Forall2 (fun r r' => mix_slab (stt_ema s) (stt_dep s) (Some (y t)) r = Ok r') mid new /\
        Forall2 (fun r l => s_ri r = Some (fst (fst l) t) /\ s_thick r = snd (fst l) t) new (map2 (fun m g => (g, mr_th m, 0)) mm gs)).
      { clear - PM TG. revert gs TG. induction PM as [|r m mid mm (K1 & K2 & K3) PM IH]; intros gs TG; inversion TG as [|? g ? gs' G1 G2]; subst; [exists []; split; constructor|].
        destruct (IH gs' G2) as (new & N1 & N2). exists (mkSlab (s_thick r) (Some (g t)) (s_rough r) (s_vf r) :: new). split; cbn [map2]; constructor; auto.
        unfold mix_slab, overall_ri_nan. rewrite K2, K3, G1. reflexivity. }
      destruct NEW as (new & N1 & N2). exists (set_inner tbl new). split.
      * exists base, tbl. split; [exact T1|]. split; [exact T2|]. right. split.
        { rewrite <- EM in T3. assert (I : In m ms') by (unfold ms'; destruct (stt_reverse s); [rewrite <- in_rev|]; exact Im).
          apply In_nth with (d := mrow0) in I as (i & Hi & Em). pose proof (F2_length _ _ _ T3) as L3. pose proof (F2_nth_inv _ _ _ row0 mrow0 T3 i ltac:(lia)) as (_ & _ & K).
          exists (nth i tbl row0). split; [apply nth_In; lia|]. rewrite K, Em. exact Pm. }
        split; [exact HM|]. exists (y t). split; [apply TY; exact T3|]. apply set_inner_spec. rewrite E, inner_decomp. exact N1.
      * exists rA, new, rB. split; [|split; [apply PA|split; [apply PB|exact N2]]]. rewrite E. unfold set_inner. destruct (mid ++ [rB]) as [|q0 qs] eqn:EQ; [destruct mid; discriminate|].
        f_equal. f_equal. f_equal. rewrite <- EQ. change (rA :: mid ++ [rB]) with ((rA :: mid) ++ [rB]). apply last_last.
Qed.

Theorem structure_point (v : R -> pid -> R) (wl : R -> option R) s w aoi rows : smooth_structure v s w 0 ->
  rows_at (inst_structure (v 0) (wl 0) s) w rows -> clear_path rows w aoi -> smooth_point (fun t => inst_structure (v t) (wl t) s) (w, aoi).
Proof.
  intros H RA (rowA & mid & rowB & a & b & ER & EA & EB & NB & FM). pose proof H as (HP & HE & LD & HI & HK & HC & HS). destruct (structure_moves v wl s w 0 H) as (nA & F & nB & DA & DB & DF & L).
  assert (DI : forall t, List.Forall (fun c => c_default_interface c = true) (st_data (inst_structure (v t) (wl t) s))).
  { intros t. cbn [inst_structure st_data]. apply List.Forall_forall. intros c Hc. apply in_map_iff in Hc as (c' & <- & Hc'). cbn. apply (proj1 (List.Forall_forall _ _) HI). exact Hc'. }
  exists nA, F, nB. split.
  - unfold consists_of. apply filter_imp with (2 := L). intros t (rows' & R1 & (rA & md & rB & -> & E1 & E2 & E3)). cbn [fst].
    split; [apply (ends_any _ _ _ _ _ HE)|]. split; [apply DI|]. split; [exact HK|]. exists rA, md, rB. auto.
  - destruct (locally_singleton _ _ L) as (rows' & R1 & (rA & md & rB & E0 & E1 & E2 & E3)).
    assert (EQ : rows' = rows).
    { pose (ext := Externals (fun _ => Raise OtherError) (fun r _ => r) (fun _ _ => ([], []))). 
      pose proof (slabs_rows_at ext _ w _ (ends_any _ _ _ (wl 0) _ HE) (DI 0) HK R1) as Q1. pose proof (slabs_rows_at ext _ w _ (ends_any _ _ _ (wl 0) _ HE) (DI 0) HK RA) as Q2. rewrite Q1 in Q2. congruence. }
    rewrite E0, ER in EQ. assert (Q1 : rA = rowA) by congruence. assert (Q2 : md ++ [rB] = mid ++ [rowB]) by congruence. apply app_inj_tail in Q2 as [-> ->]. subst rA.
    rewrite EA in E1. rewrite EB in E2. injection E1 as ->. injection E2 as ->. cbn [fst snd]. cbv zeta in NB, FM. split; [apply DA|]. split; [exact DB|]. split; [right; exact NB|].
    clear - E3 FM DF. induction E3 as [|r l mid F [K1 K2] E3 IH]; [constructor|]. inversion FM as [|? ? (n & G1 & G2 & G3) FM']; subst. inversion DF as [|? ? [D1 D2] DF']; subst.
    rewrite K1 in G1. injection G1 as <-. rewrite K2 in G3. constructor; [|apply IH; assumption]. split; [exact D1|]. split; [exact D2|]. split; [right; exact G2|exact G3].
Qed.
