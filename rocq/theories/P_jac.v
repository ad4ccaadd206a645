(** * The residuals are differentiable in every parameter *)

Require Import Reals.
From Coquelicot Require Import Coquelicot.
Require Import List Bool Arith String Lra Lia Psatz.
From Verif Require Import Base Cplx Mat M_tmm M_disp M_struct M_model M_data Spec_data P_data M_objective Spec_struct Spec_optics Spec_whole Spec_objective Spec_covar Spec_diff Spec_jac
  P_tmm P_tmm2 P_tmm4 P_psidelta P_psidelta2 P_struct P_model P_whole P_objective P_objective2 P_plot P_plot2 P_covar P_covar3 P_diff P_diff2 P_diff3.
Import ListNotations.
Open Scope list_scope.
Open Scope R_scope.

Lemma slope_fun (g : R -> option R) x : slopes g x -> exists q, locally x (fun y => g y = Some (q y)) /\ ex_derive q x.
Proof.
  intros (l & v & V & H). set (q := fun y => match g y with Some v => v | None => 0 end). exists q. destruct (H 1 Rlt_0_1) as (e & He & HE).
  assert (L : forall y, Rabs (y - x) < e -> g y = Some (q y)).
  { intros y Hy. destruct (Req_dec y x) as [->|N]; [unfold q; rewrite V; reflexivity|].
    destruct (HE (y - x) ltac:(lra) Hy) as (v' & V' & _). replace (x + (y - x)) with y in V' by ring. unfold q. rewrite V'. reflexivity. }
  split; [exists (mkposreal e He); intros y By; apply L; exact By|].
  exists l. apply is_derive_Reals. intros eps Heps. destruct (H eps Heps) as (eta & Ht & HT). exists (mkposreal eta Ht). intros h Hn Hh.
  destruct (HT h Hn Hh) as (v' & V' & B). unfold q. rewrite V', V. exact B.
Qed.

Lemma DP_offset nA inner nB w off refl aoi : DP_one nA inner nB w off refl aoi =
  (fst (DP_one nA inner nB w 0 refl aoi), omap (fun d => d + off) (snd (DP_one nA inner nB w 0 refl aoi))).
Proof.
  unfold DP_one, psi_delta. destruct (tmm_point _ _ _ _ _) as [[[rs ts]|] [[rp tp]|]]; cbn [amp_s amp_p fst snd omap]; try reflexivity. f_equal.
  unfold delta_of. destruct (cdiv (- rp)%C rs) as [q|]; cbn [obind omap]; [|reflexivity]. destruct (cdiv 1%C q) as [z|]; cbn [obind omap]; [|reflexivity]. f_equal. ring.
Qed.

(** one point *)
Lemma consists_value ext S off flip x nA F nB : consists_of S (fst x) nA F nB ->
  locally 0 (fun t => fst (model ext DFloat (S t) (off t) flip [x]) =
    Ok ([fst (DP_one (nA t) (film_of F t) (nB t) (fst x) (off t) flip (snd x))], [snd (DP_one (nA t) (film_of F t) (nB t) (fst x) (off t) flip (snd x))])).
Proof.
  intros H. apply filter_imp with (2 := H). intros t (H1 & H2 & H3 & rowA & mid & rowB & RA & EA & EB & E).
  assert (E' : Forall2 (fun r nd => s_ri r = Some (fst nd) /\ s_thick r = 10 * snd nd) mid (nm (film_of F t))).
  { clear - E. unfold nm, film_of. induction E as [|r l mid F [E1 E2] E IH]; cbn [map]; constructor; auto. cbn [fst snd]. split; [exact E1|rewrite E2; change (snd (fst l) t = 10 * (snd (fst l) t / 10)); field]. }
  destruct (map_layer_table rowA mid rowB (nA t) _ (nB t) EA EB E') as (full & E1 & E2).
  pose proof (slabs_rows_at ext (S t) (fst x) _ H1 H2 H3 RA) as Sl.
  assert (O : fst (one_wavelength ext (S t) (off t) flip (fst x) [snd x]) = Ok [DP_one (nA t) (film_of F t) (nB t) (fst x) (off t) flip (snd x)]).
  { unfold one_wavelength. rewrite Sl, E2. cbn [fst]. rewrite DP_map. cbn [map]. unfold DP_one. rewrite E1. reflexivity. }
  assert (V : val ext (S t) (off t) flip x = DP_one (nA t) (film_of F t) (nB t) (fst x) (off t) flip (snd x)) by (unfold val; rewrite O; reflexivity).
  rewrite model_single by (unfold fine; rewrite V; exact O). rewrite V. reflexivity.
Qed.

Lemma point_moves ext S off flip x psi d : smooth_point S x -> ex_derive off 0 ->
  fst (model ext DFloat (S 0) (off 0) flip [x]) = Ok ([psi], [Some d]) ->
  (if flip then d <> off 0 /\ d <> off 0 + 180 else d <> off 0 + 360) ->
  exists p q : R -> R, locally 0 (fun t => fst (model ext DFloat (S t) (off t) flip [x]) = Ok ([Some (p t)], [Some (q t)])) /\
    ex_derive p 0 /\ ex_derive q 0 /\ psi = Some (p 0) /\ d = q 0.
Proof.
  intros (nA & F & nB & HC & HS) HO HM HD. pose proof (consists_value ext S off flip x nA F nB HC) as L.
  pose proof (locally_singleton _ _ L) as L0. cbv beta in L0. rewrite HM in L0. rewrite DP_offset in L0. cbn [fst snd] in L0.
  set (T := fun y => table 0 (nA y) 0 (film_of F y) 0 (nB y) 0).
  assert (ON : forall y, DP_one (nA y) (film_of F y) (nB y) (fst x) 0 flip (snd x) = (psi_on T (snd x) (fst x) 0 flip y, delta_on T (snd x) (fst x) 0 flip y)).
  { intros y. symmetry. unfold T. apply on_one. }
  rewrite ON in L0. cbn [fst snd] in L0.
  destruct (delta_on T (snd x) (fst x) 0 flip 0) as [d0|] eqn:D0; [|discriminate]. cbn [omap] in L0.
  assert (ED : d = d0 + off 0) by congruence. assert (EP : psi = psi_on T (snd x) (fst x) 0 flip 0) by congruence. clear L0.
  assert (A : exists rs ts rp tp : C, coh_tmm (ns (RtoC (Re (nA 0))) (nm (film_of F 0)) (nB 0)) (ds PInf (nm (film_of F 0)) PInf) [(rad (snd x), fst x)] = Ok [mkAmp (Some (rs, ts)) (Some (rp, tp))] /\ rs <> 0%C /\ rp <> 0%C).
  { apply (defined_amp 0 (nA 0) 0 (film_of F 0) 0 (nB 0) 0 (snd x) (fst x) 0 flip (psi_on T (snd x) (fst x) 0 flip 0) d0). fold (T 0).
    unfold T. rewrite DP_map. cbn [map]. rewrite ON, D0. reflexivity. }
  destruct A as (rs & ts & rp & tp & A & NS & NP).
  assert (SP : slopes (psi_on T (snd x) (fst x) 0 flip) 0) by exact (psi_slope 0 0 0 0 nA F nB (snd x) (fst x) 0 0 rs ts rp tp HS A NS NP flip).
  assert (SD : slopes (delta_on T (snd x) (fst x) 0 flip) 0).
  { destruct flip.
    - destruct HD as [HD1 HD2]. apply (folded_slope 0 0 0 0 nA F nB (snd x) (fst x) 0 0 rs ts rp tp HS A NS NP d0 D0); lra.
    - apply (delta_slope 0 0 0 0 nA F nB (snd x) (fst x) 0 0 rs ts rp tp HS A NS NP d0 D0); lra. }
  destruct (slope_fun _ _ SP) as (p & LP & DP). destruct (slope_fun _ _ SD) as (q & LQ & DQ).
  exists p, (fun t => q t + off t). split; [|split; [exact DP|split]].
  - apply filter_imp with (2 := filter_and _ _ L (filter_and _ _ LP LQ)). intros t (Lt & Pt & Qt). rewrite Lt, DP_offset, ON. cbn [fst snd]. rewrite Pt, Qt. reflexivity.
  - apply (ex_derive_plus (V := R_NormedModule)); assumption.
  - pose proof (locally_singleton _ _ LP) as P0. pose proof (locally_singleton _ _ LQ) as Q0. cbv beta in P0, Q0. split; [congruence|].
    assert (d0 = q 0) by congruence. rewrite ED, H. reflexivity.
Qed.

(** all points *)
Lemma locally_Forall2 {A B} (P : R -> A -> B -> Prop) X Y : Forall2 (fun a b => locally 0 (fun t => P t a b)) X Y -> locally 0 (fun t => Forall2 (P t) X Y).
Proof.
  induction 1 as [|a b X Y H F IH]; [exists (mkposreal 1 Rlt_0_1); intros; constructor|].
  apply filter_imp with (2 := filter_and _ _ H IH). intros t [U V]. constructor; assumption.
Qed.

Lemma residuals_eq sy o v st st1 sel X psi delta : has_data sy o sel X -> setp sy o v st = (Ok tt, st1) ->
  predicts sy st1 (ob_model o) X psi delta ->
  fst (residuals sy o v st) = Ok (map2 (olift2 Rminus) psi (map p_psi sel) ++ map2 (olift2 (fun x y => circular_distance x y 360)) delta (map p_delta sel)).
Proof.
  intros HD HS HP. unfold predicts in HP.
  destruct (call_model sy (ob_model o) X st1) as [r st2] eqn:E. cbn [fst] in HP. subst r.
  destruct (call_model_length _ _ _ _ _ _ _ E) as [L1 L2].
  assert (LX : List.length X = List.length sel).
  { destruct HD as (_ & _ & _ & _ & _ & F). symmetry. eapply F2_length; eauto. }
  unfold residuals, bind at 1. rewrite HS. unfold bind at 1. rewrite (evaluate_data _ _ _ _ _ HD), E.
  unfold bind, lift, zip_columns, ret. rewrite !map_length, L1, L2, LX, !Nat.eqb_refl. reflexivity.
Qed.

Lemma some_list (l : list R) : map Some l = map (fun i => Some (nth i l 0)) (seq 0 (List.length l)).
Proof.
  apply nth_error_all. intros i. destruct (lt_dec i (List.length l)) as [H|H].
  - rewrite (map_nth_error (fun i => Some (nth i l 0)) i (seq 0 (List.length l)) (d := i)); [|rewrite (nth_error_nth' _ 0%nat) by (rewrite seq_length; exact H); rewrite seq_nth by exact H; reflexivity].
    apply map_nth_error. apply nth_error_nth'. exact H.
  - rewrite !(proj2 (nth_error_None _ _)); auto; rewrite map_length; rewrite ?seq_length; lia.
Qed.

Lemma circ_diff_off (q : R -> R) m : ex_derive q 0 -> m <> q 0 -> Rabs (q 0 - m) <> 180 -> ex_derive (fun t => circular_distance (q t) m 360) 0.
Proof.
  intros D N1 N2. set (k := fun t => q t - m). assert (DK : ex_derive k 0) by (apply (ex_derive_minus (V := R_NormedModule)); [exact D|apply ex_derive_const]).
  assert (CK : continuous k 0) by (apply (ex_derive_continuous (V := R_NormedModule)); exact DK).
  assert (DA : ex_derive (fun t => Rabs (k t)) 0).
  { destruct DK as [l DK]. eexists. apply (is_derive_Rabs k 0 l DK). unfold k. lra. }
  assert (CA : continuous (fun t => Rabs (k t)) 0) by (apply (ex_derive_continuous (V := R_NormedModule)); exact DA).
  destruct (Rlt_dec (Rabs (k 0)) 180) as [H|H].
  - apply ex_derive_ext_loc with (fun t => Rabs (k t)); [|exact DA].
    assert (L : locally 0 (fun t => Rabs (k t) < 180)) by (apply (CA (fun y => y < 180)); apply (open_lt 180); exact H).
    apply filter_imp with (2 := L). intros t Ht. unfold circular_distance. fold (k t). rewrite Rmin_left by lra. reflexivity.
  - assert (H' : 180 < Rabs (k 0)) by (unfold k in *; lra).
    apply ex_derive_ext_loc with (fun t => 360 - Rabs (k t)); [|apply (ex_derive_minus (V := R_NormedModule)); [apply ex_derive_const|exact DA]].
    assert (L : locally 0 (fun t => 180 < Rabs (k t))) by (apply (CA (fun y => 180 < y)); apply (open_gt 180); exact H').
    apply filter_imp with (2 := L). intros t Ht. unfold circular_distance. fold (k t). rewrite Rmin_right by lra. reflexivity.
Qed.

Lemma finite_choice {Y} (P : nat -> Y -> Prop) (y0 : Y) n : (forall j, (j < n)%nat -> exists y, P j y) -> exists f, forall j, (j < n)%nat -> P j (f j).
Proof.
  induction n as [|n IH]; intros H; [exists (fun _ => y0); lia|]. destruct IH as [f F]; [intros; apply H; lia|]. destruct (H n ltac:(lia)) as [y Y0].
  exists (fun j => if Nat.eqb j n then y else f j). intros j Hj. destruct (Nat.eqb_spec j n) as [->|]; [exact Y0|apply F; lia].
Qed.

Lemma bump_zero x j : bump x j 0 = x.
Proof.
  apply nth_error_all. intros i. destruct (lt_dec i (List.length x)) as [H|H].
  - unfold bump. rewrite (map_nth_error _ i _ (d := i)); [|rewrite (nth_error_nth' _ 0%nat) by (rewrite seq_length; exact H); rewrite seq_nth by exact H; reflexivity].
    rewrite (nth_error_nth' _ 0 H). f_equal. destruct (Nat.eqb i j); ring.
  - rewrite !(proj2 (nth_error_None _ _)); auto; try lia. rewrite bump_length. lia.
Qed.

Lemma moved_setp sy o st j t : well_formed sy -> setp sy o (Some (bump (present sy o st) j t)) st = (Ok tt, moved sy o st j t) /\ st_flips (moved sy o st j t) = st_flips st.
Proof.
  intros WF. destruct (setp_varying sy o (bump (present sy o st) j t) st WF) as (st' & E & _ & _ & _ & FL); [rewrite bump_length; unfold present; apply map_length|].
  unfold moved. rewrite E. split; [reflexivity|exact FL].
Qed.


Lemma locally_fin (P : nat -> R -> Prop) n : (forall i, (i < n)%nat -> locally 0 (P i)) -> locally 0 (fun t => forall i, (i < n)%nat -> P i t).
Proof.
  induction n as [|n IH]; intros H; [exists (mkposreal 1 Rlt_0_1); intros; lia|].
  assert (H1 : forall i, (i < n)%nat -> locally 0 (P i)) by (intros; apply H; lia). assert (H2 : locally 0 (P n)) by (apply H; lia).
  apply filter_imp with (2 := filter_and _ _ (IH H1) H2). intros t [A B] i Hi.
  destruct (Nat.eq_dec i n) as [->|]; [exact B|apply A; lia].
Qed.

Lemma list_seq {A} (l : list A) (f : nat -> A) n : List.length l = n -> (forall i, (i < n)%nat -> nth_error l i = Some (f i)) -> l = map f (seq 0 n).
Proof.
  intros L H. apply nth_error_all. intros i. destruct (lt_dec i n) as [K|K].
  - rewrite H by exact K. symmetry. apply map_nth_error. rewrite (nth_error_nth' _ 0%nat) by (rewrite seq_length; exact K). rewrite seq_nth by exact K. reflexivity.
  - rewrite !(proj2 (nth_error_None _ _)); auto; rewrite ?map_length, ?seq_length; lia.
Qed.

Lemma map2_map {A B D E} (f : A -> B -> D) (g : E -> A) (h : E -> B) l : map2 f (map g l) (map h l) = map (fun i => f (g i) (h i)) l.
Proof. induction l as [|a l IH]; [reflexivity|]. cbn [map]. unfold map2 in *. cbn [combine map]. rewrite IH. reflexivity. Qed.

Lemma two_maps {A} (f g : nat -> A) n : map f (seq 0 n) ++ map g (seq 0 n) = map (fun i => if Nat.ltb i n then f i else g (i - n)%nat) (seq 0 (2 * n)).
Proof.
  replace (2 * n)%nat with (n + n)%nat by lia. rewrite seq_app, map_app. f_equal.
  - apply map_ext_in. intros i Hi. apply in_seq in Hi. destruct (Nat.ltb_spec i n); [reflexivity|lia].
  - assert (H : forall m k, map (fun i => n + i)%nat (seq k m) = seq (n + k) m).
    { induction m as [|m IH]; intros k; cbn [seq map]; [reflexivity|]. f_equal. rewrite IH. f_equal. lia. }
    rewrite Nat.add_0_l. pose proof (H n 0%nat) as E. rewrite Nat.add_0_r in E. rewrite <- E.
    rewrite map_map. apply map_ext. intros i. destruct (Nat.ltb_spec (n + i) n); [lia|]. f_equal. lia.
Qed.

Lemma column_exists sy o st sel X psi delta j : well_formed sy -> has_data sy o sel X -> predicts sy st (ob_model o) X psi delta ->
  let flip := nth (ob_model o) (st_flips st) false in
  let off := value sy st (mo_offset (the_model sy (ob_model o))) in
  List.Forall (fun x => exists p, p_psi x = Some p) sel ->
  Forall2 (fun x d => exists m v, p_delta x = Some m /\ d = Some v /\ off_corners off flip m v) sel delta ->
  ex_derive (moved_offset sy o st j) 0 -> List.Forall (smooth_point (moved_structure sy o st j)) X ->
  exists g : nat -> R -> R, locally 0 (fun t => fst (residuals sy o (Some (bump (present sy o st) j t)) st) = Ok (map (fun i => Some (g i t)) (seq 0 (2 * List.length sel)))) /\
    forall i, (i < 2 * List.length sel)%nat -> ex_derive (g i) 0.
Proof.
  intros WF HD HP flip off NP ND HO HX. set (n := List.length sel).
  assert (LX : List.length X = n) by (destruct HD as (_ & _ & _ & _ & _ & F); symmetry; eapply F2_length; eauto).
  destruct (call_model_points _ _ _ _ _ _ HP) as (L1 & L2 & PT).
  assert (P0 : predicts sy (moved sy o st j 0) (ob_model o) X psi delta).
  { unfold predicts. rewrite <- HP. destruct (moved_setp sy o st j 0 WF) as [E FL]. rewrite bump_zero in E.
    apply call_model_same; [|exact FL]. unfold moved. rewrite bump_zero. destruct (setp_restore sy o st st WF (frame_refl _ st)) as (st2 & E2 & SS & _).
    unfold present. rewrite E2. exact SS. }
  destruct (call_model_points _ _ _ _ _ _ P0) as (_ & _ & PT0).
  set (mp := fun i => match nth_error sel i with Some x => match p_psi x with Some p => p | None => 0 end | None => 0 end).
  set (md := fun i => match nth_error sel i with Some x => match p_delta x with Some p => p | None => 0 end | None => 0 end).
  set (S := moved_structure sy o st j). set (oo := moved_offset sy o st j).
  set (xx := fun i => nth i X (0, 0)).
  assert (EX : forall i, (i < n)%nat -> nth_error X i = Some (xx i)) by (intros i Hi; apply nth_error_nth'; lia).
  assert (EV : forall t i, (i < n)%nat -> forall p d, fst (model (sy_ext sy) DFloat (S t) (oo t) flip [xx i]) = Ok ([p], [d]) <-> predicts sy (moved sy o st j t) (ob_model o) [xx i] [p] [d]).
  { intros t i Hi p d. unfold predicts, call_model. destruct (moved_setp sy o st j t WF) as [_ FL]. rewrite FL. fold flip. unfold S, oo, moved_structure, moved_offset.
    destruct (model _ _ _ _ _ _) as [r s]. reflexivity. }
  assert (O0 : oo 0 = off).
  { unfold oo, moved_offset, off. unfold moved. rewrite bump_zero. destruct (setp_restore sy o st st WF (frame_refl _ st)) as (st2 & E2 & SS & _).
    unfold present. rewrite E2. cbn [snd]. unfold value. rewrite SS. reflexivity. }
  assert (CH : forall i, (i < n)%nat -> exists pq : (R -> R) * (R -> R),
    locally 0 (fun t => fst (model (sy_ext sy) DFloat (S t) (oo t) flip [xx i]) = Ok ([Some (fst pq t)], [Some (snd pq t)])) /\
    ex_derive (fst pq) 0 /\ ex_derive (snd pq) 0 /\ off_corners off flip (md i) (snd pq 0)).
  { intros i Hi. destruct (nth_error sel i) as [x|] eqn:Ex; [|apply nth_error_None in Ex; unfold n in Hi; lia].
    destruct (nth_error psi i) as [p|] eqn:Ep; [|apply nth_error_None in Ep; lia].
    destruct (nth_error delta i) as [d|] eqn:Ed; [|apply nth_error_None in Ed; lia].
    destruct (F2_at _ _ _ ND i x d Ex Ed) as (m & v & Em & -> & RG).
    assert (M0 : fst (model (sy_ext sy) DFloat (S 0) (oo 0) flip [xx i]) = Ok ([p], [Some v])) by (apply EV; [exact Hi|]; apply (PT0 i); auto).
    assert (SM : smooth_point S (xx i)) by (apply (proj1 (List.Forall_forall _ _) HX); apply nth_error_In with i; apply EX; exact Hi).
    destruct (point_moves (sy_ext sy) S oo flip (xx i) p v SM HO M0) as (P & Q & L & D1 & D2 & _ & E2).
    { rewrite O0. apply RG. }
    exists (P, Q). cbn [fst snd]. split; [exact L|]. split; [exact D1|]. split; [exact D2|]. unfold md. rewrite Ex, Em. rewrite <- E2. exact RG. }
  destruct (finite_choice _ ((fun _ => 0), (fun _ => 0)) n CH) as [f Hf]. clear CH.
  exists (fun i t => if Nat.ltb i n then fst (f i) t - mp i else circular_distance (snd (f (i - n)%nat) t) (md (i - n)%nat) 360). split.
  - pose proof (locally_fin _ n (fun i Hi => proj1 (Hf i Hi))) as L. apply filter_imp with (2 := L). clear L. intros t L.
    destruct (moved_setp sy o st j t WF) as [E _].
    assert (PP : forall i, (i < n)%nat -> predicts sy (moved sy o st j t) (ob_model o) [xx i] [Some (fst (f i) t)] [Some (snd (f i) t)]) by (intros i Hi; apply EV; auto).
    destruct (call_model_from_points sy (ob_model o) X (moved sy o st j t)) as (psi' & delta' & CM).
    { intros x Hx. apply In_nth_error in Hx as [i Ei]. assert (Hi : (i < n)%nat) by (rewrite <- LX; apply nth_error_Some; congruence).
      rewrite (EX i Hi) in Ei. replace x with (xx i) by congruence. eauto. }
    destruct (call_model_points _ _ _ _ _ _ CM) as (L1' & L2' & PT').
    assert (UU : forall i, (i < n)%nat -> nth_error psi' i = Some (Some (fst (f i) t)) /\ nth_error delta' i = Some (Some (snd (f i) t))).
    { intros i Hi. destruct (nth_error psi' i) as [p|] eqn:Ep; [|apply nth_error_None in Ep; lia].
      destruct (nth_error delta' i) as [d|] eqn:Ed; [|apply nth_error_None in Ed; lia].
      pose proof (PT' i (xx i) p d (EX i Hi) Ep Ed) as Q1. pose proof (PP i Hi) as Q2. destruct (predicts_fun _ _ _ _ _ _ _ _ Q1 Q2) as [-> ->]. split; reflexivity. }
    rewrite (residuals_eq sy o _ st _ sel X psi' delta' HD E CM). f_equal.
    rewrite (list_seq psi' (fun i => Some (fst (f i) t)) n) by (try lia; intros i Hi; apply UU; exact Hi).
    rewrite (list_seq delta' (fun i => Some (snd (f i) t)) n) by (try lia; intros i Hi; apply UU; exact Hi).
    rewrite (list_seq (map p_psi sel) (fun i => Some (mp i)) n).
    2: { apply map_length. }
    2: { intros i Hi. destruct (nth_error sel i) as [x|] eqn:Ex; [|apply nth_error_None in Ex; unfold n in Hi; lia].
         rewrite (map_nth_error _ _ _ Ex). unfold mp. rewrite Ex. destruct (proj1 (List.Forall_forall _ _) NP x (nth_error_In _ _ Ex)) as [p ->]. reflexivity. }
    rewrite (list_seq (map p_delta sel) (fun i => Some (md i)) n).
    2: { apply map_length. }
    2: { intros i Hi. destruct (nth_error sel i) as [x|] eqn:Ex; [|apply nth_error_None in Ex; unfold n in Hi; lia].
         rewrite (map_nth_error _ _ _ Ex). unfold md. rewrite Ex. destruct (nth_error delta i) as [d|] eqn:Ed; [|apply nth_error_None in Ed; lia].
         destruct (F2_at _ _ _ ND i x d Ex Ed) as (m & v & -> & _). reflexivity. }
    rewrite !map2_map, two_maps. apply map_ext. intros i. destruct (Nat.ltb i n); reflexivity.
  - intros i Hi. destruct (Nat.ltb_spec i n) as [K|K].
    + destruct (Hf i K) as (_ & D & _). apply (ex_derive_minus (V := R_NormedModule)); [exact D|apply ex_derive_const].
    + destruct (Hf (i - n)%nat ltac:(lia)) as (_ & _ & D & RG). apply circ_diff_off; [exact D|apply RG|apply RG].
Qed.

Theorem jacobian_exists sy o st sel X psi delta : well_formed sy -> has_data sy o sel X -> predicts sy st (ob_model o) X psi delta ->
  let flip := nth (ob_model o) (st_flips st) false in
  let off := value sy st (mo_offset (the_model sy (ob_model o))) in
  List.Forall (fun x => exists p, p_psi x = Some p) sel ->
  Forall2 (fun x d => exists m v, p_delta x = Some m /\ d = Some v /\ off_corners off flip m v) sel delta ->
  (forall j, (j < List.length (varying_parameters sy o))%nat -> ex_derive (moved_offset sy o st j) 0 /\ List.Forall (smooth_point (moved_structure sy o st j)) X) ->
  exists J, partials (2 * List.length sel) (fun v => fst (residuals sy o (Some v) st)) (present sy o st) J.
Proof.
  intros WF HD HP flip off NP ND HJ. set (n := List.length (varying_parameters sy o)) in *. set (m := (2 * List.length sel)%nat).
  assert (LN : List.length (present sy o st) = n) by apply map_length.
  assert (CH : forall j, (j < n)%nat -> exists g : nat -> R -> R, locally 0 (fun t => fst (residuals sy o (Some (bump (present sy o st) j t)) st) = Ok (map (fun i => Some (g i t)) (seq 0 m))) /\
    forall i, (i < m)%nat -> ex_derive (g i) 0).
  { intros j Hj. destruct (HJ j Hj) as [H1 H2]. exact (column_exists sy o st sel X psi delta j WF HD HP NP ND H1 H2). }
  destruct (finite_choice _ (fun _ _ => 0) n CH) as [G HG]. clear CH.
  exists (matrix m n (fun i j => Derive (G j i) 0)). unfold partials. rewrite LN. split; [apply is_matrix_matrix|].
  exists (fun i j => G j i). split; [intros j Hj; apply (HG j Hj)|]. intros i j Hi Hj. rewrite entry_matrix by assumption. apply Derive_correct. apply (HG j Hj); exact Hi.
Qed.
