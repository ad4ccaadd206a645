(** * Proofs about ReflectModelSE.model and plot_structure *)

Require Import Reals List Bool ZArith String Lra Lia Sorting.Sorted Sorting.Permutation.
From Coquelicot Require Import Complex.
From Verif Require Import Base Cplx M_tmm P_tmm3 P_psidelta2 M_ema M_disp M_struct Spec_struct P_struct M_model.
Import ListNotations.
Open Scope list_scope.
Open Scope R_scope.

(** ** np.unique *)
Lemma insert_unique_In x y l : In y (insert_unique x l) <-> y = x \/ In y l.
Proof.
  induction l as [|z l IH]; simpl; [intuition|].
  destruct (Rlt_dec x z); simpl; [intuition|].
  destruct (Req_EM_T x z); simpl; [subst; intuition|]. rewrite IH. intuition.
Qed.
Lemma np_unique_In x l : In x (np_unique l) <-> In x l.
Proof.
  induction l as [|y l IH]; simpl; [tauto|]. fold (np_unique l). rewrite insert_unique_In, IH. intuition.
Qed.
Lemma insert_unique_sorted x l : StronglySorted Rlt l -> StronglySorted Rlt (insert_unique x l).
Proof.
  induction l as [|z l IH]; simpl; intros H; [repeat constructor|].
  inversion H; subst. destruct (Rlt_dec x z).
  - constructor; auto. constructor; auto. eapply Forall_impl; [|exact H3]. intros; simpl in *; lra.
  - destruct (Req_EM_T x z); auto. constructor; auto. rewrite Forall_forall in *.
    intros y Hy. apply insert_unique_In in Hy. destruct Hy as [->|Hy]; [lra|auto].
Qed.
Lemma np_unique_sorted l : StronglySorted Rlt (np_unique l).
Proof. induction l; simpl; [constructor|apply insert_unique_sorted; auto]. Qed.
Lemma sorted_NoDup l : StronglySorted Rlt l -> NoDup l.
Proof.
  induction 1; constructor; auto. intros Hin. rewrite Forall_forall in H0. apply H0 in Hin. lra.
Qed.
Lemma sorted_last_max l d : StronglySorted Rlt l -> forall x, In x l -> x <= last l d.
Proof.
  induction 1 as [|a l H IH F]; intros x Hx; [contradiction|].
  destruct l as [|b l]; [simpl in Hx; destruct Hx as [->|[]]; simpl; lra|].
  change (last (a :: b :: l) d) with (last (b :: l) d).
  destruct Hx as [->|Hx]; [|auto].
  assert (x < b) by (inversion F; auto). pose proof (IH b (or_introl eq_refl)). lra.
Qed.
Lemma last_In {A} (l : list A) d : l <> [] -> In (last l d) l.
Proof.
  induction l as [|a [|b l] IH]; intros H; [congruence|left; auto|].
  right. apply IH. discriminate.
Qed.

(** ** one wavelength *)
Lemma structure_slabs_state ext s : snd (structure_slabs ext s None) = s.
Proof.
  unfold structure_slabs. destruct (st_data s); auto. destruct (negb _); auto.
Qed.

Lemma set_wavelength_twice s a b : set_wavelength (set_wavelength s a) b = set_wavelength s b.
Proof. reflexivity. Qed.

Lemma one_wavelength_state ext s off flip wav aoi :
  snd (one_wavelength ext s off flip wav aoi) = set_wavelength s (Some wav).
Proof.
  unfold one_wavelength. pose proof (structure_slabs_state ext (set_wavelength s (Some wav))) as H.
  destruct (structure_slabs ext (set_wavelength s (Some wav)) None) as [[[rows|]|e] s']; simpl in *; auto.
Qed.

Lemma one_wavelength_forget ext s w off flip wav aoi :
  one_wavelength ext (set_wavelength s w) off flip wav aoi = one_wavelength ext s off flip wav aoi.
Proof. reflexivity. Qed.

(** converse of Delta_Psi_batch *)
Lemma Delta_Psi_from_points AOI layers w off refl : AOI <> [] ->
  (forall a, In a AOI -> exists x, fst (Delta_Psi_TMM [a] layers w off refl) = Ok [x]) ->
  exists res, fst (Delta_Psi_TMM AOI layers w off refl) = Ok res.
Proof.
  intros Hne H. unfold Delta_Psi_TMM in *. destruct layers as [|l0 rest].
  { destruct AOI as [|a AOI]; [congruence|]. destruct (H a) as [x Hx]; [left; auto|]. discriminate. }
  cbn [fst] in *. destruct (mapM l_ri (drop_k l0 :: rest)) as [RIs|].
  - set (pts := map (fun a => (a * (PI / 180), w)%R) AOI).
    assert (exists r, Forall2 (fun p a => coh_tmm RIs (thicks (drop_k l0 :: rest)) [p] = Ok [a]) pts r) as [r F].
    { unfold pts. clear Hne. induction AOI as [|a AOI IH]; [exists []; constructor|].
      destruct IH as [r F]; [intros b Hb; apply H; right; auto|].
      destruct (H a (or_introl eq_refl)) as [x Hx]. simpl map in Hx at 2.
      destruct (coh_tmm RIs (thicks (drop_k l0 :: rest)) [((a * (PI / 180))%R, w)]) as [res|e] eqn:E; [|discriminate].
      destruct res as [|y [|? ?]]; try discriminate.
      exists (y :: r). constructor; auto. }
    rewrite (coh_tmm_from_points _ _ pts r); [simpl; eauto| |exact F].
    unfold pts. destruct AOI; [congruence|discriminate].
  - destruct (l_ri l0).
    + destruct (List.length (l0 :: rest) <? 2)%nat eqn:E; [|eauto].
      destruct AOI as [|a AOI]; [congruence|]. destruct (H a (or_introl eq_refl)) as [x Hx]. discriminate.
    + destruct AOI as [|a AOI]; [congruence|]. destruct (H a (or_introl eq_refl)) as [x Hx]. discriminate.
Qed.

(** value of one point *)
Definition val ext s off flip (x : R * R) : option R * option R :=
  match fst (one_wavelength ext s off flip (fst x) [snd x]) with
  | Ok (v :: _) => v
  | _ => (None, None)
  end.
Definition fine ext s off flip (x : R * R) : Prop :=
  fst (one_wavelength ext s off flip (fst x) [snd x]) = Ok [val ext s off flip x].

Lemma one_wavelength_vals ext s off flip wav aoi vals :
  fst (one_wavelength ext s off flip wav aoi) = Ok vals ->
  vals = map (fun a => val ext s off flip (wav, a)) aoi /\
  Forall (fun a => fine ext s off flip (wav, a)) aoi.
Proof.
  intros H.
  assert (F : Forall2 (fun a x => fst (one_wavelength ext s off flip wav [a]) = Ok [x]) aoi vals).
  { unfold one_wavelength in *. destruct (structure_slabs ext (set_wavelength s (Some wav)) None) as [[[rows|]|e] s'];
      cbn [fst] in *; try discriminate.
    apply Delta_Psi_batch. exact H. }
  clear H. induction F as [|a x aoi vals Hx F [IH1 IH2]]; [split; auto|].
  assert (V : val ext s off flip (wav, a) = x) by (unfold val; cbn [fst snd]; rewrite Hx; reflexivity).
  split.
  - simpl. rewrite V, IH1. reflexivity.
  - constructor; auto. unfold fine. cbn [fst snd]. rewrite V. exact Hx.
Qed.

Lemma one_wavelength_ok ext s off flip wav aoi : aoi <> [] ->
  (forall a, In a aoi -> fine ext s off flip (wav, a)) ->
  exists vals, fst (one_wavelength ext s off flip wav aoi) = Ok vals.
Proof.
  intros Hne H. unfold fine, one_wavelength in *. cbn [fst snd] in *.
  destruct (structure_slabs ext (set_wavelength s (Some wav)) None) as [[[rows|]|e] s']; cbn [fst] in *.
  - apply Delta_Psi_from_points; auto. intros a Ha. specialize (H a Ha). eauto.
  - destruct aoi as [|a aoi]; [congruence|]. specialize (H a (or_introl eq_refl)). discriminate.
  - destruct aoi as [|a aoi]; [congruence|]. specialize (H a (or_introl eq_refl)). discriminate.
Qed.

(** ** the loop *)
Lemma put_spec t wav X : forall out f, List.length out = List.length X ->
  put t wav X out (map f (select wav X)) =
  map2 (fun x o => if Req_EM_T (fst x) wav then store t (f (snd x)) else o) X out.
Proof.
  unfold select. induction X as [|x X IH]; intros [|o out] f L; simpl in *; try lia; auto.
  destruct (Req_EM_T (fst x) wav); simpl; rewrite IH by lia; reflexivity.
Qed.

Lemma select_In wav X a : In a (select wav X) <-> In (wav, a) X.
Proof.
  unfold select. rewrite in_map_iff. split.
  - intros [[w b] [E H]]. apply filter_In in H. simpl in *. destruct H as [H1 H2].
    destruct (Req_EM_T w wav); [subst; auto|discriminate].
  - intros H. exists (wav, a). split; auto. apply filter_In. split; auto. simpl.
    destruct (Req_EM_T wav wav); congruence.
Qed.

Definition final_wavelength (s : structure) (wavs : list R) : structure :=
  match wavs with [] => s | _ => set_wavelength s (Some (last wavs 0)) end.

Lemma map2_compose {A B} (f g h : A -> B -> B) (l : list A) : forall m,
  (forall a b, In a l -> g a (f a b) = h a b) -> map2 g l (map2 f l m) = map2 h l m.
Proof.
  induction l as [|a l IH]; intros [|b m] H; simpl; auto.
  rewrite H by (left; auto). rewrite IH; auto. intros; apply H; right; auto.
Qed.

Definition overwrite ext s off flip t (wavs : list R) (pick : option R * option R -> option R) (X : list (R * R)) out :=
  map2 (fun x o => if in_dec Req_EM_T (fst x) wavs then store t (pick (val ext s off flip x)) else o) X out.

Lemma loop_ok ext t off flip X wavs : forall s psi delta, NoDup wavs ->
  List.length psi = List.length X -> List.length delta = List.length X ->
  (forall wav, In wav wavs -> exists vals, fst (one_wavelength ext s off flip wav (select wav X)) = Ok vals) ->
  model_loop ext t off flip X wavs s psi delta =
  (Ok (overwrite ext s off flip t wavs fst X psi, overwrite ext s off flip t wavs snd X delta),
   final_wavelength s wavs).
Proof.
  induction wavs as [|wav wavs IH]; intros s psi delta ND L1 L2 H.
  - simpl. unfold overwrite. f_equal. f_equal. 
    assert (E : forall l : list (option R), List.length l = List.length X ->
       forall pick, l = map2 (fun (x : R * R) o => if in_dec Req_EM_T (fst x) [] then store t (pick (val ext s off flip x)) else o) X l).
    { clear. induction X as [|x X IH]; intros [|o l] L pick; simpl in L; try lia; auto.
      cbn [map2]. destruct (in_dec Req_EM_T (fst x) []) as [[]|_]. f_equal. apply IH. lia. }
    f_equal; apply E; auto.
  - inversion ND; subst. cbn [model_loop].
    destruct (H wav (or_introl eq_refl)) as [vals Hv].
    pose proof (one_wavelength_state ext s off flip wav (select wav X)) as Hs.
    destruct (one_wavelength ext s off flip wav (select wav X)) as [r s'] eqn:E. cbn [fst snd] in *. subst r s'.
    assert (Hv' : fst (one_wavelength ext s off flip wav (select wav X)) = Ok vals) by (rewrite E; reflexivity).
    apply one_wavelength_vals in Hv'. destruct Hv' as [-> _].
    rewrite !map_map.
    rewrite IH.
    + f_equal.
      * f_equal. f_equal.
        -- unfold overwrite. rewrite put_spec by auto. apply map2_compose. intros x o Hx.
           change (val ext (set_wavelength s (Some wav)) off flip x) with (val ext s off flip x).
           destruct (Req_EM_T (fst x) wav) as [E1|E1].
           ++ destruct (in_dec Req_EM_T (fst x) wavs); [subst; contradiction|].
              destruct (in_dec Req_EM_T (fst x) (wav :: wavs)) as [?|N]; [|exfalso; apply N; left; auto].
              subst wav. destruct x; reflexivity.
           ++ destruct (in_dec Req_EM_T (fst x) wavs), (in_dec Req_EM_T (fst x) (wav :: wavs)) as [I|I]; auto.
              ** exfalso. apply I. right; auto.
              ** exfalso. destruct I; [congruence|contradiction].
        -- unfold overwrite. rewrite put_spec by auto. apply map2_compose. intros x o Hx.
           change (val ext (set_wavelength s (Some wav)) off flip x) with (val ext s off flip x).
           destruct (Req_EM_T (fst x) wav) as [E1|E1].
           ++ destruct (in_dec Req_EM_T (fst x) wavs); [subst; contradiction|].
              destruct (in_dec Req_EM_T (fst x) (wav :: wavs)) as [?|N]; [|exfalso; apply N; left; auto].
              subst wav. destruct x; reflexivity.
           ++ destruct (in_dec Req_EM_T (fst x) wavs), (in_dec Req_EM_T (fst x) (wav :: wavs)) as [I|I]; auto.
              ** exfalso. apply I. right; auto.
              ** exfalso. destruct I; [congruence|contradiction].
      * destruct wavs; [reflexivity|]. unfold final_wavelength. rewrite set_wavelength_twice. reflexivity.
    + auto.
    + rewrite put_spec by auto. rewrite map2_length. lia.
    + rewrite put_spec by auto. rewrite map2_length. lia.
    + intros w Hw. rewrite one_wavelength_forget. apply H. right; auto.
Qed.

Lemma loop_inv ext t off flip X wavs : forall s psi delta r s',
  model_loop ext t off flip X wavs s psi delta = (Ok r, s') ->
  forall wav, In wav wavs -> exists vals, fst (one_wavelength ext s off flip wav (select wav X)) = Ok vals.
Proof.
  induction wavs as [|w wavs IH]; intros s psi delta r s' H wav Hw; [contradiction|].
  cbn [model_loop] in H. pose proof (one_wavelength_state ext s off flip w (select w X)) as Hs.
  destruct (one_wavelength ext s off flip w (select w X)) as [[vals|e] s1] eqn:E; [|discriminate].
  cbn [snd] in Hs. subst s1. destruct Hw as [->|Hw].
  - exists vals. rewrite E. reflexivity.
  - destruct (IH _ _ _ _ _ H wav Hw) as [v Hv]. rewrite one_wavelength_forget in Hv. eauto.
Qed.

Lemma loop_raise ext t off flip X wavs : forall s psi delta e s',
  model_loop ext t off flip X wavs s psi delta = (Raise e, s') ->
  exists wav, In wav wavs /\ fst (one_wavelength ext s off flip wav (select wav X)) = Raise e /\
    s' = set_wavelength s (Some wav).
Proof.
  induction wavs as [|w wavs IH]; intros s psi delta e s' H; [discriminate|].
  cbn [model_loop] in H. pose proof (one_wavelength_state ext s off flip w (select w X)) as Hs.
  destruct (one_wavelength ext s off flip w (select w X)) as [[vals|e1] s1] eqn:E; cbn [snd] in Hs; subst s1.
  - destruct (IH _ _ _ _ _ H) as [wav [H1 [H2 H3]]]. exists wav. split; [right; auto|].
    rewrite one_wavelength_forget in H2. rewrite set_wavelength_twice in H3. auto.
  - exists w. split; [left; auto|]. rewrite E. cbn [fst]. split; congruence.
Qed.

Lemma overwrite_all ext s off flip t wavs pick X n :
  (forall x, In x X -> In (fst x) wavs) -> n = List.length X ->
  overwrite ext s off flip t wavs pick X (repeat (Some 0) n) =
  map (fun x => store t (pick (val ext s off flip x))) X.
Proof.
  intros H ->. unfold overwrite. induction X as [|x X IH]; simpl; auto.
  destruct (in_dec Req_EM_T (fst x) wavs) as [I|I].
  - f_equal. apply IH. intros y Hy. apply H. right; auto.
  - exfalso. apply I. apply H. left; auto.
Qed.

Theorem model_value ext t s off flip X : (forall x, In x X -> fine ext s off flip x) ->
  model ext t s off flip X =
  (Ok (map (fun x => store t (fst (val ext s off flip x))) X,
       map (fun x => store t (snd (val ext s off flip x))) X),
   final_wavelength s (np_unique (map fst X))).
Proof.
  intros H. unfold model. rewrite loop_ok.
  - rewrite !overwrite_all; auto; intros x Hx; rewrite np_unique_In; apply in_map; auto.
  - apply sorted_NoDup, np_unique_sorted.
  - apply repeat_length.
  - apply repeat_length.
  - intros wav Hw. rewrite np_unique_In in Hw. apply in_map_iff in Hw. destruct Hw as [[w a] [E Hx]]. simpl in E. subst w.
    apply one_wavelength_ok.
    + intros E. assert (In a (select wav X)) by (apply select_In; auto). rewrite E in *. contradiction.
    + intros b Hb. apply select_In in Hb. apply H. auto.
Qed.

Theorem model_fine ext t s off flip X r s' : model ext t s off flip X = (Ok r, s') ->
  forall x, In x X -> fine ext s off flip x.
Proof.
  intros H [w a] Hx. unfold model in H.
  destruct (loop_inv _ _ _ _ _ _ _ _ _ _ _ H w) as [vals Hv].
  - rewrite np_unique_In; apply in_map_iff. exists (w, a). auto.
  - apply one_wavelength_vals in Hv. destruct Hv as [_ F]. rewrite Forall_forall in F.
    apply F. apply select_In. auto.
Qed.

Lemma model_single ext s off flip x : fine ext s off flip x ->
  model ext DFloat s off flip [x] =
  (Ok ([fst (val ext s off flip x)], [snd (val ext s off flip x)]), set_wavelength s (Some (fst x))).
Proof.
  intros H. rewrite model_value by (intros y [<-|[]]; auto). reflexivity.
Qed.

Lemma model_single_inv ext s off flip x p d s' : model ext DFloat s off flip [x] = (Ok ([p], [d]), s') ->
  fine ext s off flip x /\ val ext s off flip x = (p, d).
Proof.
  intros H. assert (F : fine ext s off flip x) by (eapply model_fine; [exact H|left; auto]).
  split; auto. rewrite model_single in H by auto. destruct (val ext s off flip x). simpl in H. congruence.
Qed.

(** ** C13 *)
Lemma batch_pointwise ext s off flip X psi delta s' :
  model ext DFloat s off flip X = (Ok (psi, delta), s') ->
  Forall2 (fun x pd => fst (model ext DFloat s off flip [x]) = Ok ([fst pd], [snd pd])) X (combine psi delta) /\
  List.length psi = List.length X /\ List.length delta = List.length X.
Proof.
  intros H. assert (F := model_fine _ _ _ _ _ _ _ _ H). rewrite model_value in H by auto.
  assert (psi = map (fun x => fst (val ext s off flip x)) X) as -> by (simpl in H; congruence).
  assert (delta = map (fun x => snd (val ext s off flip x)) X) as -> by (simpl in H; congruence).
  rewrite !map_length. split; auto. clear H.
  induction X as [|x X IH]; simpl; constructor.
  - rewrite model_single by (apply F; left; auto). reflexivity.
  - apply IH. intros y Hy. apply F. right; auto.
Qed.

Lemma batch_from_points ext s off flip X pds :
  Forall2 (fun x pd => fst (model ext DFloat s off flip [x]) = Ok ([fst pd], [snd pd])) X pds ->
  fst (model ext DFloat s off flip X) = Ok (map fst pds, map snd pds).
Proof.
  intros H.
  assert (G : Forall2 (fun x pd => fine ext s off flip x /\ val ext s off flip x = pd) X pds).
  { eapply F2_impl; [|exact H]. intros x [p d] E. cbn [fst snd] in E.
    destruct (model ext DFloat s off flip [x]) as [r s'] eqn:Em. simpl in E. subst r.
    apply model_single_inv in Em. auto. }
  rewrite model_value.
  - cbn [fst]. f_equal. simpl. clear H. induction G as [|x pd X pds [_ E] G IH]; simpl; auto.
    assert (E1 := f_equal (@fst _ _) IH). assert (E2 := f_equal (@snd _ _) IH). simpl in E1, E2.
    rewrite E1, E2, E. reflexivity.
  - clear H. induction G as [|x pd X pds [E _] G IH]; intros y Hy; [contradiction|].
    destruct Hy as [<-|Hy]; auto.
Qed.

Lemma batch_permutation ext s off flip X X' psi delta s' : Permutation X X' ->
  model ext DFloat s off flip X = (Ok (psi, delta), s') ->
  exists psi' delta' s'', model ext DFloat s off flip X' = (Ok (psi', delta'), s'') /\ s'' = s' /\
  Permutation (combine X (combine psi delta)) (combine X' (combine psi' delta')).
Proof.
  intros P H. assert (F := model_fine _ _ _ _ _ _ _ _ H).
  assert (F' : forall x, In x X' -> fine ext s off flip x).
  { intros x Hx. apply F. eapply Permutation_in; [apply Permutation_sym; exact P|auto]. }
  rewrite model_value in H by auto. rewrite model_value by auto.
  do 3 eexists. split; [reflexivity|].
  assert (psi = map (fun x => fst (val ext s off flip x)) X) as -> by (simpl in H; congruence).
  assert (delta = map (fun x => snd (val ext s off flip x)) X) as -> by (simpl in H; congruence).
  split.
  - assert (E : np_unique (map fst X') = np_unique (map fst X)); [|rewrite E; congruence].
    assert (S1 := np_unique_sorted (map fst X)). assert (S2 := np_unique_sorted (map fst X')).
    assert (I : forall x, In x (np_unique (map fst X')) <-> In x (np_unique (map fst X))).
    { intros x. rewrite !np_unique_In. split; apply Permutation_in; apply Permutation_map; auto using Permutation_sym. }
    revert S1 S2 I. generalize (np_unique (map fst X')) (np_unique (map fst X)). clear.
    intros l m Sm Sl. revert m Sm. induction Sl as [|a l Sl IH Fl]; intros m Sm I.
    + destruct m as [|b m]; auto. exfalso. apply (proj2 (I b)). left; auto.
    + destruct m as [|b m]; [exfalso; apply (proj1 (I a)); left; auto|].
      inversion Sm; subst. rewrite Forall_forall in *.
      assert (a = b).
      { destruct (proj1 (I a) (or_introl eq_refl)) as [E|E]; auto.
        destruct (proj2 (I b) (or_introl eq_refl)) as [E'|E']; auto.
        apply H2 in E. apply Fl in E'. lra. }
      subst b. f_equal. apply IH; auto. intros x. specialize (I x). simpl in I. split; intros Hx.
      * destruct (proj1 I (or_intror Hx)) as [E|E]; auto. subst. apply Fl in Hx. lra.
      * destruct (proj2 I (or_intror Hx)) as [E|E]; auto. subst. apply H2 in Hx. lra.
  - assert (E : forall l, combine l (combine (map (fun x => fst (val ext s off flip x)) l) (map (fun x => snd (val ext s off flip x)) l))
         = map (fun x => (x, val ext s off flip x)) l).
    { induction l as [|x l IH]; simpl; auto. rewrite IH. destruct (val ext s off flip x); reflexivity. }
    cbn [store]. rewrite !E. apply Permutation_map. auto.
Qed.

(** ** C14 *)
Lemma int_truncates ext nan s off flip X :
  model ext (DInt nan) s off flip X =
  match model ext DFloat s off flip X with
  | (Ok (psi, delta), s') => (Ok (map (store (DInt nan)) psi, map (store (DInt nan)) delta), s')
  | (Raise e, s') => (Raise e, s')
  end.
Proof.
  destruct (model ext DFloat s off flip X) as [[[psi delta]|e] s'] eqn:E.
  - assert (F := model_fine _ _ _ _ _ _ _ _ E). rewrite model_value in E by auto. rewrite model_value by auto.
    assert (psi = map (fun x => fst (val ext s off flip x)) X) as -> by (simpl in E; congruence).
    assert (delta = map (fun x => snd (val ext s off flip x)) X) as -> by (simpl in E; congruence).
    rewrite !map_map. congruence.
  - unfold model in *.
    generalize dependent E. generalize (repeat (@Some R 0) (List.length X)) at 1 2 as p1.
    generalize (repeat (@Some R 0) (List.length X)) as p2.
    generalize (np_unique (map fst X)). clear. intros l.
    assert (G : forall s psi delta psi' delta', model_loop ext DFloat off flip X l s psi delta = (Raise e, s') ->
       model_loop ext (DInt nan) off flip X l s psi' delta' = (Raise e, s')).
    { induction l as [|w l IH]; intros s0 psi delta psi' delta' H; [discriminate|].
      cbn [model_loop] in *. destruct (one_wavelength ext s0 off flip w (select w X)) as [[v|e1] s1].
      - eapply IH. exact H.
      - exact H. }
    intros p2 p1 H. eapply G. exact H.
Qed.

(** ** C15 *)
Lemma model_forgets ext t s w off flip X :
  fst (model ext t (set_wavelength s w) off flip X) = fst (model ext t s off flip X) /\
  (X <> [] -> snd (model ext t (set_wavelength s w) off flip X) = snd (model ext t s off flip X)).
Proof.
  unfold model. set (z := repeat (Some 0) (List.length X)).
  assert (U : X <> [] -> np_unique (map fst X) <> []).
  { intros H E. destruct X as [|x X]; [congruence|].
    assert (In (fst x) (np_unique (map fst (x :: X)))) by (apply (proj2 (np_unique_In _ _)); left; auto).
    rewrite E in *. contradiction. }
  destruct (np_unique (map fst X)) as [|w0 wavs].
  - simpl. split; auto. intros H. exfalso. apply U; auto.
  - cbn [model_loop]. rewrite one_wavelength_forget. split; reflexivity.
Qed.

Lemma model_leaves ext t s off flip X r s' : model ext t s off flip X = (Ok r, s') ->
  (X = [] -> s' = s) /\
  (X <> [] -> exists w a, In (w, a) X /\ (forall w' a', In (w', a') X -> w' <= w) /\ s' = set_wavelength s (Some w)).
Proof.
  intros H. assert (F := model_fine _ _ _ _ _ _ _ _ H). rewrite model_value in H by auto.
  assert (s' = final_wavelength s (np_unique (map fst X))) as -> by congruence.
  split.
  - intros ->. reflexivity.
  - intros Hne. set (u := np_unique (map fst X)).
    assert (Hu : u <> []).
    { intros E. destruct X as [|x X]; [congruence|].
      assert (In (fst x) u) by (apply (proj2 (np_unique_In _ _)); left; auto). rewrite E in *. contradiction. }
    assert (Hl : In (last u 0) (map fst X)) by (apply (proj1 (np_unique_In _ _)); apply last_In; auto).
    apply in_map_iff in Hl. destruct Hl as [[w a] [E Hl]]. simpl in E.
    exists w, a. split; auto. split.
    + intros w' a' Hx. rewrite E. apply sorted_last_max; [apply np_unique_sorted|].
      unfold u; rewrite np_unique_In; apply in_map_iff. exists (w', a'). auto.
    + unfold final_wavelength. destruct u eqn:Eu; [congruence|]. rewrite E. reflexivity.
Qed.

Lemma model_raises ext t s off flip X e s' : model ext t s off flip X = (Raise e, s') ->
  exists w a, In (w, a) X /\ s' = set_wavelength s (Some w).
Proof.
  intros H. apply loop_raise in H. destruct H as [w [H1 [_ H3]]].
  rewrite np_unique_In in H1; apply in_map_iff in H1. destruct H1 as [[w' a] [E H]]. simpl in E. subst. eauto.
Qed.

(** ** C81 *)
Lemma plot_loop_spec ext wavs : forall s cs s', plot_loop ext s wavs = (Ok cs, s') ->
  Forall2 (fun w c => ri_profile ext (set_wavelength s (Some w)) None 0 = Ok c) wavs cs /\
  s' = final_wavelength s wavs.
Proof.
  induction wavs as [|w wavs IH]; intros s cs s' H; cbn [plot_loop] in H.
  - split; [|simpl; congruence]. assert (cs = []) as -> by congruence. constructor.
  - destruct (ri_profile ext (set_wavelength s (Some w)) None 0) as [c|] eqn:E; [|discriminate].
    destruct (plot_loop ext (set_wavelength s (Some w)) wavs) as [[cs'|] s1] eqn:E2; [|discriminate].
    destruct (IH _ _ _ E2) as [F ->].
    assert (cs = c :: cs') as -> by congruence. split.
    + constructor; auto.
    + assert (s' = final_wavelength (set_wavelength s (Some w)) wavs) as -> by congruence.
      destruct wavs; reflexivity.
Qed.

Lemma plot_spec ext s data reverse cs s' : plot_structure ext s data reverse = (Ok cs, s') ->
  Forall2 (fun w c => ri_profile ext (set_wavelength (set_reverse s reverse) (Some w)) None 0 = Ok c)
          (plotted_wavelengths data) cs /\
  s' = set_reverse (final_wavelength s (plotted_wavelengths data)) false.
Proof.
  unfold plot_structure. intros H.
  destruct (plot_loop ext (set_reverse s reverse) (plotted_wavelengths data)) as [[cs'|] s1] eqn:E; [|discriminate].
  apply plot_loop_spec in E. destruct E as [F ->].
  assert (cs = cs') as -> by congruence. split; auto.
  assert (s' = set_reverse (final_wavelength (set_reverse s reverse) (plotted_wavelengths data)) false) as -> by congruence.
  destruct (plotted_wavelengths data); reflexivity.
Qed.
