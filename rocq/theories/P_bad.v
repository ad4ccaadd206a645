(** * Proofs about refused input *)

Require Import Reals ZArith Lia Lra List Bool String Ascii.
From Coquelicot Require Import Complex.
From Verif Require Import Base M_ema M_disp M_data Spec_data M_ep4 M_instr Spec_instr P_instr P_instr2 P_instr3 Spec_bad.
From Verif Require Import Spec_nested P_nested.
Import ListNotations.
Open Scope list_scope.
Open Scope R_scope.

Lemma mapR_raise {A B} (f : A -> result B) good i more e vs :
  mapR f good = Ok vs -> f i = Raise e -> mapR f (good ++ i :: more) = Raise e.
Proof.
  revert vs. induction good as [|g good IH]; intros vs H E; cbn [app mapR].
  - rewrite E. reflexivity.
  - cbn [mapR] in H. destruct (f g) as [b|x]; [|discriminate]. cbn [rbind] in H |- *.
    destruct (mapR f good) as [bs|x] eqn:Em; [|discriminate]. rewrite (IH bs eq_refl E). reflexivity.
Qed.
Lemma float_refused pf fs i e :
  (nth_error fs i = None /\ e = IndexError \/ exists t, nth_error fs i = Some t /\ pf t = None /\ e = ValueError) ->
  float_at pf fs i = Raise e.
Proof.
  unfold float_at. intros [(E & ->) | (t & E & P & ->)]; rewrite E; [reflexivity|]. rewrite P. reflexivity.
Qed.
Lemma floats_refused pf fs is e : refused pf fs is e -> floats_at pf fs is = Raise e.
Proof.
  intros (good & i & more & vs & -> & N & E). unfold floats_at. apply mapR_raise with vs.
  - apply floats_numbers. exact N.
  - apply float_refused. exact E.
Qed.
Lemma line_refused pf l is e : refused_line pf l is e -> floats_at pf (split tab l) is = Raise e.
Proof. intros (fs & F & K). rewrite (split_fields _ _ _ F). apply floats_refused. exact K. Qed.
Lemma line_good pf l is : good_line pf l is -> exists vs, floats_at pf (split tab l) is = Ok vs.
Proof. intros (fs & vs & F & N). exists vs. rewrite (split_fields _ _ _ F). apply floats_numbers. exact N. Qed.

(** ** M2000 *)
Lemma split_not_free c s : ~ free c s -> List.length (split c s) <> 1%nat.
Proof.
  assert (P : forall s, (0 < List.length (split c s))%nat).
  { intros t. induction t as [|x t IH]; cbn [split]; [cbn; lia|].
    destruct (Ascii.eqb x c); cbn [List.length]; [lia|]. destruct (split c t); cbn [List.length] in *; lia. }
  induction s as [|x s IH]; intros N; [contradict N; exact Logic.I|].
  cbn [split]. destruct (Ascii.eqb x c) eqn:E.
  - pose proof (P s). cbn [List.length]. lia.
  - assert (N' : ~ free c s).
    { intros F. apply N. split; [|exact F]. intros ->. rewrite Ascii.eqb_refl in E. discriminate. }
    specialize (IH N'). pose proof (P s). destruct (split c s); cbn [List.length] in *; lia.
Qed.
Lemma loop_refused pf ls e fuel : refused_record pf ls e -> m2000_loop pf fuel ls = Raise e.
Proof.
  destruct ls as [|l1 ls]; [contradiction|]. intros (F & K).
  assert (L : Nat.eqb (List.length (split tab l1)) 1 = false) by (apply Nat.eqb_neq, split_not_free, F).
  destruct fuel; cbn [m2000_loop readline]; rewrite L.
  all: destruct K as [K | (G & K)]; [rewrite (line_refused _ _ _ _ K); reflexivity|].
  all: destruct (line_good _ _ _ G) as (vs & ->); cbn [rbind].
  all: destruct ls as [|l2 ls]; [subst e; reflexivity|]; cbn [readline].
  all: destruct K as [K | (G2 & K)]; [rewrite (line_refused _ _ _ _ K); reflexivity|].
  all: destruct (line_good _ _ _ G2) as (vs2 & ->); cbn [rbind].
  all: destruct ls as [|l3 ls]; [subst e; reflexivity|]; cbn [readline].
  all: rewrite (line_refused _ _ _ _ K); reflexivity.
Qed.
Lemma loop_then pf recs pts ls e : Forall2 (record pf) recs pts -> refused_record pf ls e -> forall fuel,
  (List.length recs <= fuel)%nat -> m2000_loop pf fuel (List.concat recs ++ ls) = Raise e.
Proof.
  intros H He. induction H as [|r x recs pts Hr H IH]; intros fuel Hf.
  { apply loop_refused. exact He. }
  destruct Hr as (l1 & l2 & l3 & f1 & f2 & f3 & e1 & e2 & v2 & v3 & -> & F1 & F2 & F3 & N1 & N2 & N3).
  destruct fuel as [|fuel]; [simpl in Hf; lia|].
  cbn [List.concat app m2000_loop readline]. rewrite (split_fields _ _ _ F1).
  pose proof (numbers_len _ _ _ _ 5%nat N1) as L.
  assert (List.length f1 <> 1)%nat as L1 by (specialize (L ltac:(simpl; auto 7)); lia).
  destruct (Nat.eqb_spec (List.length f1) 1); [contradiction|].
  rewrite (floats_numbers _ _ _ _ N1). cbn [rbind].
  rewrite (split_fields _ _ _ F2), (floats_numbers _ _ _ _ N2). cbn [rbind].
  rewrite (split_fields _ _ _ F3), (floats_numbers _ _ _ _ N3). cbn [rbind].
  rewrite IH by (simpl in Hf; lia). reflexivity.
Qed.
Lemma standard_refused pf d skip pre recs pts ls e : Forall2 (record pf) recs pts -> refused_record pf ls e ->
  List.length pre = skip -> M2000_standard pf d skip (pre ++ List.concat recs ++ ls) = Raise e.
Proof.
  intros H He Hs. unfold M2000_standard. rewrite <- Hs, skipn_app, skipn_all, Nat.sub_diag. cbn [skipn app].
  rewrite (loop_then pf recs pts ls e H He); [reflexivity|].
  rewrite !app_length, (concat_records_len _ _ _ H). lia.
Qed.
Theorem m2000_refused pf te d l0 l1 kvs recs pts ls e table :
  vase_line kvs l1 -> Forall2 (record pf) recs pts -> refused_record pf ls e ->
  open_M2000file pf (ByName (l0 :: l1 :: ("nm" ++ newline)%string :: List.concat recs ++ ls)) table te d = Raise e.
Proof.
  intros Hh H He. unfold open_M2000file. cbn [readline]. rewrite nm_line.
  change (String.eqb "nm" "nm") with true. cbv iota.
  rewrite (header_ok _ _ Hh). cbn [rbind].
  pose proof (standard_refused pf d 3 [l0; l1; ("nm" ++ newline)%string] recs pts ls e H He eq_refl) as E.
  cbn [app] in E. rewrite E. reflexivity.
Qed.

(** ** FilmSense *)
Lemma block_refused {A} pf is (P : string -> A -> Prop) ls xs l rest e n :
  (forall l x, P l x -> exists r, floats_at pf (split tab l) is = Ok r) -> Forall2 P ls xs ->
  refused_line pf l is e -> (List.length ls < n)%nat -> fs_block pf is n (ls ++ l :: rest) = Raise e.
Proof.
  intros H F B. revert n. induction F as [|g x ls xs Hl F IH]; intros [|n] L; try (cbn [List.length] in L; lia).
  - cbn [fs_block app readline]. rewrite (line_refused _ _ _ _ B). reflexivity.
  - destruct (H _ _ Hl) as (r & Er). cbn [fs_block app readline]. rewrite Er. cbn [rbind].
    rewrite IH by (cbn [List.length] in L; lia). reflexivity.
Qed.
Lemma wave_reads pf l w : fs_wave pf l w -> exists r, floats_at pf (split tab l) [0; 1; 2; 3]%nat = Ok r.
Proof.
  intros (fs & v1 & v2 & v3 & F1 & N1). eexists. rewrite (split_fields _ _ _ F1). apply floats_numbers. eauto.
Qed.
Lemma ncs_reads pf l pd : fs_ncs pf l pd -> exists r, floats_at pf (split tab l) [0; 1; 2; 3; 4]%nat = Ok r.
Proof.
  intros (fs & N & Cc & S & v3 & v4 & F1 & N1 & _). eexists. rewrite (split_fields _ _ _ F1). apply floats_numbers. eauto.
Qed.
Theorem fs_wave_refused pf pi (dyn : bool) head wls ws l rest W T aoi e :
  fs_head pf pi (if dyn then [3] else [3; 4; 5])%nat head W T aoi -> Forall2 (fs_wave pf) wls ws ->
  (List.length wls < W)%nat -> refused_line pf l [0; 1; 2; 3]%nat e ->
  open_FilmSenseFile pf pi (((if dyn then "Film_Sense_Dyn_Data" else "Film_Sense_Data") ++ newline)%string :: head :: wls ++ l :: rest) = Raise e.
Proof.
  intros Hh Hw L B. unfold open_FilmSenseFile.
  pose proof (block_refused pf [0; 1; 2; 3]%nat (fs_wave pf) wls ws l rest e W (wave_reads pf) Hw B L) as E.
  destruct dyn; cbn [readline].
  - change (String.eqb ("Film_Sense_Dyn_Data" ++ newline) ("Film_Sense_Data" ++ newline)) with false.
    rewrite String.eqb_refl. unfold fs_dynamic. cbn [readline]. rewrite (head_ok pf pi true _ _ _ _ Hh). cbn [rbind].
    rewrite E. reflexivity.
  - rewrite String.eqb_refl. unfold fs_standard. cbn [readline]. rewrite (head_ok pf pi false _ _ _ _ Hh). cbn [rbind].
    rewrite E. reflexivity.
Qed.
Theorem fs_ncs_refused pf pi head wls ws nls pds l rest W T aoi e :
  fs_head pf pi [3; 4; 5]%nat head W T aoi -> Forall2 (fs_wave pf) wls ws -> List.length wls = W ->
  Forall2 (fs_ncs pf) nls pds -> (List.length nls < W)%nat -> refused_line pf l [0; 1; 2; 3; 4]%nat e ->
  open_FilmSenseFile pf pi (("Film_Sense_Data" ++ newline)%string :: head :: wls ++ nls ++ l :: rest) = Raise e.
Proof.
  intros Hh Hw L1 Hn L2 B. unfold open_FilmSenseFile. cbn [readline]. rewrite String.eqb_refl.
  unfold fs_standard. cbn [readline]. rewrite (head_ok pf pi false _ _ _ _ Hh). cbn [rbind].
  destruct (waves_ok pf wls ws (nls ++ l :: rest) Hw) as (rows & E & Ew). rewrite L1 in E. rewrite E. cbn [rbind].
  rewrite (block_refused pf [0; 1; 2; 3; 4]%nat (fs_ncs pf) nls pds l rest e W (ncs_reads pf) Hn B L2). reflexivity.
Qed.

(** a time step *)
Lemma points_refused pf fs e i : (forall k, (k < i)%nat -> exists v, float_at pf fs k = Ok v) -> float_at pf fs i = Raise e ->
  forall n k, (5 * k + 1 <= i)%nat -> (i <= 5 * (k + n))%nat -> mapR (fs_point pf fs) (seq k n) = Raise e.
Proof.
  intros G B. induction n as [|n IH]; intros k L1 L2; [lia|].
  cbn [seq mapR]. unfold fs_point at 1, floats_at. cbn [map mapR].
  assert (S : forall j, (j <= 5)%nat -> (j = 0)%nat \/ (i < k * 5 + j)%nat \/ (i = k * 5 + j)%nat \/ (k * 5 + j < i)%nat) by lia.
  assert (D : forall j, (i = k * 5 + j)%nat -> float_at pf fs (k * 5 + j) = Raise e) by (intros j <-; exact B).
  assert (Go : forall j, (k * 5 + j < i)%nat -> exists v, float_at pf fs (k * 5 + j) = Ok v) by (intros; apply G; lia).
  destruct (Nat.eq_dec i (k * 5 + 1)) as [E|N1]; [rewrite (D _ E); reflexivity|].
  destruct (Go 1%nat ltac:(lia)) as (v1 & ->). cbn [rbind].
  destruct (Nat.eq_dec i (k * 5 + 2)) as [E|N2]; [rewrite (D _ E); reflexivity|].
  destruct (Go 2%nat ltac:(lia)) as (v2 & ->). cbn [rbind].
  destruct (Nat.eq_dec i (k * 5 + 3)) as [E|N3]; [rewrite (D _ E); reflexivity|].
  destruct (Go 3%nat ltac:(lia)) as (v3 & ->). cbn [rbind].
  destruct (Nat.eq_dec i (k * 5 + 4)) as [E|N4]; [rewrite (D _ E); reflexivity|].
  destruct (Go 4%nat ltac:(lia)) as (v4 & ->). cbn [rbind].
  destruct (Nat.eq_dec i (k * 5 + 5)) as [E|N5]; [rewrite (D _ E); reflexivity|].
  destruct (Go 5%nat ltac:(lia)) as (v5 & ->). cbn [rbind rmap].
  rewrite IH by lia. reflexivity.
Qed.
Lemma seq_split n : forall a good i more, seq a n = good ++ i :: more ->
  i = (a + List.length good)%nat /\ (i < a + n)%nat /\ forall k, (a <= k < i)%nat -> In k good.
Proof.
  induction n as [|n IH]; intros a good i more E; [destruct good; discriminate|].
  cbn [seq] in E. destruct good as [|g good]; cbn [app] in E.
  - assert (a = i) by congruence. subst i. cbn [List.length]. split; [lia|]. split; [lia|]. intros; lia.
  - assert (a = g) by congruence. subst g. assert (E' : seq (S a) n = good ++ i :: more) by congruence.
    destruct (IH _ _ _ _ E') as (A & B & D). cbn [List.length]. split; [lia|]. split; [lia|].
    intros k K. destruct (Nat.eq_dec a k) as [->|]; [left; reflexivity|]. right. apply D. lia.
Qed.
Lemma step_refused pf l W wavs aoi n ls d e fs c c' :
  l = (join tab fs ++ String c (String c' EmptyString))%string -> Forall (free tab) fs -> fs <> [] ->
  refused pf fs (seq 0 (5 * W + 1)) e -> fs_times pf W wavs aoi (S n) (l :: ls) d = Raise e.
Proof.
  intros -> F N (good & i & more & vs & E & G & B).
  destruct (seq_split _ _ _ _ _ E) as (_ & Li & Lk). cbn [fs_times readline]. rewrite chop2, split_join by auto.
  pose proof (float_refused _ _ _ _ B) as Fi.
  assert (Fk : forall k, (k < i)%nat -> exists v, float_at pf fs k = Ok v).
  { intros k K. specialize (Lk k ltac:(lia)). clear - G Lk. unfold numbers in G. revert vs G.
    induction good as [|g good IH]; intros vs G; [contradiction|]. inversion G as [|? v ? vs' (t & T & P) G']; subst.
    destruct Lk as [->|K]; [|apply (IH K vs' G')]. exists v. unfold float_at. rewrite T, P. reflexivity. }
  destruct i as [|i]; [rewrite Fi; reflexivity|].
  destruct (Fk 0%nat ltac:(lia)) as (t & ->). cbn [rbind].
  rewrite (points_refused pf fs e (S i) Fk Fi) by lia. reflexivity.
Qed.
Lemma times_refused pf W wavs aoi sls tps l ls e fs c c' :
  l = (join tab fs ++ String c (String c' EmptyString))%string -> Forall (free tab) fs -> fs <> [] ->
  refused pf fs (seq 0 (5 * W + 1)) e ->
  Forall2 (fun l tp => fs_step pf l (fst tp) (snd tp)) sls tps -> Forall (fun tp => List.length (snd tp) = W) tps ->
  forall n d, (List.length sls < n)%nat -> fs_times pf W wavs aoi n (sls ++ l :: ls) d = Raise e.
Proof.
  intros El F N B H. induction H as [|s tp sls tps Hs H IH]; intros HW n d L.
  - destruct n as [|n]; [cbn in L; lia|]. cbn [app]. eapply step_refused; eauto.
  - destruct n as [|n]; [cbn in L; lia|]. inversion HW as [|? ? W1 W2].
    destruct (step_ok pf s _ _ n _ Hs W1 wavs aoi (sls ++ l :: ls) d) as (ncs & _ & E). cbn [app]. rewrite E.
    apply IH; [exact W2|]. cbn [List.length] in L. lia.
Qed.
Theorem fs_step_refused pf pi head wls ws heading sls tps W T aoi l rest e fs c c' :
  fs_head pf pi [3]%nat head W T aoi -> Forall2 (fs_wave pf) wls ws -> List.length wls = W ->
  Forall2 (fun l tp => fs_step pf l (fst tp) (snd tp)) sls tps -> Forall (fun tp => List.length (snd tp) = W) tps ->
  (List.length sls < T)%nat ->
  l = (join tab fs ++ String c (String c' EmptyString))%string -> Forall (free tab) fs -> fs <> [] ->
  refused pf fs (seq 0 (5 * W + 1)) e ->
  open_FilmSenseFile pf pi (("Film_Sense_Dyn_Data" ++ newline)%string :: head :: wls ++ heading :: sls ++ l :: rest) = Raise e.
Proof.
  intros Hh Hw L1 Hs HW L2 El F N B. unfold open_FilmSenseFile. cbn [readline].
  change (String.eqb ("Film_Sense_Dyn_Data" ++ newline) ("Film_Sense_Data" ++ newline)) with false.
  rewrite String.eqb_refl. unfold fs_dynamic. cbn [readline]. rewrite (head_ok pf pi true _ _ _ _ Hh). cbn [rbind].
  destruct (waves_ok pf wls ws (heading :: sls ++ l :: rest) Hw) as (rows & E & Ew). rewrite L1 in E. rewrite E. cbn [rbind readline].
  rewrite (times_refused pf W _ aoi sls tps l rest e fs c c') by assumption. reflexivity.
Qed.

(** ** save, and Gauss without oscillators *)
Theorem save_unequal pr h d :
  (exists lines, save pr h d = Ok lines) /\ List.length (arr h (ds_aoi d)) = List.length (arr h (ds_wav d)) /\
    List.length (arr h (ds_psi d)) = List.length (arr h (ds_wav d)) /\ List.length (arr h (ds_delta d)) = List.length (arr h (ds_wav d)) \/
  save pr h d = Raise ValueError /\
    ~ (List.length (arr h (ds_aoi d)) = List.length (arr h (ds_wav d)) /\
       List.length (arr h (ds_psi d)) = List.length (arr h (ds_wav d)) /\ List.length (arr h (ds_delta d)) = List.length (arr h (ds_wav d))).
Proof.
  unfold save.
  destruct (Nat.eqb_spec (List.length (arr h (ds_aoi d))) (List.length (arr h (ds_wav d)))) as [E1|E1]; cbn [andb]; [|right; split; [reflexivity|tauto]].
  destruct (Nat.eqb_spec (List.length (arr h (ds_psi d))) (List.length (arr h (ds_wav d)))) as [E2|E2]; cbn [andb]; [|right; split; [reflexivity|tauto]].
  destruct (Nat.eqb_spec (List.length (arr h (ds_delta d))) (List.length (arr h (ds_wav d)))) as [E3|E3]; cbn [andb]; [|right; split; [reflexivity|tauto]].
  left. split; [eexists; reflexivity|]. auto.
Qed.

Theorem gauss_no_oscillators h am br en Einf wl name s w :
  elements am [] -> Gauss h am br en Einf wl name = Ok s -> wl <> 0 -> sc_complex s w = Raise ValueError.
Proof.
  intros Ea H W. apply elements_flatten in Ea. unfold Gauss in H. destruct (make_oscillators am br en) as [os|] eqn:E; [|discriminate]. cbn [rmap] in H.
  assert (Es : s = Scatterer (K_Gauss h os Einf) wl name) by congruence. subst s.
  assert (Eo : os = []).
  { unfold make_oscillators in E. rewrite Ea in E. destruct (_ && _)%bool in E; [|discriminate]. cbn in E. inversion E. reflexivity. }
  subst os. unfold sc_complex. cbn [sc_kind sc_wavelength].
  assert (N : choose_wav wl w <> 0).
  { unfold choose_wav. destruct w as [x|]; [|exact W]. destruct (Req_EM_T x 0); assumption. }
  unfold complex_of_epsilon. destruct (nm_eV_conversion (choose_wav wl w)) eqn:En; [reflexivity|].
  exfalso. unfold nm_eV_conversion, odiv in En. destruct (Req_EM_T _ 0) in En; [contradiction|discriminate].
Qed.

(** a Horiba file whose section DATA is empty *)
Theorem horiba_empty pf ansi lines secs ns refl lo hi closed : horiba 0 lines secs ns -> NoDup (map sec_label secs) ->
  In (Section "DATA" [] closed) secs ->
  open_HORIBAfile pf ansi lines refl lo hi = Raise (if closed then TypeError else ValueError).
Proof.
  intros H N I. destruct (In_nth_error _ _ I) as (k & Ek).
  pose proof (horiba_counts _ _ _ _ H) as L.
  destruct (nth_error ns k) as [j|] eqn:Ej.
  2: { exfalso. apply nth_error_None in Ej. assert (k < List.length secs)%nat by (apply nth_error_Some; congruence). lia. }
  unfold open_HORIBAfile. rewrite (loop_sections _ _ _ _ H [] []) by auto. cbn [app].
  rewrite (get_in "DATA" j).
  2: { rewrite combine_keys by (rewrite map_length; exact L). exact N. }
  2: { apply combine_nth_in with k; auto. rewrite nth_error_map, Ek. reflexivity. }
  cbn [rbind]. fold (md_of secs).
  rewrite (get_in "DATA" (filed (Section "DATA" [] closed))).
  2: { rewrite md_keys. exact N. }
  2: { unfold md_of. apply in_map_iff. eexists. split; [|exact I]. reflexivity. }
  destruct closed; reflexivity.
Qed.
