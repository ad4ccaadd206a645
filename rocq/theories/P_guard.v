(** * Proofs about the input tests of coh_tmm and Delta_Psi_TMM, and the names of EP4 datasets *)

Require Import Reals List Bool String Ascii Lra Lia.
From Coquelicot Require Import Complex.
From Verif Require Import Base M_tmm P_tmm3 M_data M_ep4 Spec_guard.
Import ListNotations.
Open Scope list_scope.
Open Scope R_scope.

Lemma n0_ok_iff n0 th : n0_ok n0 th = true <-> Rabs (Im n0 * sin th) < 100 * / 2 ^ 52.
Proof.
  unfold n0_ok, EPSILON. assert (E : Im (n0 * RtoC (sin th))%C = Im n0 * sin th) by (destruct n0 as [a b]; unfold Im, Cmult, RtoC; cbn [fst snd]; ring). rewrite E.
  destruct (Rlt_dec _ _) as [L|L]; split; intros H; auto; try discriminate; try contradiction.
Qed.

Lemma mapM_length {A B} (f : A -> option B) l : forall r, mapM f l = Some r -> List.length r = List.length l.
Proof.
  induction l as [|x l IH]; cbn [mapM]; intros r E; [injection E as <-; reflexivity|].
  destruct (f x); [|discriminate]. cbn in E. destruct (mapM f l); [|discriminate]. injection E as <-. cbn. f_equal. auto.
Qed.
Lemma guard_passed n0 (pts : list (R * R)) : (forall p, In p pts -> Rabs (Im n0 * sin (fst p)) < 100 * / 2 ^ 52) -> forallb (fun p => n0_ok n0 (fst p)) pts = true.
Proof. intros G. rewrite forallb_forall. intros p I. apply n0_ok_iff. auto. Qed.
Lemma coh_tmm_guards n0 n_rest d_list pts :
  ((exists p, In p pts /\ 100 * / 2 ^ 52 <= Rabs (Im n0 * sin (fst p))) ->
     coh_tmm (n0 :: n_rest) d_list pts = Raise AssertionError) /\
  ((forall p, In p pts -> Rabs (Im n0 * sin (fst p)) < 100 * / 2 ^ 52) ->
     (n_rest = [] -> coh_tmm (n0 :: n_rest) d_list pts = Raise IndexError) /\
     (n_rest <> [] -> List.length d_list = S (List.length n_rest) ->
        exists res, coh_tmm (n0 :: n_rest) d_list pts = Ok res /\ List.length res = List.length pts)).
Proof.
  unfold coh_tmm. split.
  - intros (p & I & L). assert (E : forallb (fun p => n0_ok n0 (fst p)) pts = false); [|rewrite E; reflexivity].
    apply not_true_iff_false. intros F. rewrite forallb_forall in F. specialize (F p I). apply n0_ok_iff in F. lra.
  - intros G. rewrite (guard_passed n0 pts G); cbn [negb].
    split; [intros ->; reflexivity|]. intros N L. destruct n_rest as [|n1 n_rest]; [congruence|].
    rewrite thickness_same by (rewrite L; reflexivity). cbn [List.length Nat.ltb Nat.leb]. eexists. split; [reflexivity|]. apply map_length.
Qed.

(** ** thicknesses that do not correspond to the layers one to one *)
Definition with_thicknesses (n_list : list C) (d : list xR) (pts : list (R * R)) : list amplitudes :=
  map (fun p => tmm_point n_list d (existsb (fun p => point_opaque n_list d (fst p) (snd p)) pts) (fst p) (snd p)) pts.
Lemma with_inner n_list d d' pts : inner d = inner d' -> with_thicknesses n_list d pts = with_thicknesses n_list d' pts.
Proof.
  intros E. assert (D : forall th lam, deltas n_list th d lam = deltas n_list th d' lam) by (intros; unfold deltas; rewrite E; reflexivity).
  assert (T : forall c th lam, tmm_point n_list d c th lam = tmm_point n_list d' c th lam).
  { intros c th lam. unfold tmm_point. destruct (th_list n_list th); [|reflexivity]. cbn [obind]. rewrite D. reflexivity. }
  assert (O : forall th lam, point_opaque n_list d th lam = point_opaque n_list d' th lam).
  { intros th lam. unfold point_opaque. destruct (th_list n_list th); [|reflexivity]. cbn [obind]. rewrite D. reflexivity. }
  unfold with_thicknesses. assert (X : existsb (fun p => point_opaque n_list d (fst p) (snd p)) pts = existsb (fun p => point_opaque n_list d' (fst p) (snd p)) pts).
  { induction pts as [|p pts IH]; [reflexivity|]. cbn [existsb]. rewrite O, IH. reflexivity. }
  rewrite X. apply map_ext. intros p. apply T.
Qed.
Lemma two_media n0 n1 d d' pts : with_thicknesses [n0; n1] d pts = with_thicknesses [n0; n1] d' pts.
Proof. reflexivity. Qed.
Lemma coh_tmm_passed n0 n1 n_rest d pts : (forall p, In p pts -> Rabs (Im n0 * sin (fst p)) < 100 * / 2 ^ 52) ->
  coh_tmm (n0 :: n1 :: n_rest) d pts =
  match thickness_list (S (S (List.length n_rest))) d with Raise e => Raise e | Ok d => Ok (with_thicknesses (n0 :: n1 :: n_rest) d pts) end.
Proof. intros G. unfold coh_tmm. rewrite (guard_passed n0 pts G). reflexivity. Qed.
Lemma inner_ends {A} (a b : A) l : inner (a :: l ++ [b]) = l.
Proof. unfold inner. cbn [tl]. apply removelast_last. Qed.

Theorem thicknesses n0 n_rest d_list pts : (forall p, In p pts -> Rabs (Im n0 * sin (fst p)) < 100 * / 2 ^ 52) ->
  let coh d := coh_tmm (n0 :: n_rest) d pts in let media := List.length n_rest in
  (media = 1%nat -> coh d_list = coh [PInf; PInf]) /\
  (media = 2%nat -> (List.length d_list <= 2)%nat -> coh d_list = Raise IndexError) /\
  (media = 2%nat -> forall a x b l, d_list = a :: x :: b :: l -> coh d_list = coh [PInf; x; PInf]) /\
  ((2 <= media)%nat -> forall a x b, d_list = [a; x; b] -> coh d_list = coh (PInf :: repeat x (media - 1) ++ [PInf])) /\
  ((3 <= media)%nat -> List.length d_list <> 3%nat -> List.length d_list <> S media -> coh d_list = Raise ValueError).
Proof.
  intros G coh media.
  assert (M : forall n1 r, n_rest = n1 :: r -> forall d, coh d = match thickness_list (S (S (List.length r))) d with Raise e => Raise e | Ok d => Ok (with_thicknesses (n0 :: n1 :: r) d pts) end).
  { intros n1 r -> d. apply coh_tmm_passed, G. }
  unfold media in *. destruct n_rest as [|n1 r]; [repeat split; cbn [List.length]; intros; lia|]. specialize (M n1 r eq_refl).
  cbn [List.length]. repeat split.
  - intros L. destruct r; [|cbn in L; lia]. rewrite !M. unfold thickness_list. cbn [List.length Nat.eqb]. rewrite orb_true_r. cbn [orb]. f_equal. 
  - intros L H. destruct r as [|n2 [|]]; cbn in L; try lia. rewrite M. unfold thickness_list. cbn [List.length].
    destruct d_list as [|a [|b [|c d_list]]]; try reflexivity. cbn in H. lia.
  - intros L a x b l ->. destruct r as [|n2 [|]]; cbn in L; try lia. rewrite !M. unfold thickness_list. cbn [List.length Nat.eqb orb].
    destruct l as [|c l]; cbn [List.length Nat.eqb orb]; [f_equal; apply with_inner; reflexivity|].
    assert (I : exists y m, inner (a :: x :: b :: c :: l) = x :: y :: m).
    { unfold inner. cbn [tl]. exists b. destruct (exists_last (l := c :: l)) as (m & z & E); [discriminate|]. rewrite E. exists m. change (x :: b :: m ++ [z]) with ((x :: b :: m) ++ [z]). apply removelast_last. }
    destruct I as (y & m & ->). reflexivity.
  - intros L a x b ->. rewrite !M. destruct r as [|n2 r]; [cbn in L; lia|]. cbn [List.length Nat.sub].
    assert (T : thickness_list (S (S (S (List.length r)))) (PInf :: repeat x (S (List.length r)) ++ [PInf]) = Ok (PInf :: repeat x (S (List.length r)) ++ [PInf])).
    { apply thickness_same. cbn [List.length]. rewrite app_length, repeat_length. cbn [List.length]. lia. }
    rewrite T. destruct r as [|n3 r].
    + rewrite thickness_same by reflexivity. reflexivity.
    + unfold thickness_list. change (inner [a; x; b]) with [x]. cbn [List.length Nat.eqb orb Nat.sub]. rewrite ?Nat.sub_0_r. reflexivity.
  - intros L H1 H2. rewrite M. destruct r as [|n2 [|n3 r]]; cbn [List.length] in *; try lia. unfold thickness_list.
    destruct (Nat.eqb_spec (S (S (S (S (List.length r))))) (List.length d_list)); [lia|]. cbn [Nat.eqb orb].
    destruct (inner d_list) as [|y [|z m]] eqn:E; try reflexivity. exfalso. apply H1.
    unfold inner in E. destruct d_list as [|a d_list]; [discriminate|]. cbn [tl] in E. destruct d_list as [|b d_list]; [discriminate|].
    destruct (exists_last (l := b :: d_list)) as (k & u & F); [discriminate|]. rewrite F in *. rewrite removelast_last in E. subst k. reflexivity.
Qed.

Theorem infinite_layer n_list d_list pts res i : coh_tmm n_list d_list pts = Ok res -> List.length d_list = List.length n_list ->
  nth_error d_list i = Some PInf -> (0 < i)%nat -> (S i < List.length d_list)%nat -> Forall (fun a => a = mkAmp None None) res.
Proof.
  intros H L E H1 H2. apply coh_tmm_batch in H as (d & T & -> & L2 & _). rewrite thickness_same in T by congruence. injection T as <-.
  apply Forall_forall. intros a I. apply in_map_iff in I. destruct I as (p & <- & _).
  assert (D : forall th, List.length th = List.length n_list -> deltas n_list th d_list (snd p) = None).
  { intros th Lt. unfold deltas.
    destruct n_list as [|n0 n_list]; [cbn in L2; lia|]. destruct th as [|t0 th]; [discriminate|]. destruct d_list as [|d0 d_list]; [cbn in H2; lia|].
    destruct i as [|i]; [lia|]. cbn [nth_error] in E. unfold inner. cbn [tl]. cbn [List.length] in *.
    assert (L' : List.length n_list = List.length d_list) by lia. assert (Lt' : List.length th = List.length n_list) by lia. assert (H2' : (S i < List.length d_list)%nat) by lia.
    clear -L' Lt' H2' E. revert n_list th i L' Lt' H2' E. induction d_list as [|d1 d_list IH]; intros n_list th i L' Lt' H2' E; [cbn in H2'; lia|].
    destruct n_list as [|n1 n_list]; [discriminate|]. destruct th as [|t1 th]; [discriminate|].
    destruct d_list as [|d2 d_list]; [cbn in H2'; lia|]. destruct n_list as [|n2 n_list]; [discriminate|]. destruct th as [|t2 th]; [discriminate|].
    change (removelast (n1 :: n2 :: n_list)) with (n1 :: removelast (n2 :: n_list)). change (removelast (t1 :: t2 :: th)) with (t1 :: removelast (t2 :: th)).
    change (removelast (d1 :: d2 :: d_list)) with (d1 :: removelast (d2 :: d_list)). cbn [combine mapM].
    destruct i as [|i].
    - cbn in E. injection E as ->. destruct (kz (snd p) n1 t1); reflexivity.
    - destruct (obind (kz (snd p) n1 t1) _); [|reflexivity]. cbn [nth_error] in E. cbn [List.length] in *.
      rewrite (IH (n2 :: n_list) (t2 :: th) i); auto; cbn [List.length]; lia. }
  unfold tmm_point. destruct (th_list n_list (fst p)) as [th|] eqn:Eth; [|reflexivity]. cbn [obind].
  rewrite D; [reflexivity|]. unfold th_list in Eth. apply (mapM_length _ _ _) in Eth. exact Eth.
Qed.

Lemma drop_k_length layers : List.length (thicks layers) = List.length layers.
Proof.
  destruct layers as [|a [|b l]]; try reflexivity. unfold thicks. cbn [List.length]. rewrite app_length, map_length. cbn [List.length].
  f_equal. clear a. revert b. induction l as [|c l IH]; intros b; [reflexivity|].
  change (removelast (b :: c :: l)) with (b :: removelast (c :: l)). cbn [List.length]. rewrite <- (IH c). cbn [List.length]. lia.
Qed.
Lemma mapM_none {A B} (f : A -> option B) l : mapM f l = None <-> exists x, In x l /\ f x = None.
Proof.
  induction l as [|x l IH]; cbn [mapM].
  - split; [discriminate|]. intros (x & [] & _).
  - destruct (f x) as [y|] eqn:E; cbn.
    + destruct (mapM f l) as [r|]; cbn.
      * split; [discriminate|]. intros (z & [<-|I] & Z); [congruence|]. exfalso. assert (@Some (list B) r = None); [|discriminate]. apply IH. eauto.
      * split; auto. intros _. destruct (proj1 IH eq_refl) as (z & I & Z). eauto.
    + split; auto. intros _. exists x. auto.
Qed.

Lemma Delta_Psi_guards AOI l0 rest w off refl :
  let out := fst (Delta_Psi_TMM AOI (l0 :: rest) w off refl) in
  (l_ri l0 = None -> AOI <> [] -> out = Raise AssertionError) /\
  ((l_ri l0 <> None \/ AOI = []) -> rest = [] -> out = Raise IndexError) /\
  ((l_ri l0 <> None \/ AOI = []) -> rest <> [] ->
     exists res, out = Ok res /\ List.length res = List.length AOI /\
       ((exists l, In l rest /\ l_ri l = None) -> Forall (fun r => r = (None, None)) res)).
Proof.
  cbv zeta. unfold Delta_Psi_TMM. cbn [fst].
  set (ls := drop_k l0 :: rest).
  assert (D : l_ri (drop_k l0) = None <-> l_ri l0 = None) by (unfold drop_k; cbn; destruct (l_ri l0); cbn; split; intros; congruence).
  split; [|split].
  - intros N A. assert (E : mapM l_ri ls = None) by (apply mapM_none; exists (drop_k l0); split; [left; auto|tauto]).
    rewrite E, N. destruct AOI; [congruence|reflexivity].
  - intros H ->. destruct (mapM l_ri ls) as [RIs|] eqn:E.
    + assert (exists z, RIs = [z] /\ Im z = 0) as (z & -> & Z).
      { unfold ls, drop_k in E. cbn in E. destruct (l_ri l0) as [z|]; [|discriminate]. cbn in E. injection E as <-. eexists. split; reflexivity. }
      destruct (coh_tmm_guards z [] (thicks ls) (map (fun a => (a * (PI / 180), w)) AOI)) as [_ G].
      destruct G as [G _]; [intros p _; rewrite Z, Rmult_0_l, Rabs_R0; apply Rmult_lt_0_compat; [lra|apply Rinv_0_lt_compat, pow_lt; lra]|].
      rewrite G by reflexivity. reflexivity.
    + destruct H as [H| ->]; destruct (l_ri l0) eqn:E0; try congruence; try reflexivity; try (destruct AOI; reflexivity).
  - intros H N. destruct (mapM l_ri ls) as [RIs|] eqn:E.
    + assert (exists z r, RIs = z :: r /\ Im z = 0) as (z & r & -> & Z).
      { unfold ls, drop_k in E. cbn in E. destruct (l_ri l0) as [z|]; [|discriminate]. cbn in E. destruct (mapM l_ri rest); [|discriminate].
        injection E as <-. do 2 eexists. split; reflexivity. }
      pose proof (mapM_length _ _ _ E) as L. unfold ls in L. cbn [List.length] in L.
      destruct (coh_tmm_guards z r (thicks ls) (map (fun a => (a * (PI / 180), w)) AOI)) as [_ G].
      destruct G as (_ & G); [intros p _; rewrite Z, Rmult_0_l, Rabs_R0; apply Rmult_lt_0_compat; [lra|apply Rinv_0_lt_compat, pow_lt; lra]|].
      destruct G as (res & G & Lr).
      * intros ->. destruct rest; [congruence|discriminate].
      * rewrite drop_k_length. unfold ls. cbn [List.length]. lia.
      * rewrite G. cbn [rmap rbind]. eexists. split; [reflexivity|]. rewrite map_length, Lr, map_length. split; auto.
        intros (l & I & Z'). exfalso. assert (mapM l_ri ls = None) by (apply mapM_none; exists l; split; [right; auto|auto]). congruence.
    + destruct rest as [|l1 rest]; [congruence|].
      assert (Q : match l_ri l0 with Some _ => True | None => AOI = [] end) by (destruct (l_ri l0), H; try congruence; auto).
      exists (map (fun _ => (None, None)) AOI). split; [|split].
      * destruct (l_ri l0); [destruct AOI; reflexivity|]. subst AOI. reflexivity.
      * apply map_length.
      * intros _. apply Forall_forall. intros x I. apply in_map_iff in I as (y & <- & _). reflexivity.
Qed.

(** ** Names of EP4 datasets *)
Lemma app_assoc_s (a b c : string) : ((a ++ b) ++ c = a ++ (b ++ c))%string.
Proof. induction a as [|x a IH]; [reflexivity|]. cbn. f_equal. exact IH. Qed.
Lemma app_cancel (a b c : string) : (a ++ b = a ++ c)%string -> b = c.
Proof. induction a as [|x a IH]; cbn; auto. intros E. injection E as E. auto. Qed.
Lemma cut_at c : forall s1 s2 t1 t2, lacks c s1 -> lacks c s2 -> (s1 ++ String c t1 = s2 ++ String c t2)%string -> s1 = s2 /\ t1 = t2.
Proof.
  induction s1 as [|x s1 IH]; intros [|y s2] t1 t2 L1 L2 E; cbn in *.
  - injection E as E. auto.
  - injection E as E1 _. destruct L2. congruence.
  - injection E as E1 _. destruct L1. congruence.
  - injection E as E1 E2. destruct L1 as [_ L1], L2 as [_ L2]. destruct (IH _ _ _ L1 L2 E2) as [-> ->]. subst. auto.
Qed.

Lemma substring_0 n : forall s, (n <= String.length s)%nat -> exists t, s = (substring 0 n s ++ t)%string /\ String.length t = (String.length s - n)%nat.
Proof.
  induction n as [|n IH]; intros s L.
  - exists s. split; [destruct s; reflexivity|]. lia.
  - destruct s as [|c s]; cbn [String.length] in *; [lia|]. destruct (IH s ltac:(lia)) as (t & E & Lt).
    exists t. cbn [substring append]. split; [f_equal; exact E|]. rewrite Lt. lia.
Qed.
Lemma butfirst23_stem name : stem name (butfirst23 name).
Proof.
  unfold stem, butfirst23. destruct (le_lt_dec 23 (String.length name)) as [L|L].
  - left. destruct (substring_0 (String.length name - 23) name ltac:(lia)) as (t & E & Lt). exists t. split; auto. lia.
  - right. split; auto. replace (String.length name - 23)%nat with 0%nat by lia. destruct name; reflexivity.
Qed.

Definition label (pr : R -> string) (pos : option (R * R)) (t : option R) : string :=
  (match pos with Some (x, y) => "_x=" ++ pr x ++ "mm_y=" ++ pr y ++ "mm" | None => "" end ++
   match t with Some t => "_t=" ++ pr t ++ "s" | None => "" end)%string.
Lemma time_label_inj pr S t t' : readable pr S -> (forall x, t = Some x -> S x) -> (forall x, t' = Some x -> S x) ->
  (match t with Some t => "_t=" ++ pr t ++ "s" | None => "" end =
   match t' with Some t => "_t=" ++ pr t ++ "s" | None => "" end)%string -> t = t'.
Proof.
  intros [I L] H H'. destruct t as [t|], t' as [t'|]; intros E; try discriminate; auto.
  apply app_cancel in E. destruct (cut_at "s"%char (pr t) (pr t') "" "" (proj2 (L t)) (proj2 (L t')) E) as [E' _].
  apply I in E'; auto. subst. reflexivity.
Qed.
Lemma label_inj pr S p p' t t' : readable pr S -> (forall x, t = Some x -> S x) -> (forall x, t' = Some x -> S x) ->
  (forall x y, p = Some (x, y) -> S x /\ S y) -> (forall x y, p' = Some (x, y) -> S x /\ S y) ->
  label pr p t = label pr p' t' -> p = p' /\ t = t'.
Proof.
  intros RD T1 T2 P1 P2. pose proof RD as [I L]. unfold label.
  destruct p as [[x y]|], p' as [[x' y']|]; intros E.
  - rewrite !app_assoc_s in E. apply app_cancel in E.
    apply (cut_at "m"%char (pr x) (pr x') _ _ (proj1 (L x)) (proj1 (L x'))) in E as [Ex E].
    apply (app_cancel "m_y=") in E.
    apply (cut_at "m"%char (pr y) (pr y') _ _ (proj1 (L y)) (proj1 (L y'))) in E as [Ey E].
    apply (app_cancel "m") in E. apply (time_label_inj pr S) in E; auto.
    destruct (P1 x y eq_refl), (P2 x' y' eq_refl). apply I in Ex; auto. apply I in Ey; auto. subst. auto.
  - destruct t' as [t'|]; discriminate.
  - destruct t as [t|]; discriminate.
  - apply (app_cancel ""%string) in E. apply (time_label_inj pr S) in E; auto.
Qed.

Lemma mapR_In {A B} (f : A -> result B) l : forall r, mapR f l = Ok r -> forall y, In y r -> exists x, In x l /\ f x = Ok y.
Proof.
  induction l as [|a l IH]; cbn [mapR]; intros r E; [injection E as <-; intros y []|].
  destruct (f a) as [b|e] eqn:Ea; [|discriminate]. cbn [rbind] in E. destruct (mapR f l) as [bs|e] eqn:El; [|discriminate].
  cbn [rbind] in E. injection E as <-. intros y [<-|I]; [exists a; split; [left|]; auto|].
  destruct (IH bs eq_refl y I) as (x & J & F). exists x. split; [right|]; auto.
Qed.
Lemma open_entries pr fname t refl r d : open_EP4file pr fname t refl = Ok r -> In d (entries r) ->
  exists s, EP4_dataset pr fname refl s = Ok d.
Proof.
  unfold open_EP4file. destruct (if (_ && _)%bool then _ else _) as [output|e]; [|discriminate]. cbn [rbind].
  destruct (mapR _ output) as [ds|e] eqn:E; [|discriminate]. cbn [rbind]. intros H I.
  assert (entries r = ds) by (destruct ds as [|a [|b ds]]; injection H as <-; reflexivity). rewrite H0 in I.
  destruct (mapR_In _ _ _ E d I) as (s & _ & F). eauto.
Qed.

Lemma open_names pr fname t refl r d : open_EP4file pr fname t refl = Ok r -> In d (entries r) ->
  exists base time, stem fname base /\ sm_time (snd (fst d)) = Some time /\
    fst (fst d) = (base ++ match sm_pos (snd (fst d)) with Some (x, y) => "_x=" ++ pr x ++ "mm_y=" ++ pr y ++ "mm" | None => "" end
                        ++ match time with Some t => "_t=" ++ pr t ++ "s" | None => "" end)%string.
Proof.
  intros O I. destruct (open_entries _ _ _ _ _ _ O I) as (s & E). unfold EP4_dataset, EP4_name in E.
  destruct (sm_time s) as [time|] eqn:T; [|discriminate]. cbn [rmap rbind] in E. injection E as <-. cbn [fst snd].
  exists (butfirst23 fname), time. split; [apply butfirst23_stem|]. split; auto.
Qed.

Lemma open_names_distinct pr fname t refl r d d' S : readable pr S -> open_EP4file pr fname t refl = Ok r ->
  In d (entries r) -> In d' (entries r) ->
  (forall x, named (snd (fst d)) x \/ named (snd (fst d')) x -> S x) -> fst (fst d) = fst (fst d') ->
  sm_pos (snd (fst d)) = sm_pos (snd (fst d')) /\ sm_time (snd (fst d)) = sm_time (snd (fst d')).
Proof.
  intros RD O I I' H E. destruct (open_entries _ _ _ _ _ _ O I) as (s & F). destruct (open_entries _ _ _ _ _ _ O I') as (s' & F').
  unfold EP4_dataset, EP4_name in F, F'.
  destruct (sm_time s) as [time|] eqn:T; [|discriminate]. destruct (sm_time s') as [time'|] eqn:T'; [|discriminate].
  cbn [rmap rbind] in F, F'. injection F as <-. injection F' as <-. cbn [fst snd] in *.
  apply app_cancel in E. destruct (label_inj pr S (sm_pos s) (sm_pos s') time time' RD) as [-> ->]; [| | | | |rewrite T, T'; auto]; auto.
  - intros x ->. apply H. left. right. auto.
  - intros x ->. apply H. right. right. auto.
  - intros x y Q. split; apply H; left; left; eauto.
  - intros x y Q. split; apply H; right; left; eauto.
Qed.

(** a printer for the numbers 0 and 1 *)
Definition pr01 (x : R) : string := if Req_EM_T x 0 then "0.0"%string else if Req_EM_T x 1 then "1.0"%string else "nan"%string.
Lemma pr01_readable : readable pr01 (fun x => x = 0 \/ x = 1).
Proof.
  split.
  - intros x y [-> | ->] [-> | ->]; unfold pr01; repeat destruct Req_EM_T; try lra; discriminate.
  - intros x. unfold pr01. repeat destruct Req_EM_T; cbn; repeat split; discriminate.
Qed.
Lemma name01 : exists base, stem "gold_20200929-083122.ds.dat" base /\
  EP4_name pr01 "gold_20200929-083122.ds.dat" (Summary [] [] [] [] (Some (0, 1)) (Some (Some 1))) = Ok (base ++ "_x=0.0mm_y=1.0mm_t=1.0s")%string /\
  base = "gold"%string.
Proof.
  eexists. split; [|split; [|reflexivity]].
  - left. exists "_20200929-083122.ds.dat"%string. split; reflexivity.
  - unfold EP4_name. cbn [sm_time sm_pos]. unfold pr01. repeat destruct Req_EM_T; try lra. reflexivity.
Qed.

Lemma guard_example : coh_tmm [(3/2, 1 / 10)] [PInf] [(PI / 2, 633)] = Raise AssertionError.
Proof.
  apply coh_tmm_guards. exists (PI / 2, 633). split; [left; auto|]. cbn [fst Im snd]. rewrite sin_PI2, Rmult_1_r, Rabs_right by lra.
  simpl. lra.
Qed.
Lemma infinite_example : exists a, coh_tmm [RtoC 1; RtoC 2; RtoC 3] [PInf; PInf; PInf] [(0, 633)] = Ok [a].
Proof.
  rewrite coh_tmm_passed; [eexists; reflexivity|]. intros p [<-|[]]. cbn. rewrite Rmult_0_l, Rabs_R0. apply Rmult_lt_0_compat; [lra|]. apply Rinv_0_lt_compat. lra.
Qed.
