(** * Proofs: what statements of a session change *)

Require Import Reals List Bool String Lra Lia Arith.
From Verif Require Import Base M_disp M_struct M_model M_data M_objective M_session Spec_session P_data P_session Spec_effect.
Import ListNotations.
Open Scope list_scope.
Open Scope R_scope.

Lemma changed_update {A} (l : list A) i f (P : A -> A -> Prop) : (forall x, nth_error l i = Some x -> P x (f x)) ->
  changed i P l (update l i f).
Proof.
  intros H. split; [|split].
  - revert i H. induction l as [|a l IH]; intros [|i] H; cbn; auto.
  - intros j N. apply nth_error_update_ne. auto.
  - intros x E. exists (f x). rewrite nth_error_update, E. split; [reflexivity|auto].
Qed.

Ltac conjs := repeat match goal with |- _ /\ _ => split end.
Ltac effect := unfold number_set, only_params, only_scats, only_comps, only_structs, only_models; cbn;
  conjs; try reflexivity; try (apply changed_update; intros; try (unfold with_data, structure_with; cbn; conjs; reflexivity)).

Theorem sets_value ext w p v : execute ext w (Set_value p v) = (Ok tt, snd (execute ext w (Set_value p v))) /\
  number_set w p v (snd (execute ext w (Set_value p v))).
Proof. split; [reflexivity|]. effect; auto. Qed.

Theorem sets_param ext w p q : execute ext w (Set_param p q) = (Ok tt, snd (execute ext w (Set_param p q))) /\
  only_params (changed p (fun x y => y = (q, snd x))) w (snd (execute ext w (Set_param p q))).
Proof. split; [reflexivity|]. effect; auto. Qed.

(** what is read afterwards *)
Lemma value_params w w' p q : only_params (changed p q) w w' -> forall r, r <> p ->
  settings_of w' r = settings_of w r /\ numbers w' r = numbers w r.
Proof.
  intros ((L & N & _) & _) r E. unfold settings_of, numbers. 
  assert (X : nth r (se_params w') (Param false None (Interval 0 0), 0) = nth r (se_params w) (Param false None (Interval 0 0), 0)).
  { specialize (N r E). destruct (nth_error (se_params w) r) eqn:F.
    - rewrite (nth_error_nth _ _ _ N), (nth_error_nth _ _ _ F). reflexivity.
    - apply nth_error_None in N. apply nth_error_None in F. rewrite !nth_overflow by lia. reflexivity. }
  rewrite X. auto.
Qed.
Theorem reads_value ext w p v : (p < List.length (se_params w))%nat ->
  let w' := snd (execute ext w (Set_value p v)) in
  numbers w' p = v /\ (forall q, q <> p -> numbers w' q = numbers w q) /\
  (forall q, settings_of w' q = settings_of w q) /\
  (p_constraint (settings_of w p) = None -> value_of w' p = v) /\
  (forall f, p_constraint (settings_of w p) = Some f -> value_of w' p = f (numbers w')).
Proof.
  intros L w'. destruct (sets_value ext w p v) as [_ H]. fold w' in H.
  assert (NP : nth_error (se_params w) p <> None) by (apply nth_error_Some; auto).
  destruct (nth_error (se_params w) p) as [x|] eqn:E; [|congruence].
  destruct (proj1 H) as (_ & _ & C). destruct (C x E) as (y & Ey & Y).
  assert (S1 : settings_of w' p = settings_of w p).
  { unfold settings_of. rewrite (nth_error_nth _ _ _ Ey), (nth_error_nth _ _ _ E), Y. reflexivity. }
  assert (V1 : numbers w' p = v) by (unfold numbers; rewrite (nth_error_nth _ _ _ Ey), Y; reflexivity).
  split; [exact V1|]. split; [intros q N; apply (value_params _ _ _ _ H q N)|].
  split.
  { intros q. destruct (Nat.eq_dec q p) as [->|N]; [exact S1|]. apply (value_params _ _ _ _ H q N). }
  unfold value_of, read. rewrite S1. split; [intros ->; exact V1|intros f ->; reflexivity].
Qed.

(** ** structures *)
Theorem appends ext w a c : exists_comp w c = true -> let x := execute ext w (Append a (O_comp c)) in
  fst x = Ok tt /\ only_structs (changed a (with_data (fun d => d ++ [c]))) w (snd x) /\
  execute ext w (Ior a (O_comp c)) = x.
Proof. intros H. cbn [execute exists_object solvent_arg]. rewrite H. cbn [append_to fst snd]. split; [reflexivity|]. split; [effect|reflexivity]. Qed.
Theorem joins ext w a b : exists_struct w b = true -> let x := execute ext w (Ior a (O_struct b)) in
  fst x = Ok tt /\ only_structs (changed a (with_data (fun d => d ++ so_data (struct_at w b)))) w (snd x).
Proof. intros H. cbn [execute exists_object solvent_arg]. rewrite H. cbn [append_to fst snd]. split; [reflexivity|]. effect. Qed.
Theorem replaces ext w a l : (forall c, In c l -> exists_comp w c = true) -> let x := execute ext w (Set_data a l) in
  fst x = Ok tt /\ only_structs (changed a (with_data (fun _ => l))) w (snd x).
Proof. intros H. cbn [execute]. assert (F : forallb (exists_comp w) l = true) by (apply forallb_forall; auto). rewrite F. cbn [fst snd]. split; [reflexivity|]. effect. Qed.

Theorem appends_scatterer ext w a s : exists_scat w s = true -> let x := execute ext w (Append a (O_scat s)) in
  let w' := snd x in let k := List.length (se_comps w) in
  fst x = Ok tt /\ (exists c, se_comps w' = se_comps w ++ [c] /\ bare_slab_of w w' s c) /\
  se_scats w' = se_scats w /\ se_models w' = se_models w /\
  changed a (with_data (fun d => d ++ [k])) (se_structs w) (se_structs w') /\
  execute ext w (Ior a (O_scat s)) = x.
Proof.
  intros H. cbn [execute exists_object solvent_arg]. rewrite H. cbn [append_to fst snd]. split; [reflexivity|]. split; [|effect].
  eexists. split; [reflexivity|]. unfold bare_slab_of. cbn.
  assert (L : List.length (se_params w ++ [fresh unbounded; fresh unbounded; fresh (Interval 0 1)]) = (List.length (se_params w) + 3)%nat)
    by (rewrite app_length; reflexivity).
  conjs; try reflexivity.
  - exact L.
  - intros p Hp. apply nth_error_app1. exact Hp.
  - intros p Hp. unfold value_of, read, settings_of, numbers. cbn [se_params edit with_structs slab_of new_comp with_comps with_params].
    set (n := List.length (se_params w)) in *.
    assert (K : p = n \/ p = (n + 1)%nat \/ p = (n + 2)%nat) by lia.
    destruct K as [->|[->| ->]].
    all: rewrite !app_nth2 by (fold n; lia); fold n.
    + replace (n - n)%nat with 0%nat by lia. cbn. auto.
    + replace (n + 1 - n)%nat with 1%nat by lia. cbn. auto.
    + replace (n + 2 - n)%nat with 2%nat by lia. cbn. auto.
Qed.

Theorem sets_settings ext w a :
  (forall o sv, (match o with None => sv = None | Some (O_scat s) => sv = Some s /\ exists_scat w s = true | _ => False end) ->
     let x := execute ext w (Set_solvent a o) in
     fst x = Ok tt /\ only_structs (changed a (fun s s' =>
       structure_with s' (so_data s) (so_name s) sv (so_reverse s) (so_contract s) (so_wavelength s) (so_ema s) (so_dep s))) w (snd x)) /\
  (forall b, let x := execute ext w (Set_reverse a b) in
     fst x = Ok tt /\ only_structs (changed a (fun s s' =>
       structure_with s' (so_data s) (so_name s) (so_solvent s) b (so_contract s) (so_wavelength s) (so_ema s) (so_dep s))) w (snd x)) /\
  (forall v, let x := execute ext w (Set_contract a v) in
     fst x = Ok tt /\ only_structs (changed a (fun s s' =>
       structure_with s' (so_data s) (so_name s) (so_solvent s) (so_reverse s) v (so_wavelength s) (so_ema s) (so_dep s))) w (snd x)) /\
  (forall e, let x := execute ext w (Set_ema a e) in
     fst x = Ok tt /\ only_structs (changed a (fun s s' =>
       structure_with s' (so_data s) (so_name s) (so_solvent s) (so_reverse s) (so_contract s) (so_wavelength s) e (so_dep s))) w (snd x)) /\
  (forall v, let x := execute ext w (Set_dep a (VNum v)) in
     (0 <= v <= 1 -> fst x = Ok tt /\ only_structs (changed a (fun s s' =>
       structure_with s' (so_data s) (so_name s) (so_solvent s) (so_reverse s) (so_contract s) (so_wavelength s) (so_ema s) v)) w (snd x)) /\
     (~ 0 <= v <= 1 -> x = (Raise ValueError, w))).
Proof.
  split; [|split; [|split; [|split]]].
  - intros o sv H. destruct o as [[c|s|b|]|]; try contradiction.
    + destruct H as [-> H]. cbn [execute exists_object solvent_arg]. rewrite H. cbn [append_to fst snd]. split; [reflexivity|effect].
    + subst sv. cbn. split; [reflexivity|effect].
  - intros b. cbn. split; [reflexivity|effect].
  - intros v. cbn. split; [reflexivity|effect].
  - intros e. cbn. split; [reflexivity|effect].
  - intros v. cbn. split.
    + intros [H1 H2]. destruct (Rle_dec 0 v); [|lra]. destruct (Rle_dec v 1); [|lra]. cbn. split; [reflexivity|effect].
    + intros H. destruct (Rle_dec 0 v); [|reflexivity]. destruct (Rle_dec v 1); [|reflexivity]. lra.
Qed.

(** ** models *)
Theorem sets_model ext w m :
  (forall a, exists_struct w a = true -> let x := execute ext w (Set_structure m (O_struct a)) in
     fst x = Ok tt /\ only_models (changed m (fun o o' =>
       mo_struct o' = a /\ mo_delta_offset o' = mo_delta_offset o /\ mo_flip o' = mo_flip o)) w (snd x)) /\
  (forall p, let x := execute ext w (Set_offset m p) in
     fst x = Ok tt /\ only_models (changed m (fun o o' =>
       mo_struct o' = mo_struct o /\ mo_delta_offset o' = p /\ mo_flip o' = mo_flip o)) w (snd x)) /\
  (forall b, let x := execute ext w (Set_flip m b) in
     fst x = Ok tt /\ only_models (changed m (fun o o' =>
       mo_struct o' = mo_struct o /\ mo_delta_offset o' = mo_delta_offset o /\ mo_flip o' = b)) w (snd x)).
Proof.
  split; [|split].
  - intros a H. cbn [execute exists_object solvent_arg]. rewrite H. cbn [append_to fst snd]. split; [reflexivity|]. effect; cbn; auto.
  - intros p. cbn. split; [reflexivity|]. effect; cbn; auto.
  - intros p. cbn. split; [reflexivity|]. effect; cbn; auto.
Qed.

(** ** new objects, and replaced attributes *)
Theorem makes ext w :
  (forall q v, let x := execute ext w (New_param q v) in
     fst x = Ok tt /\ only_params (fun l l' => l' = l ++ [(q, v)]) w (snd x)) /\
  (forall m, let x := execute ext w (New_scat m) in
     fst x = Ok tt /\ only_scats (fun l l' => exists o, l' = l ++ [o] /\ so_material o = m) w (snd x)) /\
  (forall a d, attrs_exist w a = true -> let x := execute ext w (New_comp a d) in
     fst x = Ok tt /\ only_comps (fun l l' => exists o, l' = l ++ [o] /\ co_attrs o = a /\ co_default_interface o = d) w (snd x)) /\
  (forall cs name sv r c wl e d, (forall i, In i cs -> exists_comp w i = true) -> (forall s, sv = Some s -> exists_scat w s = true) ->
     let x := execute ext w (New_struct (map O_comp cs) name (option_map O_scat sv) r c wl e d) in
     fst x = Ok tt /\ only_structs (fun l l' => exists o, l' = l ++ [o] /\ structure_with o cs name sv r c wl e d) w (snd x)) /\
  (forall a p, exists_struct w a = true -> let x := execute ext w (New_model (O_struct a) p) in
     fst x = Ok tt /\ only_models (fun l l' => exists o, l' = l ++ [o] /\ mo_struct o = a /\ mo_delta_offset o = p /\ mo_flip o = false) w (snd x)).
Proof.
  split; [|split; [|split; [|split]]].
  - intros. cbn. split; [reflexivity|effect].
  - intros. cbn. split; [reflexivity|effect]. eexists. split; reflexivity.
  - intros a d H. cbn [execute exists_object solvent_arg]. rewrite H. cbn [append_to fst snd]. split; [reflexivity|effect]. eexists. split; [reflexivity|auto].
  - intros cs name sv r c wl e d H1 H2. cbn [execute].
    assert (F : forallb (exists_object w) (map O_comp cs) = true).
    { apply forallb_forall. intros o Ho. apply in_map_iff in Ho as (i & <- & Hi). apply H1; auto. }
    assert (G : comps_among (map O_comp cs) = cs).
    { clear. induction cs; cbn; [reflexivity|]. f_equal. exact IHcs. }
    rewrite F, G. destruct sv as [s|]; cbn [option_map exists_object solvent_arg andb].
    + rewrite (H2 s eq_refl). cbn [fst snd]. split; [reflexivity|effect]. eexists. split; [reflexivity|]. unfold structure_with. cbn. conjs; reflexivity.
    + split; [reflexivity|effect]. eexists. split; [reflexivity|]. unfold structure_with. cbn. conjs; reflexivity.
  - intros a p H. cbn [execute exists_object solvent_arg]. rewrite H. cbn [append_to fst snd]. split; [reflexivity|effect]. eexists. split; [reflexivity|]. auto.
Qed.

Theorem replaces_attributes ext w :
  (forall c a, attrs_exist w a = true -> let x := execute ext w (Set_comp_attrs c a) in
     fst x = Ok tt /\ only_comps (changed c (fun o o' =>
       co_attrs o' = a /\ co_default_interface o' = co_default_interface o /\ co_listed o' = co_listed o)) w (snd x)) /\
  (forall s m, let x := execute ext w (Set_scat_attrs s m) in
     fst x = Ok tt /\ only_scats (changed s (fun o o' => so_material o' = m /\ so_listed o' = so_listed o)) w (snd x)).
Proof.
  split.
  - intros c a H. cbn [execute exists_object solvent_arg]. rewrite H. cbn [append_to fst snd]. split; [reflexivity|]. effect; cbn; auto.
  - intros s m. cbn. split; [reflexivity|]. effect; cbn; auto.
Qed.

(** ** editing is building anew *)
Lemma structure_ext s s' : structure_with s (so_data s') (so_name s') (so_solvent s') (so_reverse s') (so_contract s') (so_wavelength s') (so_ema s') (so_dep s') -> s = s'.
Proof. destruct s, s'. unfold structure_with. cbn. intros (-> & -> & -> & -> & -> & -> & -> & ->). reflexivity. Qed.
Lemma struct_at_some w a s : nth_error (se_structs w) a = Some s -> struct_at w a = s.
Proof. intros H. unfold struct_at. apply nth_error_nth. exact H. Qed.

(** evaluations agree if Parameters, scatterers and components are the same, the structures are
    equal but for the wavelength, and offset and flag are *)
Lemma evaluation_agrees ext w w' m m' X : se_params w = se_params w' -> se_scats w = se_scats w' -> se_comps w = se_comps w' ->
  struct_at w (mo_struct (model_at w m)) = struct_at w' (mo_struct (model_at w' m')) ->
  mo_delta_offset (model_at w m) = mo_delta_offset (model_at w' m') -> mo_flip (model_at w m) = mo_flip (model_at w' m') ->
  evaluation ext w m X = evaluation ext w' m' X.
Proof.
  intros P Sc Co St Off Fl. unfold evaluation. rewrite <- St, <- Off, <- Fl.
  assert (V : value_of w = value_of w').
  { unfold value_of, settings_of, numbers. rewrite P. reflexivity. }
  assert (N : struct_now w (struct_at w (mo_struct (model_at w m))) = struct_now w' (struct_at w (mo_struct (model_at w m)))).
  { unfold struct_now, comp_now, comp_at, scat_at. rewrite Sc, Co. reflexivity. }
  rewrite V, N. reflexivity.
Qed.

Theorem new_structure_for_model ext w m a X o : exists_struct w a = true -> nth_error (se_models w) m = Some o ->
  let w' := snd (execute ext w (Set_structure m (O_struct a))) in
  let k := List.length (se_models w) in
  let w'' := run ext w [New_model (O_struct a) (mo_delta_offset o); Set_flip k (mo_flip o)] in
  evaluation ext w' m X = evaluation ext w'' k X.
Proof.
  intros H HM w' k w''.
  assert (M1 : nth_error (se_models w') m = Some (ModelObj a (mo_delta_offset o) (mo_flip o))).
  { unfold w'. cbn [execute exists_object]. rewrite H. cbn [snd with_models se_models]. rewrite nth_error_update, HM. reflexivity. }
  assert (M2 : nth_error (se_models w'') k = Some (ModelObj a (mo_delta_offset o) (mo_flip o))).
  { unfold w'', run. cbn [fold_left execute exists_object]. rewrite H. cbn [snd with_models se_models]. rewrite nth_error_update. rewrite nth_error_app2 by lia. unfold k. rewrite Nat.sub_diag. reflexivity. }
  assert (A1 : model_at w' m = ModelObj a (mo_delta_offset o) (mo_flip o)) by (unfold model_at; apply nth_error_nth; exact M1).
  assert (A2 : model_at w'' k = ModelObj a (mo_delta_offset o) (mo_flip o)) by (unfold model_at; apply nth_error_nth; exact M2).
  apply evaluation_agrees; rewrite ?A1, ?A2; unfold w', w'', run; cbn [fold_left execute exists_object]; rewrite ?H; reflexivity.
Qed.

Theorem joined_structure ext w m a b X s t o :
  nth_error (se_structs w) a = Some s -> nth_error (se_structs w) b = Some t ->
  (forall c, In c (so_data s ++ so_data t) -> exists_comp w c = true) ->
  (forall i, so_solvent s = Some i -> exists_scat w i = true) ->
  nth_error (se_models w) m = Some o -> mo_struct o = a ->
  let w' := snd (execute ext w (Ior a (O_struct b))) in
  let k := List.length (se_structs w) in
  let w'' := run ext w [New_struct (map O_comp (so_data s ++ so_data t)) (so_name s) (option_map O_scat (so_solvent s))
                          (so_reverse s) (so_contract s) (so_wavelength s) (so_ema s) (so_dep s);
                        Set_structure m (O_struct k)] in
  evaluation ext w' m X = evaluation ext w'' m X.
Proof.
  intros Ha Hb HC HS HM Em w' k w''.
  assert (EB : exists_struct w b = true) by (apply Nat.ltb_lt; apply nth_error_Some; congruence).
  pose proof (joins ext w a b EB) as [_ J]. fold w' in J.
  destruct (makes ext w) as (_ & _ & _ & NS & _).
  specialize (NS (so_data s ++ so_data t) (so_name s) (so_solvent s) (so_reverse s) (so_contract s) (so_wavelength s) (so_ema s) (so_dep s) HC HS).
  cbv zeta in NS. set (w1 := snd (execute ext w (New_struct _ _ _ _ _ _ _ _))) in NS.
  destruct NS as [_ (P1 & S1 & C1 & (sn & L1 & W1) & M1)].
  assert (EK : exists_struct w1 k = true) by (apply Nat.ltb_lt; rewrite L1, app_length; unfold k; cbn; lia).
  destruct (sets_model ext w1 m) as (SM & _). destruct (SM k EK) as [_ (P2 & S2 & C2 & St2 & M2)]. clear SM.
  assert (E2 : w'' = snd (execute ext w1 (Set_structure m (O_struct k)))) by reflexivity. rewrite <- E2 in P2, S2, C2, St2, M2.
  destruct M2 as (_ & _ & M2). destruct (M2 o) as (o2 & O2 & X1 & X2 & X3); [rewrite M1; exact HM|].
  destruct J as (P3 & S3 & C3 & (_ & _ & St3) & M3). destruct (St3 s Ha) as (s3 & Hs3 & W3).
  assert (MA : model_at w' m = o) by (unfold model_at; rewrite M3; apply nth_error_nth; exact HM).
  assert (MB : model_at w'' m = o2) by (unfold model_at; apply nth_error_nth; exact O2).
  apply evaluation_agrees; rewrite ?MA, ?MB; try congruence.
  rewrite Em, X1. rewrite (struct_at_some _ _ _ Hs3).
  assert (Ek : struct_at w'' k = sn).
  { apply struct_at_some. rewrite St2, L1, nth_error_app2 by (unfold k; lia). unfold k. rewrite Nat.sub_diag. reflexivity. }
  rewrite Ek. rewrite (struct_at_some _ _ _ Hb) in W3. apply structure_ext.
  destruct W1 as (-> & -> & -> & -> & -> & -> & -> & ->). exact W3.
Qed.

(** an object that is no scatterer is no solvent; a structure or anything else cannot be appended *)
Theorem refuses ext w a o : exists_object w o = true ->
  ((forall s, o <> O_scat s) -> execute ext w (Set_solvent a (Some o)) = (Raise ValueError, w) /\
     forall data name r c wl e d, (forall x, In x data -> exists_object w x = true) ->
       execute ext w (New_struct data name (Some o) r c wl e d) = (Raise ValueError, w)) /\
  ((forall s, o <> O_scat s) -> (forall c, o <> O_comp c) -> execute ext w (Append a o) = (Raise ValueError, w) /\
     ((forall b, o <> O_struct b) -> execute ext w (Ior a o) = (Raise ValueError, w))).
Proof.
  intros H. split.
  - intros N. split.
    + cbn [execute]. rewrite H. destruct o; try reflexivity. destruct (N a0); reflexivity.
    + intros data name r c wl e d F. cbn [execute].
      assert (G : forallb (exists_object w) data = true) by (apply forallb_forall; auto).
      rewrite G, H. cbn [andb]. destruct o; try reflexivity. destruct (N a0); reflexivity.
  - intros N M. cbn [execute]. rewrite H. destruct o as [c|s|b|].
    + destruct (M c); reflexivity.
    + destruct (N s); reflexivity.
    + split; [reflexivity|]. intros K. destruct (K b); reflexivity.
    + split; reflexivity.
Qed.

(** non-component objects in the list given to the constructor are left out *)
Theorem constructor_filters ext w data name r c wl e d : (forall x, In x data -> exists_object w x = true) ->
  let x := execute ext w (New_struct data name None r c wl e d) in
  fst x = Ok tt /\ only_structs (fun l l' => exists o cs, l' = l ++ [o] /\ structure_with o cs name None r c wl e d /\
     (forall i, In i cs <-> In (O_comp i) data)) w (snd x).
Proof.
  intros F. cbn [execute]. assert (G : forallb (exists_object w) data = true) by (apply forallb_forall; auto).
  rewrite G. cbn [andb solvent_arg fst snd]. split; [reflexivity|]. effect.
  do 2 eexists. split; [reflexivity|]. split; [unfold structure_with; cbn; conjs; reflexivity|].
  intros i. unfold comps_among. rewrite in_flat_map. split.
  - intros (o & Ho & Hi). destruct o as [c0| | |]; cbn in Hi; try contradiction. destruct Hi as [<-|[]]. exact Ho.
  - intros Hi. exists (O_comp i). split; [exact Hi|]. left. reflexivity.
Qed.
