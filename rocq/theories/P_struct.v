(** * Proofs about structures *)

Require Import Reals List Bool ZArith String Lra Lia.
From Coquelicot Require Import Complex.
From Verif Require Import Base Cplx M_ema Spec_ema P_ema M_disp M_struct Spec_struct.
Import ListNotations.
Open Scope list_scope.
Open Scope R_scope.

(** ** lists *)
Lemma mapR_app {A B} (f : A -> result B) l1 l2 :
  mapR f (l1 ++ l2) = rbind (mapR f l1) (fun a => rmap (fun b => a ++ b) (mapR f l2)).
Proof.
  induction l1 as [|x l1 IH]; simpl.
  - destruct (mapR f l2); reflexivity.
  - destruct (f x); simpl; auto. rewrite IH. destruct (mapR f l1); simpl; auto.
    destruct (mapR f l2); reflexivity.
Qed.
Lemma mapR_Forall2 {A B} (f : A -> result B) l bs :
  mapR f l = Ok bs <-> Forall2 (fun a b => f a = Ok b) l bs.
Proof.
  revert bs. induction l as [|a l IH]; intros bs; simpl.
  - split; intros H; [inversion H; constructor|inversion H; auto].
  - split; intros H.
    + destruct (f a) as [b|] eqn:E; simpl in H; [|discriminate].
      destruct (mapR f l) as [bs'|] eqn:E2; simpl in H; [|discriminate].
      inversion H; subst. constructor; auto. apply IH; auto.
    + inversion H; subst. rewrite H2. simpl. apply IH in H4. rewrite H4. reflexivity.
Qed.
Lemma F2_length {A B} (P : A -> B -> Prop) l m : Forall2 P l m -> List.length l = List.length m.
Proof. induction 1; simpl; auto. Qed.
Lemma F2_impl {A B} (P Q : A -> B -> Prop) l m : (forall a b, P a b -> Q a b) -> Forall2 P l m -> Forall2 Q l m.
Proof. intros H. induction 1; constructor; auto. Qed.
Lemma last_nth' {A} (l : list A) d : last l d = nth (List.length l - 1) l d.
Proof.
  induction l as [|a [|b l] IH]; auto.
  change (last (a :: b :: l) d) with (last (b :: l) d). rewrite IH. cbn [List.length].
  replace (S (S (List.length l)) - 1)%nat with (S (S (List.length l) - 1)) by lia. reflexivity.
Qed.
Lemma hd_error_rev_last {A} (l : list A) d x : hd_error (rev l) = Some x -> last l d = x.
Proof.
  intros H. destruct (rev l) as [|y r] eqn:E; [discriminate|].
  simpl in H. assert (y = x) by congruence. subst y.
  assert (l = rev r ++ [x]). { rewrite <- (rev_involutive l), E. reflexivity. }
  subst l. apply last_last.
Qed.

Lemma is_slab_spec c : is_slab c = true <-> is_SlabSE c.
Proof.
  unfold is_slab, is_SlabSE. split.
  - destruct (c_kind c); try discriminate. intros _. eauto.
  - intros [t [m [r [v E]]]]. rewrite E. reflexivity.
Qed.

(** ** C39 *)
Lemma set_dep_spec s v :
  (fst (set_depolarisation s v) = Ok tt <-> exists x, v = VNum x /\ 0 <= x <= 1) /\
  (forall x, v = VNum x -> 0 <= x <= 1 ->
     snd (set_depolarisation s v) =
     Structure (st_data s) (st_name s) (st_solvent s) (st_reverse s) (st_contract s) (st_wavelength s) (st_ema s) x) /\
  (fst (set_depolarisation s v) <> Ok tt -> snd (set_depolarisation s v) = s /\
     (fst (set_depolarisation s v) = Raise ValueError \/ exists e, v = VBad e)).
Proof.
  split; [|split].
  - split.
    + unfold set_depolarisation. destruct v; try discriminate.
      destruct (Rle_dec 0 x); [|discriminate]. destruct (Rle_dec x 1); [|discriminate].
      intros _. exists x. auto.
    + intros [x [-> H]]. unfold set_depolarisation.
      destruct (Rle_dec 0 x); [|lra]. destruct (Rle_dec x 1); [auto|lra].
  - intros x -> H. unfold set_depolarisation.
    destruct (Rle_dec 0 x); [|lra]. destruct (Rle_dec x 1); [auto|lra].
  - unfold set_depolarisation. destruct v; simpl.
    + destruct (Rle_dec 0 x); [destruct (Rle_dec x 1)|]; simpl; intros H; try congruence; auto.
    + auto.
    + intros _. split; auto. right. eauto.
Qed.


Lemma set_dep_cases s v : snd (set_depolarisation s v) = s \/
  exists x, v = VNum x /\ 0 <= x <= 1 /\ st_dep (snd (set_depolarisation s v)) = x.
Proof.
  unfold set_depolarisation. destruct v; simpl; auto.
  destruct (Rle_dec 0 x); [destruct (Rle_dec x 1)|]; simpl; auto.
  right. exists x. auto.
Qed.

Lemma dep_history vs : forall s, st_dep (assign_all s vs) = st_dep s \/ 0 <= st_dep (assign_all s vs) <= 1.
Proof.
  unfold assign_all. induction vs as [|v vs IH]; intros s; simpl; auto.
  destruct (IH (snd (set_depolarisation s v))) as [E|E]; auto.
  rewrite E. destruct (set_dep_cases s v) as [->|[x [_ [H ->]]]]; auto.
Qed.

(** ** tables *)
Lemma rows_of_slabs s c rs : rows_of s c rs ->
  exists o, component_slabs (view s) c = Ok o /\ (match o with Some r => r | None => [] end) = rs.
Proof.
  unfold rows_of, component_slabs, view, index_at. destruct (c_kind c); cbn [g_wavelength g_ema g_dep].
  - intros [n [-> H]]. unfold m_complex. rewrite H. simpl. eauto.
  - intros [a [b [n [-> [Ha [Hb H]]]]]]. unfold m_complex. rewrite Ha. simpl. rewrite Hb. simpl.
    rewrite H. simpl. eauto.
  - intros [H|[H ->]]; rewrite H; eauto.
Qed.

Lemma concat_slabs_spec s base :
  Forall2 (rows_of s) (st_data s) base -> concat_slabs s = Ok (List.concat base).
Proof.
  intros H. unfold concat_slabs.
  assert (exists os, mapR (component_slabs (view s)) (st_data s) = Ok os /\
     map (fun o => match o with Some r => r | None => [] end) os = base) as [os [E1 E2]].
  { induction H as [|c rs l bs Hc H [os [E1 E2]]]; simpl; [exists []; auto|].
    apply rows_of_slabs in Hc. destruct Hc as [o [Eo Er]].
    rewrite Eo. simpl. rewrite E1. simpl. exists (o :: os). split; auto. simpl. rewrite Er, E2. auto. }
  rewrite E1. simpl. rewrite E2. reflexivity.
Qed.

Lemma nth_map2 {A B D} (f : A -> B -> D) l m i da db dd : (i < List.length l)%nat -> (i < List.length m)%nat ->
  nth i (map2 f l m) dd = f (nth i l da) (nth i m db).
Proof.
  revert m i. induction l as [|a l IH]; intros [|b m] [|i] H1 H2; simpl in *; try lia; auto.
  apply IH; lia.
Qed.

Lemma reverse_spec rows : reversed_table rows (reverse_slabs rows).
Proof.
  unfold reversed_table, reverse_slabs.
  destruct (rev rows) as [|r0 rest] eqn:E.
  { assert (rows = []) by (destruct rows; auto; apply (f_equal (@List.length _)) in E; rewrite rev_length in E; discriminate).
    subst. simpl. repeat split; auto; intros; lia. }
  assert (L : List.length rows = S (List.length rest)) by (rewrite <- rev_length, E; reflexivity).
  assert (N : forall i, (i < List.length rows)%nat -> nth i (r0 :: rest) row0 = nth (List.length rows - 1 - i) rows row0).
  { intros i Hi. rewrite <- E. rewrite rev_nth by auto. f_equal. lia. }
  assert (Lr : List.length (rev (map s_rough (tl rows))) = List.length rest).
  { rewrite rev_length, map_length. destruct rows; simpl in *; lia. }
  split; [|split; [|split]].
  - simpl. rewrite map2_length, Lr, Nat.min_id. auto.
  - reflexivity.
  - intros i Hi. rewrite <- N by auto. destruct i as [|i]; [simpl; auto|].
    cbn [nth]. rewrite (nth_map2 _ _ _ _ row0 0) by lia. simpl. auto.
  - intros [|i] Hi; [lia|]. cbn [nth]. rewrite (nth_map2 _ _ _ _ row0 0) by lia.
    cbn [set_rough s_rough]. rewrite rev_nth by (rewrite rev_length in Lr; lia).
    rewrite rev_length in Lr. rewrite Lr. rewrite (map_nth s_rough (tl rows) row0).
    destruct rows as [|x rows]; [simpl in L; lia|]. cbn [tl List.length] in *.
    replace (S (List.length rows) - S i)%nat with (S (List.length rest - S i)) by lia. reflexivity.
Qed.

Lemma row_ext a b : s_thick a = s_thick b -> s_ri a = s_ri b -> s_rough a = s_rough b -> s_vf a = s_vf b -> a = b.
Proof. destruct a, b; simpl; congruence. Qed.

Lemma reversed_unique a b c : reversed_table a b -> reversed_table a c -> b = c.
Proof.
  intros [L1 [Z1 [A1 R1]]] [L2 [Z2 [A2 R2]]].
  apply (nth_ext _ _ row0 row0); [lia|]. intros i Hi. rewrite L1 in Hi.
  destruct (A1 i Hi) as [? [? ?]]. destruct (A2 i Hi) as [? [? ?]].
  apply row_ext; try congruence.
  destruct i as [|i]; [congruence|]. rewrite R1, R2 by lia. auto.
Qed.

Lemma reversed_twice a b c : reversed_table a b -> reversed_table b c ->
  List.length c = List.length a /\
  (forall i, (0 < i < List.length a)%nat -> nth i c row0 = nth i a row0) /\
  s_thick (nth 0 c row0) = s_thick (nth 0 a row0) /\ s_ri (nth 0 c row0) = s_ri (nth 0 a row0) /\
  s_vf (nth 0 c row0) = s_vf (nth 0 a row0) /\ s_rough (nth 0 c row0) = 0.
Proof.
  intros [L1 [Z1 [A1 R1]]] [L2 [Z2 [A2 R2]]]. rewrite L1 in *.
  assert (A : forall i, (i < List.length a)%nat ->
    s_thick (nth i c row0) = s_thick (nth i a row0) /\ s_ri (nth i c row0) = s_ri (nth i a row0) /\
    s_vf (nth i c row0) = s_vf (nth i a row0)).
  { intros i Hi. destruct (A2 i Hi) as [-> [-> ->]].
    destruct (A1 (List.length a - 1 - i)%nat ltac:(lia)) as [-> [-> ->]].
    replace (List.length a - 1 - (List.length a - 1 - i))%nat with i by lia. auto. }
  split; [lia|]. split.
  - intros i Hi. destruct (A i ltac:(lia)) as [? [? ?]]. apply row_ext; auto.
    rewrite R2 by lia. rewrite R1 by lia. f_equal. f_equal. lia.
  - destruct a as [|x a].
    + destruct c; [|simpl in L2; lia]. simpl. auto.
    + destruct (A 0%nat ltac:(simpl; lia)) as [? [? ?]]. auto.
Qed.

(** ** solvation *)
Lemma existsb_solvated tbl :
  existsb (fun r => if Rlt_dec 0 (s_vf r) then true else false) tbl = true <-> some_solvated tbl.
Proof.
  rewrite existsb_exists. unfold some_solvated. split; intros [r [H1 H2]]; exists r; split; auto.
  - destruct (Rlt_dec 0 (s_vf r)); [auto|discriminate].
  - destruct (Rlt_dec 0 (s_vf r)); auto.
Qed.

Lemma known_total ema d a b vf : known_ema ema = true -> exists n, overall_ri_nan a b vf ema d = Ok n.
Proof.
  unfold known_ema, overall_ri_nan, overall_ri. intros H.
  destruct a, b; destruct (String.eqb ema "linear"); simpl in *; eauto;
  destruct (String.eqb ema "maxwell-garnett"); simpl in *; eauto;
  destruct (String.eqb ema "bruggeman"); simpl in *; eauto; discriminate.
Qed.

Lemma mix_total ema d solv rows : known_ema ema = true -> exists rs, mapR (mix_slab ema d solv) rows = Ok rs.
Proof.
  intros H. induction rows as [|r rows [rs IH]]; simpl; [eauto|].
  unfold mix_slab at 1. destruct (known_total ema d (s_ri r) solv (s_vf r) H) as [n ->]. simpl.
  rewrite IH. simpl. eauto.
Qed.

Lemma inner_decomp {A} (a b : A) l : inner (a :: l ++ [b]) = l.
Proof. unfold inner. simpl. apply removelast_last. Qed.

Lemma set_inner_spec s tbl y new :
  Forall2 (fun r r' => mix_slab (st_ema s) (st_dep s) (Some y) r = Ok r') (inner tbl) new ->
  solvated s tbl y (set_inner tbl new).
Proof.
  intros H. destruct tbl as [|r0 [|r1 rest]].
  - split; auto. intros i Hi. simpl in Hi. lia.
  - split; auto. intros i Hi. simpl in Hi. assert (i = 0%nat) by lia. subst i. simpl.
    repeat split; auto; lia.
  - destruct (exists_last (l := r1 :: rest) ltac:(discriminate)) as [mid [rl E]]. rewrite E in *.
    rewrite inner_decomp in H.
    assert (ES : set_inner (r0 :: mid ++ [rl]) new = r0 :: new ++ [rl]).
    { unfold set_inner. destruct (mid ++ [rl]) eqn:E'; [destruct mid; discriminate|].
      rewrite <- E'. f_equal. f_equal. f_equal. rewrite app_comm_cons. apply last_last. }
    rewrite ES.
    pose proof (F2_length _ _ _ H) as L.
    assert (LT : List.length (r0 :: mid ++ [rl]) = S (S (List.length mid))) by (simpl; rewrite app_length; simpl; lia).
    split; [simpl; rewrite !app_length; simpl; lia|].
    rewrite LT. intros i Hi. destruct i as [|i].
    + simpl. repeat split; auto; lia.
    + cbn [nth]. destruct (Nat.eq_dec i (List.length mid)) as [->|Ne].
      * assert (N1 : nth (List.length mid) (mid ++ [rl]) row0 = rl)
          by (rewrite app_nth2, Nat.sub_diag by lia; reflexivity).
        assert (N2 : nth (List.length mid) (new ++ [rl]) row0 = rl)
          by (rewrite L, app_nth2, Nat.sub_diag by lia; reflexivity).
        rewrite N1, N2. repeat split; auto; lia.
      * rewrite !app_nth1 by lia.
        assert (Hm : mix_slab (st_ema s) (st_dep s) (Some y) (nth i mid row0) = Ok (nth i new row0)).
        { clear - H Hi Ne. assert (Hi' : (i < List.length mid)%nat) by lia. clear Hi Ne.
          revert i Hi'. induction H; intros [|i] Hi; simpl in *; try lia; auto. apply IHForall2. lia. }
        unfold mix_slab in Hm.
        destruct (overall_ri_nan (s_ri (nth i mid row0)) (Some y) (s_vf (nth i mid row0)) (st_ema s) (st_dep s))
          as [n|e] eqn:En; simpl in Hm; [|discriminate].
        assert (nth i new row0 = mkSlab (s_thick (nth i mid row0)) n (s_rough (nth i mid row0)) (s_vf (nth i mid row0))) as -> by congruence.
        cbn [s_thick s_rough s_vf s_ri].
        do 3 (split; [reflexivity|]). split; [lia|]. split.
        -- intros _ n0 E0. rewrite E0 in En. unfold overall_ri_nan in En.
           destruct (overall_ri n0 y (s_vf (nth i mid row0)) (st_ema s) (st_dep s)) as [m|]; simpl in En; [|discriminate].
           exists m. split; auto. congruence.
        -- intros _ E0. rewrite E0 in En. unfold overall_ri_nan in En.
           destruct (String.eqb_spec (st_ema s) "linear") as [->|_]; [simpl; congruence|].
           destruct (String.eqb_spec (st_ema s) "maxwell-garnett") as [->|_]; [simpl; congruence|].
           destruct (String.eqb (st_ema s) "bruggeman"); congruence.
Qed.

Lemma solvate_spec s tbl y : some_solvated tbl -> solvent_index s tbl (Some y) -> known_ema (st_ema s) = true ->
  exists rows, solvate s tbl = Ok rows /\ solvated s tbl y rows.
Proof.
  intros H1 H2 H3. unfold solvate. apply existsb_solvated in H1. rewrite H1.
  replace (match st_solvent s with
           | Some sc => sc_complex sc (st_wavelength s)
           | None => Ok (s_ri (last tbl (mkSlab 0 None 0 0)))
           end) with (@Ok (option C) (Some y)).
  2:{ unfold solvent_index in H2. destruct (st_solvent s); auto. rewrite last_nth'. f_equal. auto. }
  simpl. unfold mix_slabs. rewrite H3.
  destruct (mix_total (st_ema s) (st_dep s) (Some y) (inner tbl) H3) as [rs E]. rewrite E. simpl.
  exists (set_inner tbl rs). split; auto. apply set_inner_spec. apply mapR_Forall2. exact E.
Qed.

Lemma solvate_none s tbl : ~ some_solvated tbl -> solvate s tbl = Ok tbl.
Proof.
  intros H. unfold solvate. destruct existsb eqn:E; auto. apply existsb_solvated in E. contradiction.
Qed.

Lemma solvate_unknown s tbl v : some_solvated tbl -> solvent_index s tbl v -> known_ema (st_ema s) = false ->
  solvate s tbl = Raise RuntimeError.
Proof.
  intros H1 H2 H3. unfold solvate. apply existsb_solvated in H1. rewrite H1.
  replace (match st_solvent s with
           | Some sc => sc_complex sc (st_wavelength s)
           | None => Ok (s_ri (last tbl (mkSlab 0 None 0 0)))
           end) with (@Ok (option C) v).
  2:{ unfold solvent_index in H2. destruct (st_solvent s); auto. rewrite last_nth'. f_equal. auto. }
  simpl. unfold mix_slabs. rewrite H3. reflexivity.
Qed.

Lemma known_ema_spec ema : known_ema ema = true <->
  ema = "linear"%string \/ ema = "maxwell-garnett"%string \/ ema = "bruggeman"%string.
Proof.
  unfold known_ema. rewrite !orb_true_iff, !String.eqb_eq. tauto.
Qed.

(** ** the whole pipeline *)

Lemma with_wavelength_eq s kw : with_wavelength s kw =
  match kw with Some w => set_wavelength s (Some w) | None => s end.
Proof. destruct kw; reflexivity. Qed.

Lemma slab_ends_test l c0 rest : slab_ends l -> l = c0 :: rest -> is_slab (last l c0) && is_slab c0 = true.
Proof.
  intros [a [b [H1 [H2 [H3 H4]]]]] E. apply andb_true_iff. rewrite !is_slab_spec.
  rewrite E in H1. simpl in H1. assert (c0 = a) by congruence. subst a. split; auto.
  rewrite (hd_error_rev_last _ _ _ H2). auto.
Qed.

Lemma slabs_pipeline ext s kw base : slab_ends (st_data s) ->
  Forall (fun c => c_default_interface c = true) (st_data s) -> st_contract s <= 0 ->
  Forall2 (rows_of (with_wavelength s kw)) (st_data s) base ->
  exists tbl, in_order s (List.concat base) tbl /\
  structure_slabs ext s kw = (rmap (@Some _) (solvate (with_wavelength s kw) tbl), with_wavelength s kw).
Proof.
  intros HE HI HC HB.
  exists (if st_reverse s then reverse_slabs (List.concat base) else List.concat base). split.
  - unfold in_order. destruct (st_reverse s); [apply reverse_spec|reflexivity].
  - unfold structure_slabs. destruct (st_data s) as [|c0 rest] eqn:E.
    { destruct HE as [? [? [? _]]]. discriminate. }
    rewrite (slab_ends_test _ c0 rest) by (auto; rewrite E; auto). cbn [negb].
    rewrite <- with_wavelength_eq.
    assert (D : st_data (with_wavelength s kw) = c0 :: rest) by (destruct kw; simpl; auto).
    assert (Rv : st_reverse (with_wavelength s kw) = st_reverse s) by (destruct kw; simpl; auto).
    assert (Ct : st_contract (with_wavelength s kw) = st_contract s) by (destruct kw; simpl; auto).
    rewrite D, Rv, Ct.
    rewrite (proj2 (forallb_forall c_default_interface (c0 :: rest))) by (apply Forall_forall; auto).
    rewrite (concat_slabs_spec (with_wavelength s kw) base) by (rewrite D; auto).
    cbn [rbind]. destruct (Rlt_dec 0 (st_contract s)); [lra|]. reflexivity.
Qed.

Lemma slabs_empty ext s kw : st_data s = [] -> structure_slabs ext s kw = (Ok None, s).
Proof. intros E. unfold structure_slabs. rewrite E. reflexivity. Qed.

Lemma slabs_bad_ends ext s kw : st_data s <> [] -> ~ slab_ends (st_data s) ->
  structure_slabs ext s kw = (Raise ValueError, s).
Proof.
  intros H1 H2. unfold structure_slabs. destruct (st_data s) as [|c0 rest] eqn:E; [congruence|].
  destruct (is_slab (last (c0 :: rest) c0) && is_slab c0) eqn:B; [|reflexivity].
  exfalso. apply H2. apply andb_true_iff in B. rewrite !is_slab_spec in B. destruct B as [B1 B2].
  exists c0, (last (c0 :: rest) c0). split; auto. split; [|auto].
  destruct (exists_last (l := c0 :: rest) ltac:(discriminate)) as [m [x Ex]].
  rewrite Ex, rev_app_distr, last_last. reflexivity.
Qed.

(** an exception in a component's index is the exception of the table *)
Lemma slabs_raise ext s kw pre c post base e : st_data s = pre ++ c :: post -> slab_ends (st_data s) ->
  Forall (fun c => c_default_interface c = true) (st_data s) ->
  Forall2 (rows_of (with_wavelength s kw)) pre base ->
  component_slabs (view (with_wavelength s kw)) c = Raise e ->
  structure_slabs ext s kw = (Raise e, with_wavelength s kw).
Proof.
  intros E HE HI HB HR. unfold structure_slabs. destruct (st_data s) as [|c0 rest] eqn:Ed.
  { destruct pre; discriminate. }
  rewrite (slab_ends_test _ c0 rest) by (auto; rewrite Ed; auto). cbn [negb].
  rewrite <- with_wavelength_eq.
  assert (D : st_data (with_wavelength s kw) = c0 :: rest) by (destruct kw; simpl; auto).
  rewrite D.
  rewrite (proj2 (forallb_forall c_default_interface (c0 :: rest))) by (apply Forall_forall; auto).
  unfold concat_slabs. rewrite D, E, mapR_app.
  assert (exists os, mapR (component_slabs (view (with_wavelength s kw))) pre = Ok os) as [os Eo].
  { clear - HB. induction HB as [|x y l m H HB [os IH]]; simpl; eauto.
    apply rows_of_slabs in H. destruct H as [o [-> _]]. simpl. rewrite IH. simpl. eauto. }
  rewrite Eo. cbn [rbind mapR]. rewrite HR. reflexivity.
Qed.

(** ** building *)
Lemma update_last {A} (w : list A) x f : update (w ++ [x]) (List.length w) f = w ++ [f x].
Proof. induction w; simpl; auto. f_equal. auto. Qed.

Lemma get_app1 (w : world) x a : (a < List.length w)%nat -> get (w ++ x) a = get w a.
Proof. intros H. unfold get. apply app_nth1. auto. Qed.

Lemma nth_error_get w a s : nth_error w a = Some s -> get w a = s /\ (a < List.length w)%nat.
Proof.
  intros H. split.
  - unfold get. apply nth_error_nth. auto.
  - apply nth_error_Some. congruence.
Qed.

Lemma ior_last w s o cs : operand w o cs ->
  ior (w ++ [s]) (List.length w) o = (Ok tt, w ++ [set_data s (st_data s ++ cs)]).
Proof.
  intros H. destruct o; simpl in H.
  - subst. unfold ior, append. rewrite update_last. reflexivity.
  - subst. unfold ior, append. rewrite update_last. reflexivity.
  - destruct H as [t [E ->]]. apply nth_error_get in E. destruct E as [E L].
    unfold ior. rewrite update_last. rewrite get_app1 by auto. rewrite E. reflexivity.
  - contradiction.
Qed.

Lemma ior_spec w a s o cs : nth_error w a = Some s -> operand w o cs ->
  ior w a o = (Ok tt, update w a (fun s => set_data s (st_data s ++ cs))).
Proof.
  intros H1 H2. destruct o; simpl in H2.
  - subst. reflexivity.
  - subst. reflexivity.
  - destruct H2 as [t [E ->]]. apply nth_error_get in E. destruct E as [E L].
    unfold ior. rewrite E. reflexivity.
  - contradiction.
Qed.

Lemma set_data_twice s a b : set_data (set_data s a) b = set_data s b.
Proof. reflexivity. Qed.

Lemma or_spec w x y cx cy : operand w x cx -> operand w y cy ->
  or_ w x y = (Ok (List.length w), w ++ [set_data empty_structure (cx ++ cy)]).
Proof.
  intros Hx Hy.
  assert (G : forall x, operand w x cx ->
    match ior (w ++ [empty_structure]) (List.length w) x with
      | (Ok _, w1) => match ior w1 (List.length w) y with
                      | (Ok _, w2) => (Ok (List.length w), w2)
                      | (Raise e, _) => (Raise e, w)
                      end
      | (Raise e, _) => (Raise e, w)
      end = (Ok (List.length w), w ++ [set_data empty_structure (cx ++ cy)])).
  { intros x' Hx'. rewrite (ior_last w empty_structure x' cx Hx').
    rewrite (ior_last w _ y cy Hy). rewrite set_data_twice. reflexivity. }
  destruct x; unfold or_; try (apply G; exact Hx).
  - simpl in Hx. contradiction.
Qed.

Lemma or_bad w x cx : operand w x cx -> or_ w x POther = (Raise ValueError, w).
Proof.
  intros Hx. destruct x; unfold or_.
  - rewrite (ior_last w empty_structure _ cx Hx). reflexivity.
  - rewrite (ior_last w empty_structure (PComp (call_scatterer m 0 0 0)) cx) by exact Hx. reflexivity.
  - rewrite (ior_last w empty_structure _ cx Hx). reflexivity.
  - contradiction.
Qed.

Lemma operand_ext w w' o cs : operand w o cs -> operand (w ++ w') o cs.
Proof.
  destruct o; simpl; auto. intros [s [E ->]]. exists s. split; auto.
  rewrite nth_error_app1; auto. apply nth_error_Some. congruence.
Qed.

Lemma chain_spec ys : forall w x cx cys, operand w x cx -> Forall2 (operand w) ys cys ->
  exists o w', or_chain w x ys = (Ok o, w ++ w') /\ operand (w ++ w') o (cx ++ List.concat cys).
Proof.
  induction ys as [|y ys IH]; intros w x cx cys Hx Hys; inversion Hys; subst.
  - exists x, []. simpl. rewrite !app_nil_r. auto.
  - simpl. rewrite (or_spec w x y cx y0 Hx H1).
    destruct (IH (w ++ [set_data empty_structure (cx ++ y0)]) (PStruct (List.length w)) (cx ++ y0) l') as [o [w' [E H]]].
    + simpl. eexists. split; [rewrite nth_error_app2 by lia; rewrite Nat.sub_diag; reflexivity|]. reflexivity.
    + eapply F2_impl; [|exact H3]. intros. apply operand_ext. auto.
    + exists o, ([set_data empty_structure (cx ++ y0)] ++ w').
      rewrite <- app_assoc in E, H. split; [exact E|].
      cbn [List.concat]. rewrite (app_assoc cx). exact H.
Qed.

Lemma mul_spec w c n :
  ((n < 1)%Z -> mul_component w c n = (PStruct (List.length w), w ++ [empty_structure])) /\
  (n = 1%Z -> mul_component w c n = (PComp c, w)) /\
  ((2 <= n)%Z -> mul_component w c n =
     (PStruct (List.length w), w ++ [set_data empty_structure (repeat c (Z.to_nat n))])).
Proof.
  unfold mul_component. repeat split; intros H.
  - apply Z.ltb_lt in H. rewrite H. reflexivity.
  - subst. reflexivity.
  - destruct (Z.ltb_spec n 1); [lia|]. destruct (Z.eqb_spec n 1); [lia|]. reflexivity.
Qed.

(** ** constructor against append *)

Lemma append_all_comps l : forall w s, Forall (fun o => exists c, o = PComp c) l ->
  append_all (w ++ [s]) (List.length w) l = (Ok tt, w ++ [set_data s (st_data s ++ components_in l)]).
Proof.
  induction l as [|o l IH]; intros w s H; simpl.
  - rewrite app_nil_r. destruct s; reflexivity.
  - inversion H; subst. destruct H2 as [c ->]. simpl. rewrite update_last. rewrite IH by auto.
    rewrite set_data_twice. simpl. rewrite <- app_assoc. reflexivity.
Qed.

Lemma append_all_data l : forall w s s', append_all (w ++ [s]) (List.length w) l = (Ok tt, w ++ [s']) ->
  List.length (st_data s') = (List.length (st_data s) + List.length l)%nat.
Proof.
  induction l as [|o l IH]; intros w s s' H; simpl in H.
  - assert (w ++ [s] = w ++ [s']) as E by congruence. apply app_inv_head in E. simpl. assert (s = s') by congruence. subst. lia.
  - destruct o; simpl in H; try discriminate; rewrite update_last in H; apply IH in H;
      rewrite H; simpl; rewrite app_length; simpl; lia.
Qed.

Lemma components_in_length l : (List.length (components_in l) <= List.length l)%nat /\
  (List.length (components_in l) = List.length l -> Forall (fun o => exists c, o = PComp c) l).
Proof.
  induction l as [|o l [IH1 IH2]]; simpl; [split; auto|].
  destruct o; simpl; split; try lia; intros H.
  - constructor; eauto.
Qed.

Lemma ctor_append_agree w l name solvent reverse contract wl ema dep :
  append_all (w ++ [new_structure [] name solvent reverse contract wl ema dep]) (List.length w) l =
    (Ok tt, w ++ [new_structure l name solvent reverse contract wl ema dep]) <->
  Forall (fun o => exists c, o = PComp c) l.
Proof.
  split; intros H.
  - apply append_all_data in H. simpl in H. apply components_in_length. auto.
  - rewrite append_all_comps by auto. reflexivity.
Qed.

(** ** profiles *)
Lemma Rsum_app l1 l2 : Rsum (l1 ++ l2) = Rsum l1 + Rsum l2.
Proof. induction l1; simpl; lra. Qed.

Lemma firstn_removelast {A} n (l : list A) : (n < List.length l)%nat -> firstn n (removelast l) = firstn n l.
Proof.
  intros H. destruct (exists_last (l := l)) as [m [x E]]; [destruct l; simpl in *; [lia|discriminate]|].
  subst l. rewrite removelast_last, firstn_app. rewrite app_length in H. simpl in H.
  replace (n - List.length m)%nat with 0%nat by lia. rewrite app_nil_r. reflexivity.
Qed.

Lemma offset_depth rows i : (2 <= List.length rows)%nat -> (i <= List.length rows - 1)%nat ->
  Rsum (firstn i (inner_thicknesses rows)) = depth rows i.
Proof.
  intros L Hi. unfold depth. rewrite Nat.min_l by auto.
  destruct rows as [|r0 [|r1 rest]]; try (simpl in L; lia).
  unfold inner_thicknesses. cbn [map tl]. set (t := map s_thick (r1 :: rest)).
  change (match t with [] => [0] | _ :: _ => 0 :: removelast t ++ [0] end) with (0 :: removelast t ++ [0]).
  destruct i as [|i]; [reflexivity|]. replace (S i - 1)%nat with i by lia.
  cbn [firstn]. unfold Rsum at 1. cbn [fold_right]. rewrite Rplus_0_l. fold (Rsum (firstn i (removelast t ++ [0]))).
  assert (Lt : List.length t = S (List.length rest)) by (unfold t; rewrite map_length; reflexivity).
  simpl in Hi.
  change (s_thick r1 :: map s_thick rest) with t.
  assert (LR : List.length (removelast t) = List.length rest).
  { destruct (exists_last (l := t)) as [m [x E]]; [intros E; rewrite E in Lt; discriminate|].
    rewrite E in *. rewrite removelast_last. rewrite app_length in Lt. simpl in Lt. lia. }
  rewrite firstn_app. rewrite firstn_removelast by lia.
  replace (i - List.length (removelast t))%nat with 0%nat by lia. rewrite app_nil_r.
  unfold t. rewrite firstn_map. reflexivity.
Qed.

Lemma inner_thicknesses_length rows : List.length (inner_thicknesses rows) = List.length rows.
Proof.
  unfold inner_thicknesses. destruct rows as [|a [|b rest]]; simpl; auto.
  f_equal. destruct (exists_last (l := s_thick b :: map s_thick rest)) as [m [x E]]; [discriminate|].
  change (List.length (removelast (s_thick b :: map s_thick rest) ++ [0]) = S (List.length rest)).
  rewrite E, removelast_last, app_length. apply (f_equal (@List.length _)) in E. rewrite app_length in E.
  simpl in *. rewrite map_length in E. lia.
Qed.

(** the interface that [align] names: the front of slab [i] *)

Lemma ri_profile_align ext s z align rows : fst (structure_slabs ext s None) = Ok (Some rows) ->
  (2 <= List.length rows)%nat ->
  (align = 0%Z -> ri_profile ext s z align = Ok (x_profile ext rows z)) /\
  ((align <> 0)%Z -> (- Z.of_nat (List.length rows) <= align < Z.of_nat (List.length rows) - 1)%Z ->
     ri_profile ext s z align =
     Ok (map (fun x => x - depth rows (aligned_slab (List.length rows) align)) (fst (x_profile ext rows z)),
         snd (x_profile ext rows z))) /\
  ((align <> 0)%Z -> ~ (- Z.of_nat (List.length rows) <= align < Z.of_nat (List.length rows) - 1)%Z ->
     ri_profile ext s z align = Raise RuntimeError).
Proof.
  intros E L. unfold ri_profile. rewrite E.
  destruct (Nat.ltb_spec (List.length rows) 2); [lia|].
  destruct (x_profile ext rows z) as [zed ri]. cbn [fst snd].
  split; [|split].
  - intros ->. reflexivity.
  - intros H1 H2. destruct (Z.eqb_spec align 0); [lia|].
    destruct (Z.leb_spec (Z.of_nat (List.length rows) - 1) align); [lia|].
    destruct (Z.ltb_spec align (- Z.of_nat (List.length rows))); [lia|]. cbn [orb].
    f_equal. f_equal. apply map_ext. intros x. f_equal. unfold profile_offset, aligned_slab.
    rewrite inner_thicknesses_length.
    destruct (Z.leb_spec 0 align); apply offset_depth; lia.
  - intros H1 H2. destruct (Z.eqb_spec align 0); [lia|].
    destruct (Z.leb_spec (Z.of_nat (List.length rows) - 1) align); [reflexivity|].
    destruct (Z.ltb_spec align (- Z.of_nat (List.length rows))); [reflexivity|lia].
Qed.

Lemma ri_profile_invalid ext s z align :
  (st_data s = [] -> ri_profile ext s z align = Raise ValueError) /\
  (~ slab_ends (st_data s) -> ri_profile ext s z align = Raise ValueError) /\
  (forall rows, fst (structure_slabs ext s None) = Ok (Some rows) -> (List.length rows < 2)%nat ->
     ri_profile ext s z align = Raise ValueError).
Proof.
  split; [|split].
  - intros H. unfold ri_profile. rewrite slabs_empty by auto. reflexivity.
  - intros H. destruct (st_data s) eqn:E.
    + unfold ri_profile. rewrite slabs_empty by auto. reflexivity.
    + unfold ri_profile. rewrite slabs_bad_ends; [reflexivity|rewrite E; discriminate|rewrite E; auto].
  - intros rows E L. unfold ri_profile. rewrite E. destruct (Nat.ltb_spec (List.length rows) 2); [auto|lia].
Qed.
