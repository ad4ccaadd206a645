(** * Structures: composed statements and concrete instances *)

Require Import Reals List Bool ZArith String Lra Lia.
From Coquelicot Require Import Complex.
From Verif Require Import Base Cplx M_ema Spec_ema P_ema M_disp M_struct Spec_struct P_struct.
Import ListNotations.
Open Scope list_scope.
Open Scope R_scope.

Lemma in_order_unique s base t t' : in_order s base t -> in_order s base t' -> t = t'.
Proof.
  unfold in_order. destruct (st_reverse s); [apply reversed_unique|congruence].
Qed.

Lemma slabs_of_order ext s kw base tbl : slab_ends (st_data s) ->
  Forall (fun c => c_default_interface c = true) (st_data s) -> st_contract s <= 0 ->
  Forall2 (rows_of (with_wavelength s kw)) (st_data s) base ->
  in_order s (List.concat base) tbl ->
  structure_slabs ext s kw = (rmap (@Some _) (solvate (with_wavelength s kw) tbl), with_wavelength s kw).
Proof.
  intros H1 H2 H3 H4 H5. destruct (slabs_pipeline ext s kw base H1 H2 H3 H4) as (t & O & E).
  rewrite (in_order_unique _ _ _ _ H5 O). exact E.
Qed.

Lemma slabs_plain ext s kw base tbl : slab_ends (st_data s) ->
  Forall (fun c => c_default_interface c = true) (st_data s) -> st_contract s <= 0 ->
  Forall2 (rows_of (with_wavelength s kw)) (st_data s) base ->
  in_order s (List.concat base) tbl -> ~ some_solvated tbl ->
  structure_slabs ext s kw = (Ok (Some tbl), with_wavelength s kw).
Proof.
  intros H1 H2 H3 H4 H5 H6. rewrite (slabs_of_order ext s kw base tbl) by auto.
  rewrite solvate_none by auto. reflexivity.
Qed.

Lemma concat_singles {A} (l : list A) : List.concat (map (fun x => [x]) l) = l.
Proof. induction l; simpl; congruence. Qed.

(** one row per component *)
Lemma slabs_one_each ext s kw rows : slab_ends (st_data s) ->
  Forall (fun c => c_default_interface c = true) (st_data s) -> st_contract s <= 0 ->
  st_reverse s = false ->
  Forall2 (fun c r => rows_of (with_wavelength s kw) c [r]) (st_data s) rows -> ~ some_solvated rows ->
  structure_slabs ext s kw = (Ok (Some rows), with_wavelength s kw).
Proof.
  intros H1 H2 H3 H4 H5 H6. apply (slabs_plain ext s kw (map (fun x => [x]) rows)); auto.
  - clear - H5. induction H5; simpl; constructor; auto.
  - unfold in_order. rewrite H4, concat_singles. reflexivity.
Qed.

Lemma slabs_solvated ext s kw base tbl y : slab_ends (st_data s) ->
  Forall (fun c => c_default_interface c = true) (st_data s) -> st_contract s <= 0 ->
  Forall2 (rows_of (with_wavelength s kw)) (st_data s) base ->
  in_order s (List.concat base) tbl -> some_solvated tbl ->
  solvent_index (with_wavelength s kw) tbl (Some y) ->
  st_ema s = "linear"%string \/ st_ema s = "maxwell-garnett"%string \/ st_ema s = "bruggeman"%string ->
  exists rows, structure_slabs ext s kw = (Ok (Some rows), with_wavelength s kw) /\
               solvated (with_wavelength s kw) tbl y rows.
Proof.
  intros H1 H2 H3 H4 H5 H6 H7 H8. rewrite (slabs_of_order ext s kw base tbl) by auto.
  destruct (solvate_spec (with_wavelength s kw) tbl y H6 H7) as (rows & E & S).
  { apply known_ema_spec. destruct kw; auto. }
  rewrite E. exists rows. auto.
Qed.

Lemma slabs_unknown_ema ext s kw base tbl v : slab_ends (st_data s) ->
  Forall (fun c => c_default_interface c = true) (st_data s) -> st_contract s <= 0 ->
  Forall2 (rows_of (with_wavelength s kw)) (st_data s) base ->
  in_order s (List.concat base) tbl -> some_solvated tbl ->
  solvent_index (with_wavelength s kw) tbl v ->
  ~ (st_ema s = "linear"%string \/ st_ema s = "maxwell-garnett"%string \/ st_ema s = "bruggeman"%string) ->
  structure_slabs ext s kw = (Raise RuntimeError, with_wavelength s kw).
Proof.
  intros H1 H2 H3 H4 H5 H6 H7 H8. rewrite (slabs_of_order ext s kw base tbl) by auto.
  rewrite (solvate_unknown _ tbl v) by (auto; destruct (known_ema _) eqn:E; auto;
    apply known_ema_spec in E; destruct kw; contradiction). reflexivity.
Qed.

Lemma slabs_solvent_raises ext s kw base tbl sc e : slab_ends (st_data s) ->
  Forall (fun c => c_default_interface c = true) (st_data s) -> st_contract s <= 0 ->
  Forall2 (rows_of (with_wavelength s kw)) (st_data s) base ->
  in_order s (List.concat base) tbl -> some_solvated tbl ->
  st_solvent s = Some sc -> sc_complex sc (st_wavelength (with_wavelength s kw)) = Raise e ->
  structure_slabs ext s kw = (Raise e, with_wavelength s kw).
Proof.
  intros H1 H2 H3 H4 H5 H6 H7 H8. rewrite (slabs_of_order ext s kw base tbl) by auto.
  unfold solvate. rewrite (proj2 (existsb_solvated tbl)) by auto.
  assert (st_solvent (with_wavelength s kw) = Some sc) as -> by (destruct kw; auto).
  rewrite H8. reflexivity.
Qed.

(** rows that are not solvated *)
Lemma zero_fraction s tbl y rows i n : solvated s tbl y rows -> (0 < i < List.length tbl - 1)%nat ->
  s_vf (nth i tbl row0) = 0 -> s_ri (nth i tbl row0) = Some n -> right_half n ->
  (st_ema s = "linear"%string \/
   st_ema s = "maxwell-garnett"%string /\ mg_bottom (n * n)%C (y * y)%C 0 (st_dep s) <> RtoC 0 \/
   st_ema s = "bruggeman"%string /\ st_dep s <> 1 /\ right_half (weighted (n * n)%C (y * y)%C (st_dep s))) ->
  nth i rows row0 = nth i tbl row0.
Proof.
  intros [_ S] Hi Hv Hn HR Hm. destruct (S i ltac:(lia)) as (S1 & S2 & S3 & _ & S5 & _).
  destruct (S5 Hi n Hn) as (m & E & Em). rewrite Hv in E.
  apply row_ext; auto. rewrite Em, Hn. f_equal.
  destruct Hm as [L|[[L Hb]|[L [Hd Hw]]]]; rewrite L in E.
  - rewrite (proj1 (linear_limits n y (st_dep s)) HR) in E. congruence.
  - rewrite (proj1 (mg_limits n y (st_dep s)) HR Hb) in E. congruence.
  - rewrite (bruggeman_limit n y (st_dep s) Hd HR Hw) in E. congruence.
Qed.

Lemma zero_fraction_metal s tbl y rows i n : solvated s tbl y rows -> (0 < i < List.length tbl - 1)%nat ->
  s_vf (nth i tbl row0) = 0 -> s_ri (nth i tbl row0) = Some n ->
  st_ema s = "bruggeman"%string -> st_dep s <> 1 -> Re (weighted (n * n)%C (y * y)%C (st_dep s)) < 0 ->
  exists m, s_ri (nth i rows row0) = Some m /\
            (m * m)%C = (RtoC (- st_dep s / (1 - st_dep s)) * (y * y))%C.
Proof.
  intros [_ S] Hi Hv Hn L Hd Hw. destruct (S i ltac:(lia)) as (S1 & S2 & S3 & _ & S5 & _).
  destruct (S5 Hi n Hn) as (m & E & Em). rewrite Hv, L in E.
  destruct (bruggeman_limit_neg n y (st_dep s) Hd Hw) as (m' & E' & Q).
  assert (m' = m) by congruence. subst m'. eauto.
Qed.

(** ** instances *)
Definition const (n k : R) : material := Material (Scatterer (K_RI (RI_const n k)) 658 EmptyString) true.
Definition layer_c (t n k r v : R) : component := Component (Slab t (const n k) r v) true.
Definition simple (l : list component) (rev : bool) (ema : string) : structure :=
  Structure l EmptyString None rev 0 None ema (1 / 3).

(** air | gold | polymer with solvent | water *)
Definition gold_stack : list component :=
  [layer_c 0 1 0 0 0; layer_c 250 (15/100) (33/10) 2 0; layer_c 100 (3/2) 0 3 (1/2); layer_c 0 (4/3) 0 4 0].
Definition gold_rows : list slab :=
  [mkSlab 0 (Some (1, 0)) 0 0; mkSlab 250 (Some (15/100, 33/10)) 2 0;
   mkSlab 100 (Some (3/2, 0)) 3 (1/2); mkSlab 0 (Some (4/3, 0)) 4 0].
Definition gold_reversed : list slab :=
  [mkSlab 0 (Some (4/3, 0)) 0 0; mkSlab 100 (Some (3/2, 0)) 4 (1/2);
   mkSlab 250 (Some (15/100, 33/10)) 3 0; mkSlab 0 (Some (1, 0)) 2 0].

Lemma gold_ends : slab_ends gold_stack.
Proof. do 2 eexists. split; [reflexivity|]. split; [reflexivity|]. split; do 4 eexists; reflexivity. Qed.
Lemma gold_default : Forall (fun c => c_default_interface c = true) gold_stack.
Proof. repeat constructor. Qed.
Lemma gold_rows_of rev ema kw :
  Forall2 (fun c r => rows_of (with_wavelength (simple gold_stack rev ema) kw) c [r]) gold_stack gold_rows.
Proof.
  unfold gold_stack, gold_rows. repeat constructor; eexists; split; reflexivity.
Qed.
Lemma gold_base rev ema kw :
  Forall2 (rows_of (with_wavelength (simple gold_stack rev ema) kw)) gold_stack (map (fun r => [r]) gold_rows).
Proof.
  pose proof (gold_rows_of rev ema kw) as H. revert H.
  generalize gold_stack at 2 4 as l. generalize gold_rows as m. intros m l H. induction H; simpl; constructor; auto.
Qed.
Lemma gold_order ema : in_order (simple gold_stack false ema) (List.concat (map (fun r => [r]) gold_rows)) gold_rows.
Proof. unfold in_order. simpl. reflexivity. Qed.
Lemma gold_order_rev ema :
  in_order (simple gold_stack true ema) (List.concat (map (fun r => [r]) gold_rows)) gold_reversed.
Proof.
  unfold in_order. cbn [st_reverse simple]. rewrite concat_singles.
  split; [reflexivity|]. split; [reflexivity|]. split; intros [|[|[|[|i]]]] Hi; simpl in *; try lia; auto.
Qed.
Lemma gold_solvated : some_solvated gold_rows /\ some_solvated gold_reversed.
Proof.
  split.
  - exists (mkSlab 100 (Some (3/2, 0)) 3 (1/2)). simpl. split; [tauto|lra].
  - exists (mkSlab 100 (Some (3/2, 0)) 4 (1/2)). simpl. split; [tauto|lra].
Qed.

Definition no_ext : externals := Externals (fun _ => Raise OtherError) (fun r _ => r) (fun _ _ => ([], [])).

(** the unsolvated gold layer changes *)
Lemma gold_changes ext : exists rows m,
  structure_slabs ext (simple gold_stack false "bruggeman") None = (Ok (Some rows), simple gold_stack false "bruggeman") /\
  s_vf (nth 1 gold_rows row0) = 0 /\ s_ri (nth 1 gold_rows row0) = Some (15/100, 33/10) /\
  s_ri (nth 1 rows row0) = Some m /\ m <> (15/100, 33/10).
Proof.
  destruct (slabs_solvated ext (simple gold_stack false "bruggeman") None
      (map (fun r => [r]) gold_rows) gold_rows (4/3, 0) gold_ends gold_default)
    as (rows & E & S); try (simpl; lra).
  - apply gold_base.
  - apply gold_order.
  - apply gold_solvated.
  - simpl. reflexivity.
  - simpl. auto.
  - destruct (zero_fraction_metal _ _ _ _ 1 (15/100, 33/10) S) as (m & E1 & E2); try reflexivity.
    + simpl. lia.
    + simpl. lra.
    + unfold weighted. simpl. lra.
    + exists rows, m. split; [exact E|]. do 2 (split; [reflexivity|]). split; auto.
      intros ->. apply (f_equal Re) in E2. simpl in E2. lra.
Qed.

(** an undefined index disappears: a Sellmeier layer just below its resonance at 300 nm *)
Definition sellmeier300 : material := Material (Scatterer (K_Sellmeier 1 (3/10) 0 1) 658 EmptyString) true.
Definition nan_stack : list component :=
  [layer_c 0 1 0 0 0; Component (Slab 250 sellmeier300 2 0) true; layer_c 100 (3/2) 0 3 (1/2); layer_c 0 (4/3) 0 4 0].
Definition nan_rows : list slab :=
  [mkSlab 0 (Some (1, 0)) 0 0; mkSlab 250 None 2 0;
   mkSlab 100 (Some (3/2, 0)) 3 (1/2); mkSlab 0 (Some (4/3, 0)) 4 0].

Lemma sellmeier300_nan : sellmeier_complex 1 (3/10) 0 1 290 = None.
Proof.
  unfold sellmeier_complex, sellmeier_real, odiv. destruct Req_EM_T as [E|_]; [reflexivity|].
  cbn [obind]. unfold osqrt. destruct Rle_dec as [L|_]; [exfalso|reflexivity].
  assert (E : 1 * (290 / 1000) ^ 2 / ((290 / 1000) ^ 2 - (3 / 10) ^ 2) = - (841 / 59)) by field.
  rewrite E in L. lra.
Qed.

Lemma nan_base s : st_wavelength s = Some 290 -> Forall2 (rows_of s) nan_stack (map (fun r => [r]) nan_rows).
Proof.
  intros Hs. unfold nan_stack, nan_rows. cbn [map]. repeat constructor; eexists; split; try reflexivity.
  unfold index_at. rewrite Hs. cbn [m_dispersive sellmeier300 m_scat]. unfold sc_complex.
  cbn [sc_wavelength sc_kind choose_wav]. destruct Req_EM_T; [lra|]. rewrite sellmeier300_nan. reflexivity.
Qed.

Lemma nan_hidden ext : exists rows,
  structure_slabs ext (simple nan_stack false "bruggeman") (Some 290) =
    (Ok (Some rows), with_wavelength (simple nan_stack false "bruggeman") (Some 290)) /\
  index_at sellmeier300 (Some 290) None /\ s_ri (nth 1 rows row0) = Some (RtoC 0).
Proof.
  destruct (slabs_solvated ext (simple nan_stack false "bruggeman") (Some 290)
      (map (fun r => [r]) nan_rows) nan_rows (4/3, 0))
    as (rows & E & S); try (simpl; lra).
  - do 2 eexists. split; [reflexivity|]. split; [reflexivity|]. split; do 4 eexists; reflexivity.
  - repeat constructor.
  - apply nan_base. reflexivity.
  - reflexivity.
  - exists (mkSlab 100 (Some (3/2, 0)) 3 (1/2)). simpl. split; [tauto|lra].
  - simpl. reflexivity.
  - simpl. auto.
  - exists rows. split; [exact E|]. split.
    + unfold index_at. cbn [m_dispersive sellmeier300 m_scat]. unfold sc_complex.
      cbn [sc_wavelength sc_kind choose_wav]. destruct Req_EM_T; [lra|]. rewrite sellmeier300_nan. reflexivity.
    + destruct S as [_ S]. destruct (S 1%nat ltac:(simpl; lia)) as (_ & _ & _ & _ & _ & S6).
      apply S6; [simpl; lia|reflexivity].
Qed.

(** ** the [|] operator *)
Lemma or_full w x y cx cy : operand w x cx -> operand w y cy ->
  exists s, or_ w x y = (Ok (List.length w), w ++ [s]) /\ st_data s = cx ++ cy /\ default_settings s.
Proof.
  intros H1 H2. rewrite (or_spec w x y cx cy) by auto. eexists. split; [reflexivity|]. split; [reflexivity|].
  repeat split.
Qed.

Lemma nth_error_last {A} (w : list A) x : nth_error (w ++ [x]) (List.length w) = Some x.
Proof. rewrite nth_error_app2, Nat.sub_diag by lia. reflexivity. Qed.

Lemma or_assoc w x y z cx cy cz a w1 p w2 b v1 q v2 :
  operand w x cx -> operand w y cy -> operand w z cz ->
  or_ w x y = (Ok a, w1) -> or_ w1 (PStruct a) z = (Ok p, w2) ->
  or_ w y z = (Ok b, v1) -> or_ v1 x (PStruct b) = (Ok q, v2) ->
  exists s s', nth_error w2 p = Some s /\ nth_error v2 q = Some s' /\
    st_data s = cx ++ cy ++ cz /\ st_data s' = cx ++ cy ++ cz.
Proof.
  intros Hx Hy Hz E1 E2 E3 E4.
  rewrite (or_spec w x y cx cy) in E1 by auto. rewrite (or_spec w y z cy cz) in E3 by auto.
  assert (a = List.length w) by congruence. assert (w1 = w ++ [set_data empty_structure (cx ++ cy)]) by congruence.
  assert (b = List.length w) by congruence. assert (v1 = w ++ [set_data empty_structure (cy ++ cz)]) by congruence.
  subst a w1 b v1.
  erewrite or_spec in E2; [|simpl; eexists; split; [apply nth_error_last|reflexivity]|apply operand_ext; eauto].
  erewrite or_spec in E4; [|apply operand_ext; eauto|simpl; eexists; split; [apply nth_error_last|reflexivity]].
  injection E2 as <- <-. injection E4 as <- <-.
  do 2 eexists. split; [apply nth_error_last|]. split; [apply nth_error_last|]. simpl.
  rewrite app_assoc. auto.
Qed.

Lemma ior_frame w a s o cs : nth_error w a = Some s -> operand w o cs ->
  exists w', ior w a o = (Ok tt, w') /\ List.length w' = List.length w /\
    (exists s', nth_error w' a = Some s' /\ st_data s' = st_data s ++ cs /\ same_settings s' s /\ st_name s' = st_name s) /\
    (forall b, b <> a -> nth_error w' b = nth_error w b).
Proof.
  intros H1 H2. rewrite (ior_spec w a s o cs) by auto. eexists. split; [reflexivity|].
  revert w H1 H2. clear. intros w H1 _. revert a H1.
  induction w as [|x w IH]; intros [|a] H1; simpl in *; try discriminate.
  - inversion H1; subst. split; [reflexivity|]. split.
    + eexists. split; [reflexivity|]. repeat split.
    + intros [|b] Hb; [congruence|reflexivity].
  - destruct (IH a H1) as (L & E & F). split; [simpl; lia|]. split; [exact E|].
    intros [|b] Hb; [reflexivity|]. apply F. lia.
Qed.

Lemma ior_bad w a : ior w a POther = (Raise ValueError, w).
Proof. reflexivity. Qed.

Lemma copy_keeps s :
  st_data (copy_structure s) = st_data s /\ st_name (copy_structure s) = st_name s /\
  st_solvent (copy_structure s) = st_solvent s /\
  (same_settings (copy_structure s) s <->
   st_reverse s = false /\ st_contract s = 0 /\ st_wavelength s = None /\ st_ema s = "linear"%string /\ st_dep s = 1 / 3).
Proof.
  do 3 (split; [reflexivity|]). unfold same_settings; simpl. intuition.
Qed.

Lemma settings_lost : exists w a y b w' s s',
  nth_error w a = Some s /\ or_ w (PStruct a) y = (Ok b, w') /\ nth_error w' b = Some s' /\
  ~ same_settings s' s /\ ~ same_settings (copy_structure s) s.
Proof.
  exists [simple gold_stack true "bruggeman"], 0%nat, (PScat (const 1 0)).
  destruct (or_full [simple gold_stack true "bruggeman"] (PStruct 0) (PScat (const 1 0)) gold_stack [zero_slab (const 1 0)])
    as (s' & E & _ & D).
  { simpl. eauto. } { reflexivity. }
  rewrite E. do 4 eexists. split; [reflexivity|]. split; [reflexivity|].
  split; [apply nth_error_last|]. split.
  - intros (_ & H & _). destruct D as (_ & _ & D & _). rewrite D in H. discriminate.
  - intros (_ & H & _). discriminate.
Qed.

(** the component lists that differ between constructor and append *)
Lemma ctor_drops l name solvent reverse contract wl ema dep :
  forall cs rest, l = map PComp cs ++ rest -> Forall (fun o => forall c, o <> PComp c) rest ->
  st_data (new_structure l name solvent reverse contract wl ema dep) = cs.
Proof.
  intros cs rest -> H. simpl. unfold components_in. rewrite flat_map_app.
  replace (flat_map _ rest) with (@nil component).
  - rewrite app_nil_r. induction cs; simpl; congruence.
  - induction H as [|o l Ho _ IH]; simpl; auto. rewrite <- IH. destruct o; auto. exfalso. eapply Ho; eauto.
Qed.

(** the constructor keeps exactly the components, in order *)
Lemma ctor_order l : forall c pre post, l = pre ++ PComp c :: post ->
  components_in l = components_in pre ++ c :: components_in post.
Proof. intros c pre post ->. unfold components_in. rewrite flat_map_app. reflexivity. Qed.

(** alignment instance: three rows, [align = -1] is the front of the backing *)
Definition three : structure := simple [layer_c 0 1 0 0 0; layer_c 250 (3/2) 0 2 0; layer_c 0 4 0 4 0] false "linear".
Definition three_rows : list slab := [mkSlab 0 (Some (1, 0)) 0 0; mkSlab 250 (Some (3/2, 0)) 2 0; mkSlab 0 (Some (4, 0)) 4 0].
Lemma three_slabs ext : structure_slabs ext three None = (Ok (Some three_rows), three).
Proof.
  apply (slabs_one_each ext three None three_rows); try (simpl; lra); auto.
  - do 2 eexists. split; [reflexivity|]. split; [reflexivity|]. split; do 4 eexists; reflexivity.
  - repeat constructor.
  - repeat constructor; eexists; split; reflexivity.
  - intros (r & [<-|[<-|[<-|[]]]] & H); simpl in H; lra.
Qed.
Lemma three_align : fst (structure_slabs no_ext three None) = Ok (Some three_rows) /\
  aligned_slab 3 (-1) = 2%nat /\ depth three_rows 2 = 250 /\ aligned_slab 3 1 = 2%nat.
Proof.
  split; [rewrite three_slabs; reflexivity|]. split; [reflexivity|]. split; [|reflexivity].
  unfold depth. simpl. lra.
Qed.

(** ** forms used in Properties_struct *)
Lemma ctor_unchecked : exists comps name solvent reverse contract wl ema dep,
  ~ 0 <= st_dep (new_structure comps name solvent reverse contract wl ema dep) <= 1.
Proof. exists [], EmptyString, None, false, 0, None, "linear"%string, 2. simpl. lra. Qed.

Lemma slabs_forward ext s kw base : slab_ends (st_data s) ->
  Forall (fun c => c_default_interface c = true) (st_data s) -> st_contract s <= 0 ->
  st_reverse s = false ->
  Forall2 (rows_of (with_wavelength s kw)) (st_data s) base ->
  ~ some_solvated (List.concat base) ->
  structure_slabs ext s kw = (Ok (Some (List.concat base)), with_wavelength s kw).
Proof.
  intros. apply (slabs_plain ext s kw base); auto. unfold in_order. rewrite H2. reflexivity.
Qed.

Lemma slabs_backward ext s kw base tbl : slab_ends (st_data s) ->
  Forall (fun c => c_default_interface c = true) (st_data s) -> st_contract s <= 0 ->
  st_reverse s = true ->
  Forall2 (rows_of (with_wavelength s kw)) (st_data s) base ->
  reversed_table (List.concat base) tbl -> ~ some_solvated tbl ->
  structure_slabs ext s kw = (Ok (Some tbl), with_wavelength s kw).
Proof.
  intros. apply (slabs_plain ext s kw base); auto. unfold in_order. rewrite H2. auto.
Qed.

Lemma reversed_exists_unique a : exists b, reversed_table a b /\ forall c, reversed_table a c -> c = b.
Proof.
  exists (reverse_slabs a). split; [apply reverse_spec|]. intros c H.
  apply (reversed_unique a); auto. apply reverse_spec.
Qed.

Lemma gold_reversed_ok : reversed_table gold_rows gold_reversed.
Proof. pose proof (gold_order_rev "linear") as H. unfold in_order in H. rewrite concat_singles in H. exact H. Qed.

Lemma bad_ends_instance : exists c,
  st_data (simple [layer_c 0 1 0 0 0; c] false "linear") <> [] /\
  ~ slab_ends (st_data (simple [layer_c 0 1 0 0 0; c] false "linear")).
Proof.
  exists (Component (MixedSlab 0 (const 1 0) (const 2 0) (1/2) 0) true). split; [discriminate|].
  intros (c0 & cl & _ & H & _ & t & m & r & v & E). simpl in H. inversion H; subst. discriminate.
Qed.

Lemma gold_instance kw :
  slab_ends (st_data (simple gold_stack true "linear")) /\
  Forall (fun c => c_default_interface c = true) (st_data (simple gold_stack true "linear")) /\
  st_contract (simple gold_stack true "linear") <= 0 /\
  Forall2 (rows_of (with_wavelength (simple gold_stack true "linear") kw)) gold_stack (map (fun r => [r]) gold_rows) /\
  in_order (simple gold_stack true "linear") (List.concat (map (fun r => [r]) gold_rows)) gold_reversed /\
  some_solvated gold_reversed /\
  solvent_index (with_wavelength (simple gold_stack true "linear") kw) gold_reversed (Some (RtoC 1)).
Proof.
  split; [apply gold_ends|]. split; [apply gold_default|]. split; [simpl; lra|].
  split; [apply gold_base|]. split; [apply gold_order_rev|]. split; [apply gold_solvated|].
  destruct kw; reflexivity.
Qed.

Lemma gold_refutes : exists s, forall ext, exists rows m,
  structure_slabs ext s None = (Ok (Some rows), s) /\
  rows_of s (nth 1 (st_data s) (layer_c 0 0 0 0 0)) [mkSlab 250 (Some (15/100, 33/10)) 2 0] /\
  s_ri (nth 1 rows row0) = Some m /\ m <> (15/100, 33/10).
Proof.
  exists (simple gold_stack false "bruggeman"). intros ext.
  destruct (gold_changes ext) as (rows & m & E & _ & _ & E1 & E2). exists rows, m.
  split; [exact E|]. split; [eexists; split; reflexivity|]. auto.
Qed.

Lemma nan_refutes : exists s w, forall ext, exists rows,
  structure_slabs ext s (Some w) = (Ok (Some rows), with_wavelength s (Some w)) /\
  rows_of (with_wavelength s (Some w)) (nth 1 (st_data s) (layer_c 0 0 0 0 0)) [mkSlab 250 None 2 0] /\
  s_ri (nth 1 rows row0) = Some (RtoC 0).
Proof.
  exists (simple nan_stack false "bruggeman"), 290. intros ext.
  destruct (nan_hidden ext) as (rows & E & I & H). exists rows. split; [exact E|]. split; [|exact H].
  eexists. split; [reflexivity|]. exact I.
Qed.

Lemma nan_kept s tbl y rows i :
  solvated s tbl y rows -> (0 < i < List.length tbl - 1)%nat -> s_ri (nth i tbl row0) = None ->
  (s_ri (nth i rows row0) = None <-> st_ema s <> "bruggeman"%string).
Proof.
  intros [_ S] Hi Hn. destruct (S i ltac:(lia)) as (_ & _ & _ & _ & _ & S6). rewrite (S6 Hi Hn).
  destruct (String.eqb_spec (st_ema s) "bruggeman"); split; congruence.
Qed.

Lemma or_instance : exists s,
  operand [three] (PStruct 0) (st_data three) /\ operand [three] (PScat (const 1 0)) [zero_slab (const 1 0)] /\
  or_ [three] (PStruct 0) (PScat (const 1 0)) = (Ok 1%nat, [three; s]) /\ List.length (st_data s) = 4%nat.
Proof.
  eexists. split; [simpl; eauto|]. split; [reflexivity|]. split; reflexivity.
Qed.

Lemma mul_full w c n :
  ((n < 1)%Z -> mul_component w c n = (PStruct (List.length w), w ++ [empty_structure])) /\
  (n = 1%Z -> mul_component w c n = (PComp c, w)) /\
  ((2 <= n)%Z -> exists s, mul_component w c n = (PStruct (List.length w), w ++ [s]) /\
     List.length (st_data s) = Z.to_nat n /\ Forall (eq c) (st_data s) /\ default_settings s).
Proof.
  destruct (mul_spec w c n) as (H1 & H2 & H3). split; auto. split; auto.
  intros H. eexists. split; [apply H3; auto|]. cbn [st_data set_data].
  split; [apply repeat_length|]. split; [|repeat split].
  clear. induction (Z.to_nat n); simpl; constructor; auto.
Qed.

Lemma ctor_filters l name solvent reverse contract wl ema dep :
  exists keep, st_data (new_structure l name solvent reverse contract wl ema dep) = keep /\
    (forall c, In (PComp c) l <-> In c keep) /\
    subsequence (map PComp keep) l /\
    List.length keep = count_components l.
Proof.
  eexists. split; [reflexivity|]. cbn [st_data new_structure]. unfold count_components.
  induction l as [|o l (I1 & I2 & I3)]; simpl.
  - split; [tauto|]. split; [constructor|reflexivity].
  - destruct o as [c|m|a|]; simpl.
    + split; [|split; [constructor; auto|simpl; auto]].
      intros c'. rewrite I1. split; (intros [E|H]; [left; congruence|right; auto]).
    + split; [|split; [apply sub_drop; auto|auto]]. intros c'. rewrite <- I1. split; [intros [E|H]; [discriminate|auto]|auto].
    + split; [|split; [apply sub_drop; auto|auto]]. intros c'. rewrite <- I1. split; [intros [E|H]; [discriminate|auto]|auto].
    + split; [|split; [apply sub_drop; auto|auto]]. intros c'. rewrite <- I1. split; [intros [E|H]; [discriminate|auto]|auto].
Qed.
