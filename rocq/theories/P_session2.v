(** * Concrete sessions *)

Require Import Reals List Bool String Lra Lia Arith.
From Coquelicot Require Import Complex.
From Verif Require Import Base Cplx M_tmm Spec_optics P_tmm P_tmm2 P_tmm3 P_tmm4 P_psidelta P_psidelta2 P_film P_examples M_disp P_disp M_struct Spec_struct
  M_model P_struct P_struct2 P_model P_model2 M_data M_objective P_objective P_objective2 P_objective3 M_session Spec_session P_session.
Import ListNotations.
Open Scope list_scope.
Open Scope R_scope.

(** air on air reflects nothing *)
Lemma ex_air : exists ts tp,
  coh_tmm (ns (RtoC (Re (RtoC 1))) (nm []) (RtoC 1)) (ds PInf (nm []) PInf) [(rad 0, 633%R)]
    = Ok [mkAmp (Some (RtoC 0, ts)) (Some (RtoC 0, tp))].
Proof.
  assert (R0 : rad 0 = 0%R) by (unfold rad; ring). rewrite R0. change (nm []) with (@nil (C * R)).
  change (Re (RtoC 1)) with 1%R.
  assert (PF : passive_film (1 * sin 0) 633 [] (RtoC 1)).
  { split; [constructor|split; [constructor|]]. split; simpl; lra. }
  assert (C0 : cos 0 <> 0%R) by (rewrite cos_0; lra).
  destruct (passive_defined' pS 1 [] (RtoC 1) PInf PInf 0 633 ltac:(lra) ltac:(lra) C0 PF) as (a & rs & ts & HC & A1).
  destruct (passive_defined' pP 1 [] (RtoC 1) PInf PInf 0 633 ltac:(lra) ltac:(lra) C0 PF) as (a' & rp & tp & HC' & A2).
  assert (a' = a) by congruence. subst a'. destruct a as [x y]. cbn [amp amp_s amp_p] in A1, A2. subst x y.
  destruct (normal_incidence _ _ _ _ _ _ _ _ _ _ _ _ sin_0 HC eq_refl eq_refl) as [E _].
  assert (Z : rs = RtoC 0).
  { assert (W : forall r' t', reflection_problem pS (mkMedium 1 1 0) [mkMedium (RtoC 1) 1 0] r' t' <-> r' = rs /\ t' = ts).
    { apply (coh_tmm_solves pS 1 [] (RtoC 1) PInf PInf 0 633 _ rs ts (mkMedium 1 1 0) [] (mkMedium (RtoC 1) 1 0) HC); auto.
      - split; [reflexivity|]. rewrite sin_0.
        split; [split; cbn [idx cosine]; [apply C1_neq_0|apply C_eq; simpl; field]|].
        split; [constructor|]. split; [reflexivity|].
        split; cbn [idx cosine]; [apply C1_neq_0|apply C_eq; simpl; field].
      - cbn [cosine]. rewrite cos_0, Rabs_R1. reflexivity.
      - simpl. lra.
      - rewrite <- RtoC_mult, sin_0. apply no_TIR; [lra|]. rewrite Rmult_0_r, Rabs_R0. lra. }
    destruct (proj2 (W rs ts) (conj eq_refl eq_refl)) as [X1 X2].
    destruct (proj1 (W (RtoC 0) (RtoC 1))) as [<- _]; [|reflexivity].
    split; cbn [tangential_1 tangential_2 idx cosine]; apply C_eq; simpl; ring. }
  exists ts, tp. assert (Y : rp = RtoC 0).
  { rewrite Z in E. apply (f_equal Copp) in E. destruct rp as [a b]. apply C_eq; [apply (f_equal Re) in E|apply (f_equal Im) in E]; simpl in *; lra. }
  rewrite Z, Y in HC. exact HC.
Qed.

Lemma air_table off flip : fst (Delta_Psi_TMM [0] (table 0 (RtoC 1) 0 [] 0 (RtoC 1) 0) 633 off flip) = Ok [(None, None)].
Proof.
  destruct ex_air as (ts & tp & H).
  exact (proj2 (proj2 (table_degenerate 0 0 0 0 (RtoC 1) (RtoC 1) [] 0 633 off flip _ ts _ tp H)) eq_refl eq_refl).
Qed.

(** air | Cauchy(n) *)
Definition onto (n : R) : structure :=
  simple [layer_c 0 1 0 0 0; Component (Slab 0 (Material (Scatterer (K_Cauchy n 0 0) 658 EmptyString) true) 0 0) true] false "linear".
Definition onto_rows (n : R) : list slab := [mkSlab 0 (Some (1, 0)) 0 0; mkSlab 0 (Some (n, 0)) 0 0].
Lemma onto_slabs ext n : structure_slabs ext (set_wavelength (onto n) (Some 633)) None =
  (Ok (Some (onto_rows n)), set_wavelength (onto n) (Some 633)).
Proof.
  apply (slabs_one_each ext (set_wavelength (onto n) (Some 633)) None (onto_rows n)); try (simpl; lra); auto.
  - do 2 eexists. split; [reflexivity|]. split; [reflexivity|]. split; do 4 eexists; reflexivity.
  - repeat constructor.
  - constructor; [eexists; split; reflexivity|]. constructor; [|constructor]. eexists. split; [|reflexivity].
    assert (Q : cauchy_complex n 0 0 633 = Some (n, 0)).
    { unfold cauchy_complex, odiv. assert (A2 : (633 ^ 2 <> 0)%R) by (apply pow_nonzero; lra).
      assert (A4 : (633 ^ 4 <> 0)%R) by (apply pow_nonzero; lra).
      destruct (Req_EM_T (633 ^ 2) 0) as [E|_]; [contradiction|]. destruct (Req_EM_T (633 ^ 4) 0) as [E|_]; [contradiction|].
      cbn [obind]. unfold Rdiv. rewrite !Rmult_0_l, !Rplus_0_r. reflexivity. }
    change ([mkSlab 0 (Some (n, 0)) 0 0] = [mkSlab 0 (cauchy_complex n 0 0 (choose_wav 658 (Some 633))) 0 0]).
    unfold choose_wav. destruct Req_EM_T as [E|_]; [lra|]. rewrite Q. reflexivity.
  - intros (r & [<-|[<-|[]]] & H); simpl in H; lra.
Qed.
Lemma onto_model ext n off flip v :
  fst (Delta_Psi_TMM [0] (table 0 (RtoC 1) 0 [] 0 (RtoC n) 0) 633 off flip) = Ok [v] ->
  fst (model ext DFloat (onto n) off flip [(633, 0)]) = Ok ([fst v], [snd v]).
Proof.
  intros H. assert (O : fst (one_wavelength ext (onto n) off flip 633 [0]) = Ok [v]).
  { unfold one_wavelength. rewrite onto_slabs. exact H. }
  assert (F : fine ext (onto n) off flip (633, 0)).
  { unfold fine, val. cbn [fst snd]. rewrite O. reflexivity. }
  rewrite model_single by exact F. unfold val. cbn [fst snd]. rewrite O. reflexivity.
Qed.

(** ** a session: air on glass, the index of the glass a Cauchy formula *)
Definition fixed : param := Param false None (Interval 0 2).
Definition varying : param := Param true None (Interval 0 2).
Definition air_m : material_t := MaterialT (ScattererT (T_RI (RI_const 1 0)) 658 EmptyString) true.
Definition cauchy_m (A : pid) : material_t := MaterialT (ScattererT (T_Cauchy A 0%nat 0%nat) 658 EmptyString) true.
Definition build : list statement :=
  [New_param fixed 0; New_param varying (3 / 2); New_param varying (3 / 2); New_param fixed 0;
   New_scat air_m; New_scat (cauchy_m 1%nat);
   New_comp (A_Slab 0%nat 0%nat 0%nat 0%nat) true; New_comp (A_Slab 0%nat 1%nat 0%nat 0%nat) true;
   New_struct [O_comp 0%nat; O_comp 1%nat] EmptyString None false 0 None "linear" (1 / 3);
   New_model (O_struct 0%nat) 3%nat].
(** afterwards: slab.ri = Cauchy(another parameter) *)
Definition replace_ri : list statement := [New_scat (cauchy_m 2%nat); Set_comp_attrs 1%nat (A_Slab 0%nat 2%nat 0%nat 0%nat)].
(** parameter number [p] gets the value x *)
Definition numbers_with (w : session) (p : pid) (x : R) : list (param * R) := update (se_params w) p (fun q => (fst q, x)).

Lemma build_keeps : Forall keeps_attributes build.
Proof. repeat constructor. Qed.
Lemma build_listed ext : listed (run ext nothing build) 0 = [3; 0; 0; 0; 0; 1; 0; 0; 0; 0]%nat.
Proof. reflexivity. Qed.

Lemma replaced_eval ext x : let w := run ext nothing (build ++ replace_ri) in
  fst (evaluation ext (with_params w (numbers_with w 2%nat x)) 0 [(633, 0)]) = fst (model ext DFloat (onto x) 0 false [(633, 0)]).
Proof.
  cbv zeta. unfold evaluation.
  match goal with |- context [model ext DFloat ?s ?o ?f ?X] => change s with (onto x); change o with 0; change f with false end.
  destruct (model ext DFloat (onto x) 0 false [(633, 0)]). reflexivity.
Qed.
Theorem stale_list ext : exists l m X x, let w := run ext nothing l in let w' := with_params w x in
  (forall p, In p (listed w m) -> value_of w p = value_of w' p) /\
  fst (evaluation ext w m X) <> fst (evaluation ext w' m X) /\
  exists p q, owned w m p /\ ~ In p (listed w m) /\ In q (listed w m) /\ ~ owned w m q.
Proof.
  exists (build ++ replace_ri), 0%nat, [(633, 0)], (numbers_with (run ext nothing (build ++ replace_ri)) 2%nat 1).
  cbv zeta. split; [|split].
  - intros p I. assert (L : listed (run ext nothing (build ++ replace_ri)) 0 = [3; 0; 0; 0; 0; 1; 0; 0; 0; 0]%nat) by reflexivity.
    rewrite L in I. cbn [In] in I. decompose [or] I; subst; try reflexivity; contradiction.
  - rewrite replaced_eval.
    pose proof (replaced_eval ext (3 / 2)) as E. cbv zeta in E.
    change (with_params (run ext nothing (build ++ replace_ri)) (numbers_with (run ext nothing (build ++ replace_ri)) 2%nat (3 / 2)))
      with (run ext nothing (build ++ replace_ri)) in E.
    rewrite E. rewrite (onto_model ext 1 0 false (None, None)) by apply air_table.
    rewrite (onto_model ext (3 / 2) 0 false (Some 45, Some (180 + 0))); [discriminate|].
    destruct ex_glass_normal as (rs & ts & rp & tp & H1 & H2 & H3).
    exact (table_normal 0 0 0 0 (RtoC 1) (RtoC (3/2)) [] 0 633 0 false rs ts rp tp H1 H2 H3).
  - exists 2%nat, 1%nat. split; [|split; [|split]].
    + right. left. exists 1%nat. split; [right; left; reflexivity|]. right. right. right. left. reflexivity.
    + cbn. intuition discriminate.
    + cbn. tauto.
    + intros [H|[(c & I & H)|(a & H & _)]]; cbn in *; try discriminate.
      destruct I as [<-|[<-|[]]]; cbn in H; decompose [or] H; try discriminate; try contradiction.
Qed.

(** ** the same session without stale lists: the structure gets a new component *)
Definition rewire : list statement := [New_comp (A_Slab 0%nat 1%nat 0%nat 0%nat) true; Set_data 0 [0; 2]%nat].
Lemma rewired_eval ext x : let w := run ext nothing (build ++ rewire) in
  fst (evaluation ext (with_params w (numbers_with w 1%nat x)) 0 [(633, 0)]) = fst (model ext DFloat (onto x) 0 false [(633, 0)]).
Proof.
  cbv zeta. unfold evaluation.
  match goal with |- context [model ext DFloat ?s ?o ?f ?X] => change s with (onto x); change o with 0; change f with false end.
  destruct (model ext DFloat (onto x) 0 false [(633, 0)]). reflexivity.
Qed.
Lemma rewired ext : Forall keeps_attributes (build ++ rewire) /\
  let w := run ext nothing (build ++ rewire) in In 1%nat (listed w 0) /\
  fst (evaluation ext w 0 [(633, 0)]) <> fst (evaluation ext (with_params w (numbers_with w 1%nat 1)) 0 [(633, 0)]).
Proof.
  split; [repeat constructor|]. cbv zeta. split; [cbn; tauto|]. rewrite rewired_eval.
  pose proof (rewired_eval ext (3 / 2)) as E. cbv zeta in E.
  change (with_params (run ext nothing (build ++ rewire)) (numbers_with (run ext nothing (build ++ rewire)) 1%nat (3 / 2)))
    with (run ext nothing (build ++ rewire)) in E.
  rewrite E. rewrite (onto_model ext 1 0 false (None, None)) by apply air_table.
  rewrite (onto_model ext (3 / 2) 0 false (Some 45, Some (180 + 0))); [discriminate|].
  destruct ex_glass_normal as (rs & ts & rp & tp & H1 & H2 & H3).
  exact (table_normal 0 0 0 0 (RtoC 1) (RtoC (3/2)) [] 0 633 0 false rs ts rp tp H1 H2 H3).
Qed.

Lemma failing ext : let w := run ext nothing build in
  fst (execute ext w (Set_structure 0 (O_scat 1))) = Raise ValueError /\
  fst (execute ext w (Append 0 O_other)) = Raise ValueError /\
  fst (execute ext w (Set_dep 0 (VNum 2))) = Raise ValueError /\
  filter (fun x => negb (is_evaluation x)) ([Evaluate 0 [(633, 0)]] ++ build ++ [Evaluate 0 [(400, 60)]; Set_value 1%nat 2])
    = build ++ [Set_value 1%nat 2].
Proof.
  cbv zeta. split; [reflexivity|]. split; [reflexivity|]. split; [|reflexivity].
  cbn [execute]. destruct Rle_dec; [|reflexivity]. destruct Rle_dec; [lra|reflexivity].
Qed.

(** ** the list of a component is made once *)
Lemma nth_update {A} (l : list A) (f : A -> A) i j d : (j < List.length l)%nat ->
  nth j (update l i f) d = if Nat.eqb j i then f (nth j l d) else nth j l d.
Proof.
  revert i j. induction l as [|x l IH]; intros [|i] [|j] H; cbn in *; try lia; auto. apply IH. lia.
Qed.
Lemma update_len {A} (l : list A) (f : A -> A) i : List.length (update l i f) = List.length l.
Proof. revert i. induction l as [|x l IH]; intros [|i]; cbn; auto. Qed.
Lemma execute_list ext w x c : (c < List.length (se_comps w))%nat ->
  (c < List.length (se_comps (snd (execute ext w x))))%nat /\
  co_listed (comp_at (snd (execute ext w x)) c) = co_listed (comp_at w c).
Proof.
  intros H.
  assert (N : forall w' a d, se_comps w' = se_comps w ->
    (c < List.length (se_comps (new_comp a d w')))%nat /\ co_listed (comp_at (new_comp a d w') c) = co_listed (comp_at w c)).
  { intros w' a d E. unfold new_comp, comp_at. cbn [se_comps with_comps]. rewrite E, app_length, app_nth1 by exact H.
    split; [lia|reflexivity]. }
  assert (G : forall a o, (c < List.length (se_comps (snd (append_to w a o))))%nat /\
              co_listed (comp_at (snd (append_to w a o)) c) = co_listed (comp_at w c)).
  { intros a o. destruct o; cbn [append_to snd]; auto. unfold slab_of. apply N. reflexivity. }
  destruct x; cbn [execute]; try (cbn [snd]; auto; fail).
  - destruct attrs_exist; cbn [snd]; auto.
  - destruct (_ && _); cbn [snd]; auto. destruct solvent_arg; cbn [snd]; auto.
  - destruct exists_object; cbn [snd]; auto. destruct s; cbn [snd]; auto.
  - destruct exists_object; cbn [snd]; auto.
  - destruct exists_object; cbn [snd]; auto. destruct o; cbn [snd]; auto.
  - destruct forallb; cbn [snd]; auto.
  - destruct (match o with Some _ => _ | None => _ end); cbn [snd]; auto. destruct solvent_arg; cbn [snd]; auto.
  - destruct v; cbn [snd]; auto. destruct Rle_dec; cbn [snd]; auto. destruct Rle_dec; cbn [snd]; auto.
  - destruct exists_object; cbn [snd]; auto. destruct o; cbn [snd]; auto.
  - destruct evaluation; cbn [snd]; auto.
  - destruct attrs_exist; cbn [snd]; auto. unfold comp_at. cbn [se_comps with_comps]. rewrite update_len, nth_update by exact H.
    split; auto. destruct Nat.eqb; reflexivity.
Qed.
Theorem list_kept ext l : forall w c, (c < List.length (se_comps w))%nat ->
  co_listed (comp_at (run ext w l) c) = co_listed (comp_at w c).
Proof.
  induction l as [|x l IH]; intros w c H; [reflexivity|].
  destruct (execute_list ext w x c H) as [L E]. cbn [run fold_left]. change (co_listed (comp_at (run ext (snd (execute ext w x)) l) c) = co_listed (comp_at w c)).
  rewrite IH by exact L. exact E.
Qed.
Lemma list_kept_example ext : (1 < List.length (se_comps (run ext nothing build)))%nat /\
  co_listed (comp_at (run ext nothing build) 1) = [0; 1; 0; 0; 0; 0]%nat.
Proof. split; [cbn; lia|reflexivity]. Qed.
