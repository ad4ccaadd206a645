(** * Proofs about covar with central differences *)

Require Import Reals List Bool Arith Lra Lia FunctionalExtensionality.
From Verif Require Import Base Mat M_disp M_struct M_model M_data M_objective Spec_objective P_objective P_objective2 M_covar Spec_covar P_covar P_covar2 P_covar3.
Import ListNotations.
Open Scope list_scope.
Open Scope R_scope.

Lemma central_visits e h x n : List.length x = n -> forall js cols, visits n (central e h x js cols).
Proof.
  intros L js. induction js as [|j js IH]; intros cols; cbn [central]; [constructor|].
  constructor; [rewrite bump_length; exact L|]. intros a. constructor; [rewrite bump_length; exact L|]. intros b.
  destruct a as [a|]; [|constructor]. destruct b as [b|]; [|constructor].
  destruct (quotients (h j) a b); [apply IH|constructor].
Qed.
Lemma central_visits_all e1 h1 e2 h2 v : visits (List.length v) (central_differences e1 h1 v) /\ visits (List.length v) (central_differences e2 h2 v).
Proof. split; apply central_visits; reflexivity. Qed.

(** the columns are the difference quotients of the residuals as functions of the parameters *)
Section central.
  Context (P : pid -> Prop) (f : list R -> call (list num)) (x : list R) (st0 : state)
    (stable : forall v st, List.length v = List.length x -> frame P st0 st -> fst (f v st) = fst (f v st0))
    (preserves : forall v, List.length v = List.length x -> frames P (f v)).
  Lemma central_run e h js : forall cols st jac st1, frame P st0 st ->
    run_diff f (central e h x js cols) st = (Ok jac, st1) ->
    exists new, List.length new = List.length js /\
      jac = matrix (List.length (nth 0 (cols ++ new) [])) (List.length (cols ++ new)) (fun i j => nth i (nth j (cols ++ new) []) 0) /\
      forall k j, nth_error js k = Some j -> exists a b col, fst (f (bump x j (- h j)) st0) = Ok a /\ fst (f (bump x j (h j)) st0) = Ok b /\
        quotients (h j) a b = Some col /\ nth_error new k = Some col.
  Proof.
    induction js as [|j js IH]; intros cols st jac st1 F H; cbn [central run_diff] in H.
    - exists []. rewrite app_nil_r. unfold ret in H. split; [reflexivity|]. split; [congruence|]. intros [|k] j H'; discriminate.
    - pose proof (stable (bump x j (- h j)) st (bump_length _ _ _) F) as S1.
      pose proof (preserves (bump x j (- h j)) (bump_length _ _ _) st) as F1.
      destruct (f (bump x j (- h j)) st) as [ra sa]. cbn [fst snd] in S1, F1.
      assert (Fa : frame P st0 sa) by (eapply frame_trans; eauto).
      pose proof (stable (bump x j (h j)) sa (bump_length _ _ _) Fa) as S2.
      pose proof (preserves (bump x j (h j)) (bump_length _ _ _) sa) as F2.
      destruct (f (bump x j (h j)) sa) as [rb sb]. cbn [fst snd] in S2, F2.
      assert (Fb : frame P st0 sb) by (eapply frame_trans; eauto).
      destruct ra as [a|ea]; [|discriminate]. destruct rb as [b|eb]; [|discriminate].
      destruct (quotients (h j) a b) as [col|] eqn:Q; [|discriminate].
      destruct (IH (cols ++ [col]) sb jac st1 Fb H) as (new & L & E & K).
      exists (col :: new). split; [cbn; lia|]. rewrite <- app_assoc in E. cbn [app] in E. split; [exact E|].
      intros [|k] j' Hk; cbn [nth_error] in *.
      + injection Hk as <-. exists a, b, col. auto.
      + apply K. exact Hk.
  Qed.
End central.

Lemma mapM_length {A B} (g : A -> option B) l r : mapM g l = Some r -> List.length r = List.length l.
Proof.
  revert r. induction l as [|a l IH]; cbn [mapM]; intros r H; [injection H as <-; reflexivity|].
  destruct (g a); cbn [obind] in H; [|discriminate]. destruct (mapM g l) as [r'|]; cbn [obind] in H; [|discriminate].
  injection H as <-. cbn. rewrite (IH r' eq_refl). reflexivity.
Qed.
Lemma quotients_same t a : forall col, quotients t a a = Some col -> forall i, nth i col 0 = 0.
Proof.
  unfold quotients. induction a as [|y a IH]; cbn [combine mapM]; intros col H i.
  - injection H as <-. destruct i; reflexivity.
  - destruct y as [y|]; cbn [fst snd olift2 obind] in H; [|discriminate].
    destruct (mapM _ (combine a a)) as [r|] eqn:E; cbn [obind] in H; [|discriminate]. injection H as <-.
    destruct i as [|i]; cbn [nth]; [unfold Rdiv; ring|]. apply IH. reflexivity.
Qed.

(** ** covar after central differences fails if one column vanishes *)
Section vanish.
  Context (sy : system) (o : objective) (e1 e2 : exn) (h1 h2 : list R -> nat -> R) (svd : svd_fun) (st : state)
    (WF : well_formed sy) (SC : svd_correct svd).
  Let pvals := map (value sy st) (varying_parameters sy o).
  Let n := List.length pvals.
  Let Fp v := fst (residuals sy o (Some v) st).
  (** the residuals at both points used for column j are equal, if they can be computed *)
  Definition vanishing (j : nat) : Prop :=
    (forall a b, Fp (bump pvals j (- h2 pvals j)) = Ok a -> Fp (bump pvals j (h2 pvals j)) = Ok b -> a = b) /\
    (forall a b, let t := nth j pvals 0 * h1 (map (fun _ => 1) pvals) j in
       Fp (bump pvals j (- t)) = Ok a -> Fp (bump pvals j t) = Ok b -> a = b).

  Let Pv := fun q => In q (varying_parameters sy o).
  Lemma plain_stable v s : List.length v = n -> frame Pv st s -> fst (residuals sy o (Some v) s) = Fp v.
  Proof.
    intros L F. unfold Fp. apply (bind_forgets sy o v st s (residuals_now sy o)); [apply respects_residuals| |exact F].
    rewrite L. apply map_length.
  Qed.
  Lemma plain_frames v : List.length v = n -> frames Pv (residuals sy o (Some v)).
  Proof. intros L. apply frames_after_residuals, frames_setp. left. rewrite L. apply map_length. Qed.
  Lemma scaled_length v : List.length v = List.length (map (fun _ : R => 1) pvals) -> List.length (map2 Rmult pvals v) = n.
  Proof. rewrite map_length. intros L. rewrite map2_length, L. unfold n. lia. Qed.

  Lemma matrix_column (cols : list (list R)) i j : (forall i, nth i (nth j cols []) 0 = 0) -> 
    (i < List.length (nth 0 cols []))%nat -> (j < List.length cols)%nat ->
    entry (matrix (List.length (nth 0 cols [])) (List.length cols) (fun i j => nth i (nth j cols []) 0)) i j = 0.
  Proof. intros H I J. rewrite entry_matrix by assumption. apply H. Qed.

  Lemma plain_column j s jac s1 : (j < n)%nat -> vanishing j -> frame Pv st s ->
    run_diff (fun v => residuals sy o (Some v)) (central_differences e2 h2 pvals) s = (Ok jac, s1) ->
    is_matrix (List.length jac) n jac /\ forall i, (i < List.length jac)%nat -> entry jac i j = 0.
  Proof.
    intros J V F H.
    destruct (central_run Pv (fun v => residuals sy o (Some v)) pvals st plain_stable plain_frames e2 (h2 pvals) _ [] s jac s1 F H) as (new & L & E & K).
    rewrite seq_length in L. fold n in L. cbn [app] in E. rewrite L in E.
    assert (LJ : List.length jac = List.length (nth 0 new [])) by (rewrite E; unfold matrix; rewrite map_length; apply seq_length).
    split; [rewrite LJ, E; apply is_matrix_matrix|]. intros i I. rewrite E. rewrite LJ in I. rewrite <- L.
    apply matrix_column; [|exact I|lia]. intros i'.
    assert (N : nth_error (seq 0 (List.length pvals)) j = Some j).
    { rewrite (nth_error_nth' _ 0%nat) by (rewrite seq_length; exact J). rewrite seq_nth by exact J. reflexivity. }
    destruct (K j j N) as (a & b & col & A & B & Q & C). rewrite (nth_error_nth _ _ _ C).
    assert (a = b) by (apply (proj1 V); assumption). subst b. apply (quotients_same _ _ _ Q).
  Qed.
  Lemma scaled_column j s jac s1 : (j < n)%nat -> vanishing j -> frame Pv st s ->
    run_diff (fun v => residuals sy o (Some (map2 Rmult pvals v))) (central_differences e1 h1 (map (fun _ => 1) pvals)) s = (Ok jac, s1) ->
    is_matrix (List.length jac) n jac /\ forall i, (i < List.length jac)%nat -> entry jac i j = 0.
  Proof.
    intros J V F H.
    destruct (central_run Pv (fun v => residuals sy o (Some (map2 Rmult pvals v))) (map (fun _ => 1) pvals) st) with
      (e := e1) (h := h1 (map (fun _ => 1) pvals)) (js := seq 0 (List.length (map (fun _ : R => 1) pvals))) (cols := @nil (list R)) (st := s) (jac := jac) (st1 := s1)
      as (new & L & E & K); [| |exact F|exact H|].
    { intros v s' L' F'. apply plain_stable; [apply scaled_length; exact L'|exact F']. }
    { intros v L'. apply plain_frames. apply scaled_length; exact L'. }
    rewrite seq_length, map_length in L. fold n in L. cbn [app] in E. rewrite L in E.
    assert (LJ : List.length jac = List.length (nth 0 new [])) by (rewrite E; unfold matrix; rewrite map_length; apply seq_length).
    split; [rewrite LJ, E; apply is_matrix_matrix|]. intros i I. rewrite E. rewrite LJ in I. rewrite <- L.
    apply matrix_column; [|exact I|lia]. intros i'.
    assert (N : nth_error (seq 0 (List.length (map (fun _ : R => 1) pvals))) j = Some j).
    { rewrite map_length. rewrite (nth_error_nth' _ 0%nat) by (rewrite seq_length; exact J). rewrite seq_nth by exact J. reflexivity. }
    destruct (K j j N) as (a & b & col & A & B & Q & C). rewrite (nth_error_nth _ _ _ C).
    rewrite scaled_bump in A, B by exact J.
    assert (a = b). { apply (proj2 V); [|exact B]. rewrite <- Ropp_mult_distr_r in A. exact A. }
    subst b. apply (quotients_same _ _ _ Q).
  Qed.

  Theorem vanishing_column j : (j < n)%nat -> vanishing j ->
    forall C, fst (covariance sy o (central_differences e1 h1) (central_differences e2 h2) svd st) <> Ok C.
  Proof.
    intros J V C.
    pose proof (jacobian_frame sy o (central_differences e1 h1) (central_differences e2 h2) st (central_visits_all e1 h1 e2 h2)) as FJ.
    fold pvals in FJ.
    destruct (jacobian sy o pvals (central_differences e1 h1) (central_differences e2 h2) st) as [[[jac|e] used] s1] eqn:E.
    2: { rewrite (covariance_raise _ _ _ _ svd _ _ _ _ WF (central_visits_all e1 h1 e2 h2) E). discriminate. }
    assert (X : is_matrix (List.length jac) n jac /\ forall i, (i < List.length jac)%nat -> entry jac i j = 0).
    { unfold jacobian in E. destruct (existsb _ pvals).
      - destruct (run_diff _ (central_differences e2 h2 pvals) st) as [r s] eqn:D. injection E as -> <- ->.
        eapply (plain_column j st); eauto. apply frame_refl.
      - destruct (run_diff _ (central_differences e1 h1 _) st) as [[j1|e] s] eqn:D.
        + injection E as -> <- ->. eapply (scaled_column j st); eauto. apply frame_refl.
        + assert (Fs : frame Pv st s).
          { pose proof (frames_diff Pv (List.length (map (fun _ : R => 1) pvals)) (fun v => residuals sy o (Some (map2 Rmult pvals v)))
              (central_differences e1 h1 (map (fun _ => 1) pvals))) as FD.
            specialize (FD (proj1 (central_visits_all e1 h1 e2 h2 _)) (fun v L => plain_frames _ (scaled_length v L)) st). rewrite D in FD. exact FD. }
          destruct e; try discriminate.
          destruct (run_diff _ (central_differences e2 h2 pvals) s) as [r s'] eqn:D2. injection E as -> <- ->.
          eapply (plain_column j s); eauto. }
    destruct X as [MX Z].
    rewrite (covariance_run sy o _ _ svd st jac used s1 WF (central_visits_all e1 h1 e2 h2) E). fold pvals.
    destruct (svd jac) as [[s VT]|e] eqn:Sv; [|unfold algebra; rewrite Sv; discriminate].
    pose proof (SC _ _ _ _ _ MX Sv) as D.
    destruct (Nat.eq_dec (List.length jac) 0) as [L0|L0].
    - assert (Ls : List.length s = 0%nat) by (rewrite (svd_len _ _ _ _ _ D), L0; reflexivity).
      destruct s; [|discriminate]. unfold algebra. rewrite Sv. cbn. discriminate.
    - rewrite (zero_column svd jac used pvals s VT ltac:(lia) ltac:(lia) D Sv) with (j := j); auto; [discriminate|].
      intros ->. apply (jacobian_nonzero _ _ _ _ _ _ _ _ E).
  Qed.
End vanish.

(** ** lnsigma *)
Lemma nth_bump x j t k : (k < List.length x)%nat -> nth_error (bump x j t) k = Some (nth k x 0 + (if Nat.eqb k j then t else 0)).
Proof. intros K. rewrite (nth_error_nth' _ 0) by (rewrite bump_length; exact K). unfold bump. rewrite nth_map_seq by exact K. reflexivity. Qed.
Lemma write_bump (ps : list pid) x j t t' (p : pid) store (q : pid) : NoDup ps -> nth_error ps j = Some p -> List.length x = List.length ps -> q <> p ->
  write_all store ps (bump x j t) q = write_all store ps (bump x j t') q.
Proof.
  intros N J L Q. destruct (in_dec Nat.eq_dec q ps) as [I|I]; [|rewrite !write_all_other by exact I; reflexivity].
  apply In_nth_error in I as [k K]. pose proof (last_at_NoDup _ _ _ N K) as LA.
  assert (Kn : (k < List.length x)%nat) by (rewrite L; apply (proj1 (nth_error_Some ps k)); intros E; pose proof (eq_trans (eq_sym K) E) as E'; discriminate E').
  assert (Nk : k <> j) by (intros ->; apply Q; pose proof (eq_trans (eq_sym K) J) as E'; injection E'; auto).
  rewrite !(write_all_last _ _ _ _ k (nth k x 0) LA); auto; rewrite nth_bump by exact Kn; destruct (Nat.eqb_spec k j); try contradiction; rewrite Rplus_0_r; reflexivity.
Qed.
Lemma lnsigma_bump sy o p st j x t t' : unread sy o p -> nth_error (varying_parameters sy o) j = Some p ->
  List.length x = List.length (varying_parameters sy o) ->
  fst (residuals sy o (Some (bump x j t)) st) = fst (residuals sy o (Some (bump x j t')) st).
Proof.
  intros U J L. unfold residuals. unfold bind at 1 4. unfold setp. rewrite !bump_length, L, Nat.eqb_refl.
  set (o' := Objective (ob_model o) (ob_data o) None (ob_use_weights o) (ob_logp_extra o)).
  apply (respects_residuals sy o'). split; [|reflexivity]. intros q I. change (parameters sy o') with (model_params sy (ob_model o)) in I.
  unfold value, set_store. cbn [st_store].
  set (w := write_all (st_store st) (varying_parameters sy o) (bump x j t)).
  set (w' := write_all (st_store st) (varying_parameters sy o) (bump x j t')).
  replace w with (write w' p (w p)); [apply U; exact I|].
  apply functional_extensionality. intros q'. unfold write. destruct (Nat.eqb_spec q' p) as [->|Ne]; [reflexivity|].
  unfold w, w'. apply (write_bump _ _ _ _ _ p); auto. apply varying_NoDup.
Qed.
Theorem covariance_lnsigma sy o e1 e2 h1 h2 svd st p : well_formed sy -> svd_correct svd ->
  ob_lnsigma o = Some p -> p_vary (sy_params sy p) = true -> unread sy o p ->
  forall C, fst (covariance sy o (central_differences e1 h1) (central_differences e2 h2) svd st) <> Ok C.
Proof.
  intros WF SC LS Vy U.
  assert (I : In p (varying_parameters sy o)). { apply varying_In. split; [|exact Vy]. unfold parameters. rewrite LS. left. reflexivity. }
  apply In_nth_error in I as [j J].
  apply (vanishing_column sy o e1 e2 h1 h2 svd st WF SC j).
  - rewrite map_length. apply (proj1 (nth_error_Some _ j)). intros E. pose proof (eq_trans (eq_sym J) E) as E'. discriminate E'.
  - split; intros a b; cbv zeta; intros A B;
      match type of A with fst (residuals _ _ (Some (bump ?x _ ?t)) _) = _ => match type of B with fst (residuals _ _ (Some (bump _ _ ?t')) _) = _ =>
        pose proof (lnsigma_bump sy o p st j x t t' U J (map_length _ _)) as X end end; congruence.
Qed.
