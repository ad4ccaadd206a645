(** * Numerical differentiation approaches the Jacobian *)

Require Import Reals.
From Coquelicot Require Import Coquelicot.
Require Import List Bool Arith String Lra Lia Psatz.
From Verif Require Import Base Cplx Mat M_tmm M_disp M_struct M_model M_data Spec_data P_data M_objective Spec_struct Spec_optics Spec_whole Spec_objective Spec_covar Spec_diff Spec_jac
  P_struct P_objective P_objective2 P_plot P_covar P_covar3 P_covar4 P_jac Spec_smooth P_smooth4.
Import ListNotations.
Open Scope list_scope.
Open Scope R_scope.

Lemma central_quotient (g : R -> R) l : is_derive g 0 l -> forall eps, 0 < eps -> exists eta, 0 < eta /\ forall h, h <> 0 -> Rabs h < eta -> Rabs ((g h - g (- h)) / (2 * h) - l) < eps.
Proof.
  intros D eps He. apply is_derive_Reals in D. destruct (D eps He) as (eta & H). exists eta. split; [apply cond_pos|]. intros h Hn Hh.
  pose proof (H h Hn Hh) as H1. pose proof (H (- h) ltac:(lra) ltac:(rewrite Rabs_Ropp; exact Hh)) as H2. rewrite Rplus_0_l in H1, H2.
  replace ((g h - g (- h)) / (2 * h) - l) with ((((g h - g 0) / h - l) + ((g (- h) - g 0) / - h - l)) / 2) by (field; lra).
  apply Rabs_def1; apply Rabs_def2 in H1, H2; lra.
Qed.

Lemma partials_scale m F p J : partials m F p J -> partials m (fun v => F (map2 Rmult p v)) (map (fun _ => 1) p) (matrix m (List.length p) (fun i j => entry J i j * nth j p 0)).
Proof.
  intros (MJ & g & G1 & G2). split; [rewrite map_length; apply is_matrix_matrix|]. rewrite map_length. exists (fun i j t => g i j (nth j p 0 * t)). split.
  - intros j Jn. assert (Cc : continuous (fun t => nth j p 0 * t) 0) by (apply (ex_derive_continuous (fun t => nth j p 0 * t)); auto_derive; auto).
    specialize (G1 j Jn). assert (C : locally 0 (fun t => F (bump p j (nth j p 0 * t)) = Ok (map (fun i => Some (g i j (nth j p 0 * t))) (seq 0 m)))).
    { apply (Cc (fun t => F (bump p j t) = Ok (map (fun i => Some (g i j t)) (seq 0 m)))). rewrite Rmult_0_r. exact G1. }
    revert C. apply filter_imp. intros t T. rewrite (scaled_bump p j t Jn). exact T.
  - intros i j Ii Jn. rewrite entry_matrix by assumption. pose proof (G2 i j Ii Jn) as G.
    replace (entry J i j * nth j p 0) with (scal (nth j p 0) (entry J i j)) by (unfold scal; cbn; unfold mult; cbn; ring).
    apply (is_derive_comp (g i j) (fun t => nth j p 0 * t) 0).
    + rewrite Rmult_0_r. exact G.
    + auto_derive; [auto|ring].
Qed.

Lemma quotients_num {A} t (a b : A -> R) l : quotients t (map (fun i => Some (a i)) l) (map (fun i => Some (b i)) l) = Some (map (fun i => (b i - a i) / (2 * t)) l).
Proof. unfold quotients. induction l as [|i l IH]; [reflexivity|]. cbn [map combine mapM fst snd olift2 obind]. rewrite IH. reflexivity. Qed.

Section forward.
  Context (P : pid -> Prop) (f : list R -> call (list num)) (x : list R) (st0 : state)
    (stable : forall v st, List.length v = List.length x -> frame P st0 st -> fst (f v st) = fst (f v st0))
    (preserves : forall v, List.length v = List.length x -> frames P (f v)).
  Lemma central_ok e h m (g : nat -> nat -> R -> R) js : (forall j, In j js -> forall t, t = h j \/ t = - h j -> fst (f (bump x j t) st0) = Ok (map (fun i => Some (g i j t)) (seq 0 m))) ->
    forall cols st, frame P st0 st -> exists st1,
    let all := cols ++ map (fun j => map (fun i => (g i j (h j) - g i j (- h j)) / (2 * h j)) (seq 0 m)) js in
    run_diff f (central e h x js cols) st = (Ok (matrix (List.length (nth 0 all [])) (List.length all) (fun i j => nth i (nth j all []) 0)), st1).
  Proof.
    induction js as [|j js IH]; intros H cols st F; cbn [central run_diff].
    - exists st. cbn [map]. rewrite app_nil_r. reflexivity.
    - pose proof (stable (bump x j (- h j)) st (bump_length _ _ _) F) as S1.
      pose proof (preserves (bump x j (- h j)) (bump_length _ _ _) st) as F1.
      destruct (f (bump x j (- h j)) st) as [ra sa]. cbn [fst snd] in S1, F1.
      assert (Fa : frame P st0 sa) by (eapply frame_trans; eauto).
      pose proof (stable (bump x j (h j)) sa (bump_length _ _ _) Fa) as S2.
      pose proof (preserves (bump x j (h j)) (bump_length _ _ _) sa) as F2.
      destruct (f (bump x j (h j)) sa) as [rb sb]. cbn [fst snd] in S2, F2.
      assert (Fb : frame P st0 sb) by (eapply frame_trans; eauto).
      rewrite (H j (or_introl eq_refl) (- h j) (or_intror eq_refl)) in S1. rewrite (H j (or_introl eq_refl) (h j) (or_introl eq_refl)) in S2. subst ra rb.
      rewrite (quotients_num (h j) (fun i => g i j (- h j)) (fun i => g i j (h j))).
      destruct (IH (fun j' I => H j' (or_intror I)) (cols ++ [map (fun i => (g i j (h j) - g i j (- h j)) / (2 * h j)) (seq 0 m)]) sb Fb) as (st1 & E).
      exists st1. rewrite E. cbn [map]. rewrite <- app_assoc. reflexivity.
  Qed.

  Lemma central_close m J : (0 < List.length x)%nat -> partials m (fun v => fst (f v st0)) x J -> forall eps, 0 < eps -> exists eta, 0 < eta /\
    forall e h, (forall j, (j < List.length x)%nat -> 0 < Rabs (h j) < eta) -> forall st, frame P st0 st ->
    exists jac st1, run_diff f (central e h x (seq 0 (List.length x)) []) st = (Ok jac, st1) /\ is_matrix m (List.length x) jac /\
      forall i j, (i < m)%nat -> (j < List.length x)%nat -> Rabs (entry jac i j - entry J i j) < eps.
  Proof.
    intros N (MJ & g & G1 & G2) eps He. set (n := List.length x) in *.
    assert (E1 : exists e1, 0 < e1 /\ forall j, (j < n)%nat -> forall t, Rabs t < e1 -> fst (f (bump x j t) st0) = Ok (map (fun i => Some (g i j t)) (seq 0 m))).
    { destruct (locally_fin (fun j t => fst (f (bump x j t) st0) = Ok (map (fun i => Some (g i j t)) (seq 0 m))) n G1) as (d & D). exists d. split; [apply cond_pos|].
      intros j Hj t Ht. apply (D t); [|exact Hj]. change (Rabs (t - 0) < d). rewrite Rminus_0_r. exact Ht. }
    assert (E2 : exists e2, 0 < e2 /\ forall j, (j < n)%nat -> forall i, (i < m)%nat -> forall h, h <> 0 -> Rabs h < e2 -> Rabs ((g i j h - g i j (- h)) / (2 * h) - entry J i j) < eps).
    { assert (K : forall j k, (j < n)%nat -> (k <= m)%nat -> exists e2, 0 < e2 /\ forall i, (i < k)%nat -> forall h, h <> 0 -> Rabs h < e2 -> Rabs ((g i j h - g i j (- h)) / (2 * h) - entry J i j) < eps).
      { intros j k Hj. induction k as [|k IH]; intros Hk; [exists 1; split; [lra|intros; lia]|]. destruct IH as (a & A1 & A2); [lia|].
        destruct (central_quotient (g k j) _ (G2 k j ltac:(lia) Hj) eps He) as (b & B1 & B2). exists (Rmin a b). split; [apply Rmin_glb_lt; assumption|].
        intros i Hi h Hn Hh. pose proof (Rmin_l a b). pose proof (Rmin_r a b). destruct (Nat.eq_dec i k) as [->|]; [apply B2; auto; lra|apply A2; auto; [lia|lra]]. }
      clear - K. revert K. generalize n at 1 2 as n0. intros n0 K. induction n0 as [|n0 IH]; [exists 1; split; [lra|intros; lia]|].
      destruct IH as (a & A1 & A2); [intros; apply K; lia|]. destruct (K n0 m ltac:(lia) (le_n m)) as (b & B1 & B2). exists (Rmin a b). split; [apply Rmin_glb_lt; assumption|].
      intros j Hj i Hi h Hn Hh. pose proof (Rmin_l a b). pose proof (Rmin_r a b). destruct (Nat.eq_dec j n0) as [->|]; [apply B2; auto; lra|apply A2; auto; [lia|lra]]. }
    destruct E1 as (e1 & P1 & H1). destruct E2 as (e2 & P2 & H2). exists (Rmin e1 e2). split; [apply Rmin_glb_lt; assumption|]. intros e h Hh st F.
    pose proof (Rmin_l e1 e2) as ML. pose proof (Rmin_r e1 e2) as MR.
    destruct (central_ok e h m g (seq 0 n)) with (cols := @nil (list R)) (st := st) as (st1 & E).
    { intros j Ij t Ht. apply in_seq in Ij. assert (Hj : (j < n)%nat) by lia. apply H1; [exact Hj|]. destruct (Hh j Hj). destruct Ht as [->| ->]; rewrite ?Rabs_Ropp; lra. }
    { exact F. }
    cbv zeta in E. cbn [app] in E. eexists. exists st1. split; [exact E|].
    set (all := map (fun j => map (fun i => (g i j (h j) - g i j (- h j)) / (2 * h j)) (seq 0 m)) (seq 0 n)).
    assert (LA : List.length all = n) by (unfold all; rewrite map_length; apply seq_length).
    assert (NA : forall j, (j < n)%nat -> nth j all [] = map (fun i => (g i j (h j) - g i j (- h j)) / (2 * h j)) (seq 0 m)) by (intros j Hj; unfold all; apply (nth_map_seq (fun j => map (fun i => (g i j (h j) - g i j (- h j)) / (2 * h j)) (seq 0 m))); exact Hj).
    assert (L0 : List.length (nth 0 all []) = m) by (rewrite NA by exact N; rewrite map_length; apply seq_length). rewrite LA, L0. split; [apply is_matrix_matrix|].
    intros i j Hi Hj. rewrite entry_matrix by assumption. rewrite NA by exact Hj. rewrite nth_map_seq by exact Hi.
    destruct (Hh j Hj) as [X1 X2]. apply H2; auto; [|lra]. intros Z. rewrite Z, Rabs_R0 in X1. lra.
  Qed.
End forward.

Theorem jacobian_converges sy o st m J : well_formed sy -> (0 < List.length (present sy o st))%nat ->
  partials m (fun v => fst (residuals sy o (Some v) st)) (present sy o st) J ->
  forall eps, 0 < eps -> exists eta, 0 < eta /\ forall e1 e2 h1 h2, (forall x j, 0 < Rabs (h1 x j) < eta) -> (forall x j, 0 < Rabs (h2 x j) < eta) ->
  exists used jac, differentiated sy o (central_differences e1 h1) (central_differences e2 h2) st used jac /\ is_matrix m (List.length (present sy o st)) jac /\
    (used = true <-> List.Forall (fun x => x <> 0) (present sy o st)) /\
    forall i j, (i < m)%nat -> (j < List.length (present sy o st))%nat ->
      Rabs (entry jac i j - entry J i j * (if used then nth j (present sy o st) 0 else 1)) < eps.
Proof.
  intros WF N PJ eps He. set (p := present sy o st) in *. set (n := List.length p) in *. set (Pv := fun q => In q (varying_parameters sy o)).
  assert (SF : forall v s, List.length v = n -> frame Pv st s -> fst (residuals sy o (Some v) s) = fst (residuals sy o (Some v) st)) by (intros v s L F; exact (plain_stable sy o st v s L F)).
  assert (FR : forall v, List.length v = n -> frames Pv (residuals sy o (Some v))) by (intros v L; exact (plain_frames sy o st v L)).
  assert (SL : forall v, List.length v = List.length (map (fun _ : R => 1) p) -> List.length (map2 Rmult p v) = n) by (intros v L; exact (scaled_length sy o st v L)).
  destruct (central_close Pv (fun v => residuals sy o (Some v)) p st SF FR m J N PJ eps He) as (a & A1 & A2).
  destruct (central_close Pv (fun v => residuals sy o (Some (map2 Rmult p v))) (map (fun _ => 1) p) st (fun v s L F => SF _ s (SL v L) F) (fun v L => FR _ (SL v L)) m _ ltac:(rewrite map_length; exact N) (partials_scale m _ p J PJ) eps He) as (b & B1 & B2).
  exists (Rmin a b). split; [apply Rmin_glb_lt; assumption|]. intros e1 e2 h1 h2 H1 H2. pose proof (Rmin_l a b) as ML. pose proof (Rmin_r a b) as MR.
  assert (FS : frame Pv st st) by apply frame_refl.
  destruct (Exists_dec (fun x => x = 0) p (fun x => Req_EM_T x 0)) as [X|X].
  - destruct (A2 e2 (h2 p)) with (st := st) as (jac & st1 & E & M & C); [intros j _; destruct (H2 p j); lra|exact FS|].
    exists false, jac. split; [|split; [exact M|split; [split; [discriminate|intros Y; exfalso; apply Exists_exists in X as (y & Y1 & Y2); exact (proj1 (List.Forall_forall _ _) Y y Y1 Y2)]|intros i j Hi Hj; rewrite Rmult_1_r; apply C; assumption]]].
    right. split; [reflexivity|]. left. split; [exact X|]. exists st1. exact E.
  - destruct (B2 e1 (h1 (map (fun _ => 1) p))) with (st := st) as (jac & st1 & E & M & C); [intros j _; destruct (H1 (map (fun _ => 1) p) j); lra|exact FS|].
    assert (NZ : List.Forall (fun x => x <> 0) p) by (apply List.Forall_forall; intros y Hy Z; apply X; apply Exists_exists; exists y; auto).
    rewrite map_length in M, C. exists true, jac. split; [|split; [exact M|split; [split; auto|]]].
    + left. split; [reflexivity|]. split; [exact NZ|exists st1; exact E].
    + intros i j Hi Hj. specialize (C i j Hi Hj). rewrite entry_matrix in C by assumption. exact C.
Qed.

(** ** the fit *)
Theorem fit_jacobian sy o st sel X psi delta : well_formed sy -> has_data sy o sel X -> predicts sy st (ob_model o) X psi delta ->
  let flip := nth (ob_model o) (st_flips st) false in
  let off := value sy st (mo_offset (the_model sy (ob_model o))) in
  let s := the_structure sy (mo_structure (the_model sy (ob_model o))) in
  List.Forall (fun x => exists p, p_psi x = Some p) sel ->
  Forall2 (fun x d => exists m v, p_delta x = Some m /\ d = Some v /\ off_corners off flip m v) sel delta ->
  (forall p j, In p (model_params sy (ob_model o)) -> p_constraint (sy_params sy p) <> None -> (j < List.length (varying_parameters sy o))%nat ->
     ex_derive (fun t => value sy (moved sy o st j t) p) 0) ->
  slab_ends (st_data (current sy st (ob_model o))) -> (2 <= List.length (stt_data s))%nat ->
  List.Forall (fun c => ct_default_interface c = true) (stt_data s) -> stt_contract s <= 0 ->
  List.Forall (fun x => List.Forall (smooth_component (value sy st) s (fst x)) (stt_data s) /\
    (forall j, (j < List.length (varying_parameters sy o))%nat -> settled (fun t => value sy (moved sy o st j t)) s (fst x) 0) /\
    exists rows, rows_at (current sy st (ob_model o)) (fst x) rows /\ clear_path rows (fst x) (snd x)) X ->
  exists J, partials (2 * List.length sel) (fun v => fst (residuals sy o (Some v) st)) (present sy o st) J.
Proof.
  intros WF HD HP flip off s NP ND HC HE LD HI HK HX.
  assert (V0 : forall j, value sy (moved sy o st j 0) = value sy st).
  { intros j. unfold moved. rewrite bump_zero. destruct (setp_restore sy o st st WF (frame_refl _ st)) as (st2 & E2 & SS & _). unfold present. rewrite E2. cbn [snd]. unfold value. rewrite SS. reflexivity. }
  assert (DV : forall j p, (j < List.length (varying_parameters sy o))%nat -> In p (model_params sy (ob_model o)) -> ex_derive (fun t => value sy (moved sy o st j t) p) 0).
  { intros j p Hj Hp. destruct (p_constraint (sy_params sy p)) as [c|] eqn:EC; [apply HC; auto; rewrite EC; discriminate|].
    destruct (in_dec Nat.eq_dec p (varying_parameters sy o)) as [I1|I1].
    - apply In_nth_error in I1 as [k K]. assert (Lk : (k < List.length (present sy o st))%nat) by (unfold present; rewrite map_length; apply nth_error_Some; intros Z; pose proof (eq_trans (eq_sym K) Z); discriminate).
      apply (ex_derive_ext (fun t => nth k (present sy o st) 0 + (if Nat.eqb k j then t else 0))).
      + intros t. destruct (setp_varying sy o (bump (present sy o st) j t) st WF) as (st' & E & V & _); [rewrite bump_length; apply map_length|]. unfold moved. rewrite E. cbn [snd].
        symmetry. apply (V k p _ K). apply nth_bump. exact Lk.
      + destruct (Nat.eqb k j); auto_derive; exact I.
    - apply (ex_derive_ext (fun _ => value sy st p)); [|apply ex_derive_const].
      intros t. destruct (setp_varying sy o (bump (present sy o st) j t) st WF) as (st' & E & _ & V & _); [rewrite bump_length; apply map_length|]. unfold moved. rewrite E. cbn [snd].
      unfold value, read. rewrite EC. symmetry. apply V. exact I1. }
  eapply jacobian_exists; eauto. intros j Hj. split.
  - apply DV; [exact Hj|]. left. reflexivity.
  - apply List.Forall_forall. intros [w aoi] Hx. pose proof (proj1 (List.Forall_forall _ _) HX _ Hx) as (C1 & C2 & rows & C3 & C4). cbn [fst snd] in *.
    apply (structure_point (fun t => value sy (moved sy o st j t)) (fun t => nth (mo_structure (the_model sy (ob_model o))) (st_wavelengths (moved sy o st j t)) None) s w aoi rows).
    + split; [intros p Hp; apply DV; [exact Hj|right; exact Hp]|]. rewrite (V0 j). split; [eapply ends_any; exact HE|]. split; [exact LD|]. split; [exact HI|]. split; [exact HK|]. split; [exact C1|apply C2; exact Hj].
    + rewrite (V0 j). destruct C3 as (base & tbl & T1 & T2 & T3). exists base, tbl. split; [exact T1|]. split; [exact T2|]. exact T3.
    + exact C4.
Qed.
