(** * Proofs: what the loaders return was in the file *)

Require Import Reals ZArith Lia Lra List Bool String Ascii.
From Coquelicot Require Import Complex.
From Verif Require Import Base Cplx M_disp M_model P_model M_data Spec_data P_data P_struct M_ep4 Spec_ep4 P_ep4 P_ep4b P_ep4e M_instr Spec_instr P_instr P_instr2 P_instr3 Spec_accept.
Import ListNotations.
Open Scope list_scope.
Open Scope R_scope.

Lemma split_ne c s : split c s <> [].
Proof. destruct s as [|x s]; cbn [split]; [discriminate|]. destruct (Ascii.eqb x c); [discriminate|]. destruct (split c s); discriminate. Qed.
Lemma fields_split c s : fields c s (split c s).
Proof.
  split; [apply split_ne|]. induction s as [|x s (IH1 & IH2)]; cbn [split].
  - split; [repeat constructor|reflexivity].
  - destruct (Ascii.eqb_spec x c) as [->|E].
    + split; [constructor; [exact I|exact IH1]|]. destruct (split c s) as [|t ts] eqn:Es; [destruct (split_ne c s Es)|].
      rewrite IH2 at 1. reflexivity.
    + destruct (split c s) as [|t ts] eqn:Es; [destruct (split_ne c s Es)|]. inversion IH1 as [|? ? F1 F2]; subst.
      split; [constructor; [split; assumption|assumption]|]. destruct ts; reflexivity.
Qed.
Lemma floats_inv pf fs : forall is vs, floats_at pf fs is = Ok vs -> numbers pf fs is vs.
Proof.
  unfold floats_at, numbers. induction is as [|i is IH]; intros vs H; cbn [mapR] in H.
  - injection H as <-. constructor.
  - unfold float_at at 1 in H. destruct (nth_error fs i) as [t|] eqn:E; [|discriminate]. destruct (pf t) as [v|] eqn:Ep; [|discriminate].
    cbn [rbind] in H. destruct (mapR (float_at pf fs) is) as [ws|e] eqn:Em; [|discriminate]. cbn in H. injection H as <-.
    constructor; eauto.
Qed.
Lemma numbers_n pf fs is vs : numbers pf fs is vs -> List.length vs = List.length is.
Proof. intros H. symmetry. exact (F2_length _ _ _ H). Qed.
Lemma one_free c s : List.length (split c s) = 1%nat -> free c s.
Proof.
  destruct (fields_split c s) as (_ & F & E). destruct (split c s) as [|t [|u ts]]; try discriminate. intros _. cbn in E. subst t. inversion F; auto.
Qed.

(** ** M2000 *)
Lemma loop_inv pf : forall fuel lines rows, m2000_loop pf fuel lines = Ok rows ->
  exists recs pts rest, lines = List.concat recs ++ rest /\ Forall2 (record pf) recs pts /\ ends rest /\ Forall2 row_of pts rows.
Proof.
  assert (B : forall lines (f : string * list string -> result (list (list num))) rows, 
    (let '(l, ls) := readline lines in rbind (floats_at pf (split tab l) [2; 3; 4]%nat) (fun _ => f (l, ls))) = Ok rows ->
    exists l ls v, lines = l :: ls /\ numbers pf (split tab l) [2; 3; 4]%nat v /\ f (l, ls) = Ok rows).
  { intros [|l ls] f rows H; cbn [readline] in H; [discriminate H|].
    destruct (floats_at pf (split tab l) _) as [v|e] eqn:E; [|discriminate]. cbn [rbind] in H. exists l, ls, v. split; [reflexivity|].
    split; [apply floats_inv, E|exact H]. }
  induction fuel as [|fuel IH]; intros lines rows H.
  - cbn [m2000_loop] in H. destruct lines as [|l1 ls1]; cbn [readline] in H.
    + cbn in H. injection H as <-. exists [], [], []. repeat split; constructor.
    + destruct (Nat.eqb_spec (List.length (split tab l1)) 1) as [E|E].
      { injection H as <-. exists [], [], (l1 :: ls1). repeat split; try constructor. apply one_free, E. }
      exfalso. destruct (floats_at pf (split tab l1) _) as [row|e]; [|discriminate]. cbn [rbind] in H.
      destruct (readline ls1) as [l2 ls2]. destruct (floats_at pf (split tab l2) _); [|discriminate]. cbn [rbind] in H.
      destruct (readline ls2) as [l3 ls3]. destruct (floats_at pf (split tab l3) _); discriminate.
  - cbn [m2000_loop] in H. destruct lines as [|l1 ls1]; cbn [readline] in H.
    + cbn in H. injection H as <-. exists [], [], []. repeat split; constructor.
    + destruct (Nat.eqb_spec (List.length (split tab l1)) 1) as [E|E].
      { injection H as <-. exists [], [], (l1 :: ls1). repeat split; try constructor. apply one_free, E. }
      destruct (floats_at pf (split tab l1) _) as [row|e] eqn:Er; [|discriminate]. cbn [rbind] in H. apply floats_inv in Er.
      destruct ls1 as [|l2 ls2]; cbn [readline] in H; [discriminate H|].
      destruct (floats_at pf (split tab l2) _) as [v2|e] eqn:E2; [|discriminate]. cbn [rbind] in H. apply floats_inv in E2.
      destruct ls2 as [|l3 ls3]; cbn [readline] in H; [discriminate H|].
      destruct (floats_at pf (split tab l3) _) as [v3|e] eqn:E3; [|discriminate]. cbn [rbind] in H. apply floats_inv in E3.
      destruct (m2000_loop pf fuel ls3) as [rows'|e] eqn:El; [|discriminate]. cbn in H. injection H as <-.
      destruct (IH _ _ El) as (recs & pts & rest & -> & F & En & Fr).
      pose proof (numbers_n _ _ _ _ Er) as L. destruct row as [|a [|b [|p [|d [|e1 [|e2 [|]]]]]]]; try discriminate L.
      exists ([l1; l2; l3] :: recs), ((a, b, p, d) :: pts), rest. split; [reflexivity|].
      split; [|split; [exact En|constructor; [repeat split|exact Fr]]]. constructor; [|exact F].
      exists l1, l2, l3. do 3 eexists. exists e1, e2, v2, v3. split; [reflexivity|].
      split; [apply fields_split|]. split; [apply fields_split|]. split; [apply fields_split|]. split; [exact Er|]. split; assumption.
Qed.
Lemma chop_char s t : chop 1 s = t -> t <> EmptyString -> exists c, s = (t ++ String c EmptyString)%string.
Proof.
  intros H Ht. assert (G : forall s, s = EmptyString \/ exists u c, s = (u ++ String c EmptyString)%string).
  { clear. induction s as [|x s IH]; [auto|]. right. destruct IH as [-> | (u & c & ->)]; [exists EmptyString, x; reflexivity|].
    exists (String x u), c. reflexivity. }
  destruct (G s) as [-> | (u & c & ->)]; [cbn in H; congruence|]. rewrite chop1 in H. subst u. eauto.
Qed.
Lemma stride_some {A} n (l r : list A) : stride n l = Ok r -> (0 < n)%nat /\ every n l r.
Proof.
  destruct n as [|n]; [discriminate|]. intros H. split; [lia|]. destruct (stride_every (S n) l) as (r' & E & G); [lia|]. congruence.
Qed.
Theorem m2000_accepts pf lines table te d md x : open_M2000file pf (ByName lines) table te d = Ok (md, OneSet x) ->
  exists l0 l1 c recs pts rest sel, lines = l0 :: l1 :: ("nm" ++ String c EmptyString)%string :: List.concat recs ++ rest /\
    Forall2 (record pf) recs pts /\ recs <> [] /\ ends rest /\ (0 < d)%nat /\ every d pts sel /\ stores x false sel.
Proof.
  unfold open_M2000file. destruct lines as [|l0 [|l1 [|l2 body]]]; try discriminate. cbn [readline].
  destruct (String.eqb_spec (chop 1 l2) "nm") as [E|E].
  - destruct (chop_char _ _ E) as (c & ->); [discriminate|]. destruct (m2000_header _) as [kv|e]; [|discriminate]. cbn [rbind].
    destruct (M2000_standard _ _ _ _) as [y|e] eqn:Es; [|discriminate]. cbn [rmap]. intros H. assert (y = x) by congruence. subst y. clear H.
    unfold M2000_standard in Es. cbn [skipn] in Es. destruct (m2000_loop _ _ _) as [rows|e] eqn:El; [|discriminate]. cbn [rbind] in Es.
    destruct (stride d rows) as [rs|e] eqn:Ed; [|discriminate]. cbn [rbind] in Es.
    destruct (loop_inv _ _ _ _ El) as (recs & pts & rest & -> & F & En & Fr).
    destruct (stride_some _ _ _ Ed) as (Hd & Ev). destruct (stride_every d pts Hd) as (sel & Esel & Ev').
    exists l0, l1, c, recs, pts, rest, sel. split; [reflexivity|]. split; [exact F|]. split.
    { intros ->. inversion F; subst. inversion Fr; subst. destruct d as [|d]; [discriminate|]. cbn in Ed. injection Ed as <-. discriminate. }
    split; [exact En|]. split; [exact Hd|]. split; [exact Ev'|].
    pose proof (F2_every _ _ _ _ _ _ Fr Ev' Ev) as Fs. destruct rs as [|r rs]; [discriminate|]. injection Es as <-.
    clear - Fs. unfold stores. cbn [ld_wav ld_aoi ld_psi ld_delta ld_reflect].
    assert (forall (f : list num -> num) (g : point -> num), (forall x r, row_of x r -> f r = g x) -> forall l l',
      Forall2 row_of l l' -> map f l' = map g l) as M.
    { intros f g Hfg l l' HF. induction HF; simpl; [reflexivity|]. f_equal; auto. }
    split; [|split; [|split; [|split]]]; [refine (M (fun r => nth 0 r None) p_wav _ _ (r :: rs) Fs)|refine (M (fun r => nth 1 r None) p_aoi _ _ (r :: rs) Fs)|
      refine (M (fun r => nth 2 r None) p_psi _ _ (r :: rs) Fs)|refine (M (fun r => nth 3 r None) p_delta _ _ (r :: rs) Fs)|reflexivity];
      intros ? ? (A1 & A2 & A3 & A4); auto.
  - destruct (String.eqb _ "Dynamic"); [|discriminate]. destruct (m2000_header _); [|discriminate]. cbn [rbind].
    destruct (M2000_kinetic _ _ _); discriminate.
Qed.
Lemma float_at_errors pf fs i e : float_at pf fs i = Raise e -> e = IndexError \/ e = ValueError.
Proof. unfold float_at. destruct (nth_error fs i) as [t|]; [destruct (pf t)|]; intros H; inversion H; auto. Qed.
Lemma floats_at_errors pf fs is e : floats_at pf fs is = Raise e -> e = IndexError \/ e = ValueError.
Proof.
  unfold floats_at. induction is as [|i is IH]; cbn [mapR]; [discriminate|]. destruct (float_at pf fs i) as [v|x] eqn:E.
  - cbn [rbind]. destruct (mapR _ is) as [vs|x]; cbn; [discriminate|]. intros H. apply IH. exact H.
  - cbn. intros H. inversion H; subst. eapply float_at_errors; eauto.
Qed.
Lemma loop_errors pf : forall fuel lines e, (List.length lines <= fuel)%nat -> m2000_loop pf fuel lines = Raise e -> e = IndexError \/ e = ValueError.
Proof.
  induction fuel as [|fuel IH]; intros lines e L H.
  - destruct lines; [discriminate H|cbn in L; lia].
  - cbn [m2000_loop] in H. destruct lines as [|l1 ls1]; cbn [readline] in H; [discriminate H|].
    destruct (Nat.eqb (List.length (split tab l1)) 1); [discriminate|].
    destruct (floats_at pf (split tab l1) _) as [row|x] eqn:Er; [|cbn in H; inversion H; subst; eapply floats_at_errors; eauto]. cbn [rbind] in H.
    destruct (readline ls1) as [l2 ls2] eqn:E1. destruct (floats_at pf (split tab l2) _) as [v2|x] eqn:E2; [|cbn in H; inversion H; subst; eapply floats_at_errors; eauto].
    cbn [rbind] in H. destruct (readline ls2) as [l3 ls3] eqn:E3. destruct (floats_at pf (split tab l3) _) as [v3|x] eqn:E4; [|cbn in H; inversion H; subst; eapply floats_at_errors; eauto].
    cbn [rbind] in H. destruct (m2000_loop pf fuel ls3) as [rows|x] eqn:El; [discriminate|]. cbn in H. inversion H; subst. eapply IH; [|exact El].
    cbn [List.length] in L. destruct ls1 as [|y ls1]; cbn [readline] in E1; inversion E1; subst; cbn [readline] in E3; [inversion E3; subst; cbn; lia|].
    destruct ls2 as [|z ls2]; inversion E3; subst; cbn [List.length] in *; lia.
Qed.
Theorem m2000_errors pf f l0 l1 c body table te d e :
  f = ByName (l0 :: l1 :: ("nm" ++ String c EmptyString)%string :: body) \/ f = ByHandle (l0 :: l1 :: ("nm" ++ String c EmptyString)%string :: body) ->
  open_M2000file pf f table te d = Raise e -> e = IndexError \/ e = ValueError.
Proof.
  intros Hf H. assert (G : exists again, (List.length again <= List.length (l0 :: l1 :: ("nm" ++ String c EmptyString)%string :: body))%nat /\
    open_M2000file pf f table te d = rbind (m2000_header (chop 1 l1)) (fun md => rmap (fun x => (md, OneSet x)) (M2000_standard pf d 3 again))).
  { destruct Hf as [-> | ->]; [exists (l0 :: l1 :: ("nm" ++ String c EmptyString)%string :: body)|exists body];
    (split; [cbn [List.length]; lia|]); unfold open_M2000file; cbn [readline]; rewrite chop1; reflexivity. }
  destruct G as (again & L & E). rewrite E in H. clear E Hf.
  destruct (m2000_header (chop 1 l1)) as [md|x] eqn:Eh.
  - cbn [rbind] in H. unfold M2000_standard in H.
    destruct (m2000_loop pf (List.length again) (skipn 3 again)) as [rows|x] eqn:El.
    + cbn [rbind] in H. destruct d as [|d]; [cbn in H; inversion H; auto|]. cbn [stride rbind] in H. destruct (stride_from (S d) 0 rows); cbn in H; inversion H; auto.
    + cbn in H. inversion H; subst. eapply loop_errors; [|exact El]. rewrite skipn_length. lia.
  - cbn in H. inversion H; subst. clear - Eh. unfold m2000_header in Eh.
    induction (split_comma _) as [|q qs IH]; cbn [mapR] in Eh; [discriminate|].
    destruct (split "=" q) as [|k [|v [|w r]]]; try (cbn in Eh; inversion Eh; auto; fail). cbn [rbind] in Eh.
    destruct (mapR _ qs) as [vs|x] eqn:E; cbn in Eh; [discriminate|]. apply IH. congruence.
Qed.

(** ** FilmSense: decoding *)
Lemma deg_pos : 0 < 180 / PI.
Proof. apply Rdiv_lt_0_compat; [lra|apply PI_RGT_0]. Qed.
Lemma psi_decodes N : psi_from N (fs_psi N).
Proof.
  destruct N as [n|]; [|reflexivity]. split.
  - intros H. destruct (fs_psi (Some n)) as [a|] eqn:E.
    + exists a. split; [reflexivity|]. split; [eapply fs_psi_range; eauto|]. unfold fs_psi in E. cbn [obind] in E.
      destruct (Rle_dec (Rabs n) 1); [|discriminate]. injection E as <-. unfold rad.
      replace (2 * (acos n / 2 * (180 / PI)) * (PI / 180)) with (acos n) by (field; apply PI_neq0).
      apply cos_acos. revert H. unfold Rabs. destruct (Rcase_abs n); lra.
    + unfold fs_psi in E. cbn [obind] in E. destruct (Rle_dec (Rabs n) 1); [discriminate|contradiction].
  - apply fs_psi_none.
Qed.
Definition to_deg (z : C) : R := let d := carg z * (180 / PI) in if Rlt_dec d 0 then 360 + d else d.
Lemma to_deg_spec (z : C) : cos (rad (to_deg z)) = cos (carg z) /\ sin (rad (to_deg z)) = sin (carg z).
Proof.
  unfold to_deg. cbv zeta. assert (E : rad (carg z * (180 / PI)) = carg z) by (unfold rad; field; apply PI_neq0).
  destruct (Rlt_dec _ 0); [|rewrite E; auto].
  replace (rad (360 + carg z * (180 / PI))) with (carg z + 2 * INR 1 * PI) by (unfold rad; cbn; field; apply PI_neq0).
  split; [apply cos_period|apply sin_period].
Qed.
Lemma delta_decodes N Cc S : delta_from N Cc S (fs_delta N Cc S).
Proof.
  destruct N as [n|], Cc as [c|], S as [s|]; try reflexivity. split.
  - intros H. destruct (fs_delta (Some n) (Some c) (Some s)) as [a|] eqn:E.
    + exists a. pose proof (fs_delta_range _ _ _ _ E) as B. unfold fs_delta in E. cbn [obind] in E.
      unfold fs_ratio in E. destruct (Req_EM_T (1 + n) 0); [contradiction|]. cbn [omap] in E.
      set (z := ((c, s) / RtoC (1 + n))%C) in *. assert (Ea : a = to_deg z) by (unfold to_deg; congruence). clear E.
      destruct (to_deg_spec z) as (Tc & Ts). rewrite <- Ea in Tc, Ts. exists (Cmod z). split; [reflexivity|]. split; [exact B|].
      split; [apply Cmod_ge_0|]. pose proof (carg_polar z) as P.
      assert (Z : (c, s) = (z * RtoC (1 + n))%C).
      { unfold z. generalize ((c, s) : C). intros u. change (@eq C u (u / RtoC (1 + n) * RtoC (1 + n))%C). field. intros K. apply H. apply (f_equal fst) in K. exact K. }
      rewrite Tc, Ts. destruct z as [x y] eqn:Ez.
      assert (P1 : x = Cmod (x, y) * cos (carg (x, y))) by (apply (f_equal fst) in P; exact P).
      assert (P2 : y = Cmod (x, y) * sin (carg (x, y))) by (apply (f_equal snd) in P; exact P).
      assert (Z1 : c = x * (1 + n)) by (apply (f_equal fst) in Z; cbn in Z; lra).
      assert (Z2 : s = y * (1 + n)) by (apply (f_equal snd) in Z; cbn in Z; lra).
      split; [|split].
      * rewrite Z1. rewrite P1 at 1. ring.
      * rewrite Z2. rewrite P2 at 1. ring.
      * intros M. apply Cmod_eq_0 in M. injection M as -> ->. rewrite Ea. unfold to_deg, carg.
        destruct (Rlt_dec 0 0); [lra|]. rewrite Rmult_0_l. destruct (Rlt_dec 0 0); lra.
    + exfalso. unfold fs_delta, fs_ratio in E. cbn [obind] in E. destruct (Req_EM_T (1 + n) 0); [contradiction|discriminate].
  - intros H. split.
    + intros Z. unfold fs_delta, fs_ratio. cbn [obind]. destruct (Req_EM_T (1 + n) 0); [|contradiction].
      destruct (Req_EM_T c 0); [reflexivity|]. destruct (Req_EM_T s 0); [reflexivity|tauto].
    + intros Hc Hs. destruct (fs_delta (Some n) (Some c) (Some s)) as [a|] eqn:E.
      * exists a. pose proof (fs_delta_range _ _ _ _ E) as B. unfold fs_delta, fs_ratio in E. cbn [obind] in E.
        destruct (Req_EM_T (1 + n) 0); [|contradiction]. destruct (Req_EM_T c 0); [contradiction|]. destruct (Req_EM_T s 0); [contradiction|].
        cbn [omap] in E. set (x := (if Rlt_dec c 0 then -1 else 1) : R) in *. set (y := (if Rlt_dec s 0 then -1 else 1) : R) in *.
        assert (Ea : a = to_deg (x, y)) by (unfold to_deg; congruence). clear E.
        destruct (to_deg_spec (x, y)) as (Tc & Ts). rewrite <- Ea in Tc, Ts. pose proof (carg_polar (x, y)) as P.
        assert (P1 : x = Cmod (x, y) * cos (carg (x, y))) by (apply (f_equal fst) in P; exact P).
        assert (P2 : y = Cmod (x, y) * sin (carg (x, y))) by (apply (f_equal snd) in P; exact P).
        assert (M : 0 < Cmod (x, y)).
        { apply Cmod_gt_0. intros K. apply (f_equal fst) in K. cbn in K. unfold x in K. destruct (Rlt_dec c 0); lra. }
        rewrite Tc, Ts. set (k := cos (carg (x, y))) in *. set (l := sin (carg (x, y))) in *. set (m := Cmod (x, y)) in *. clearbody k l m.
        split; [reflexivity|]. split; [exact B|].
        assert (Sg : forall u, u <> 0 -> forall w v, w = (if Rlt_dec u 0 then -1 else 1) -> w = m * v -> 0 < u * v).
        { intros u Hu w v Ew Ev. destruct (Rlt_dec u 0).
          - assert (v < 0) by nra. nra.
          - assert (0 < v) by nra. assert (0 < u) by (destruct (Rtotal_order u 0) as [?|[?|?]]; [lra|contradiction|assumption]). nra. }
        split; [apply (Sg c Hc x k eq_refl P1)|]. split; [apply (Sg s Hs y l eq_refl P2)|].
        assert (Q : x ^ 2 = y ^ 2) by (unfold x, y; destruct (Rlt_dec c 0), (Rlt_dec s 0); ring).
        rewrite P1, P2 in Q. assert (m ^ 2 * (k ^ 2 - l ^ 2) = 0) by nra. assert (m ^ 2 <> 0) by nra.
        apply Rmult_integral in H0 as [H0|H0]; [contradiction|lra].
      * exfalso. unfold fs_delta, fs_ratio in E. cbn [obind] in E.
        destruct (Req_EM_T (1 + n) 0); [|contradiction]. destruct (Req_EM_T c 0); [contradiction|]. destruct (Req_EM_T s 0); [contradiction|discriminate].
Qed.

(** ** FilmSense: layout *)
Lemma char_end s : s <> EmptyString -> exists c, s = (chop 1 s ++ String c EmptyString)%string.
Proof.
  intros H. assert (G : forall s, s = EmptyString \/ exists u c, s = (u ++ String c EmptyString)%string).
  { clear. induction s as [|x s IH]; [auto|]. right. destruct IH as [-> | (u & c & ->)]; [exists EmptyString, x; reflexivity|].
    exists (String x u), c. reflexivity. }
  destruct (G s) as [-> | (u & c & ->)]; [contradiction|]. exists c. rewrite chop1. reflexivity.
Qed.
Lemma header_inv pf pi dyn l W T aoi : fs_header pf pi dyn l = Ok (W, T, aoi) -> fs_head pf pi (if dyn then [3] else [3; 4; 5])%nat l W T aoi.
Proof.
  unfold fs_header. set (fs := split tab (chop 1 l)). destruct (nth_error fs 0) as [a|] eqn:Ea; [|discriminate].
  destruct (pi a) as [nw|] eqn:Pa; [|discriminate]. cbn [rbind]. destruct (nth_error fs 1) as [b|] eqn:Eb; [|discriminate].
  destruct (pi b) as [nd|] eqn:Pb; [|discriminate]. cbn [rbind]. destruct (float_at pf fs 2) as [v|e] eqn:E2; [|discriminate]. cbn [rbind].
  destruct (floats_at pf fs _) as [vs|e] eqn:E3; [|discriminate]. cbn [rbind]. intros H. assert (nw = W /\ nd = T /\ v = aoi) as (-> & -> & ->) by (repeat split; congruence).
  destruct (char_end l) as (c & El).
  { intros ->. cbn in Eb. discriminate. }
  destruct (fields_split tab (chop 1 l)) as (Ne & F & Ej). fold fs in Ne, F, Ej.
  exists fs, a, b, vs, c. split; [rewrite <- Ej; exact El|]. split; [exact F|]. split; [exact Ne|]. repeat (split; [assumption|]).
  split; [|apply floats_inv; exact E3]. apply floats_inv. unfold floats_at. cbn [mapR]. rewrite E2. reflexivity.
Qed.
Lemma block_inv pf is : (exists i, In (Datatypes.S i) is) -> forall n lines rows rest, fs_block pf is n lines = Ok (rows, rest) ->
  exists ls, lines = ls ++ rest /\ List.length ls = n /\ Forall2 (fun l r => fields tab l (split tab l) /\ numbers pf (split tab l) is r) ls rows.
Proof.
  intros (i & Hi). induction n as [|n IH]; intros lines rows rest H; cbn [fs_block] in H.
  - assert (rows = [] /\ lines = rest) as (-> & ->) by (split; congruence). exists []. repeat split. constructor.
  - destruct lines as [|l ls].
    + exfalso. cbn [readline] in H. destruct (floats_at pf (split tab "") is) as [r|e] eqn:E; [|discriminate].
      apply floats_inv in E. apply (numbers_len _ _ _ _ _ E) in Hi. cbn in Hi. lia.
    + cbn [readline] in H. destruct (floats_at pf (split tab l) is) as [r|e] eqn:E; [|discriminate]. cbn [rbind] in H.
      destruct (fs_block pf is n ls) as [[rs rest']|e] eqn:Eb; [|discriminate]. cbn in H. assert (rows = r :: rs /\ rest' = rest) as (-> & ->) by (split; congruence).
      destruct (IH _ _ _ Eb) as (ls' & -> & <- & F). exists (l :: ls'). repeat split. constructor; [|exact F]. split; [apply fields_split|apply floats_inv, E].
Qed.
Lemma waves_inv pf n lines rows rest : fs_block pf [0; 1; 2; 3]%nat n lines = Ok (rows, rest) ->
  exists wls, lines = wls ++ rest /\ List.length wls = n /\ Forall2 (fs_wave pf) wls (map (fun r => nth 0 r None) rows).
Proof.
  intros H. apply block_inv in H as (ls & -> & L & F); [|exists 0%nat; cbn; auto]. exists ls. repeat (split; [assumption || reflexivity|]).
  clear L. induction F as [|l r ls rows (F1 & N1) F IH]; [constructor|]. cbn [map]. constructor; [|exact IH].
  pose proof (numbers_n _ _ _ _ N1) as L. destruct r as [|w [|v1 [|v2 [|v3 [|]]]]]; try discriminate L. exists (split tab l), v1, v2, v3. auto.
Qed.
Definition triple (r : list num) : ncs := (nth 0 r None, nth 1 r None, nth 2 r None).
Lemma ncs_inv pf n lines rows rest : fs_block pf [0; 1; 2; 3; 4]%nat n lines = Ok (rows, rest) ->
  exists nls, lines = nls ++ rest /\ List.length nls = n /\ Forall2 (ncs_line pf) nls (map triple rows).
Proof.
  intros H. apply block_inv in H as (ls & -> & L & F); [|exists 0%nat; cbn; auto]. exists ls. repeat (split; [assumption || reflexivity|]).
  clear L. induction F as [|l r ls rows (F1 & N1) F IH]; [constructor|]. cbn [map]. constructor; [|exact IH].
  pose proof (numbers_n _ _ _ _ N1) as L. destruct r as [|w [|v1 [|v2 [|v3 [|v4 [|]]]]]]; try discriminate L. exists (split tab l), v3, v4. auto.
Qed.
Definition pts_of (ws : list num) (aoi : num) (rows : list (list num)) : list point :=
  map (fun q => (fst q, aoi, fs_psi (nth 0 (snd q) None), fs_delta (nth 0 (snd q) None) (nth 1 (snd q) None) (nth 2 (snd q) None))) (combine ws rows).
Lemma loaded_points ws aoi rows : List.length ws = List.length rows ->
  points_of aoi ws (map triple rows) (pts_of ws aoi rows) /\ stores (fs_loaded ws aoi rows) false (pts_of ws aoi rows).
Proof.
  revert rows. induction ws as [|w ws IH]; intros [|r rows] L; try discriminate.
  - repeat split; constructor.
  - destruct (IH rows) as ((P1 & P2 & P3) & S1 & S2 & S3 & S4 & _); [cbn in L; lia|].
    change (pts_of (w :: ws) aoi (r :: rows)) with ((w, aoi, fs_psi (nth 0 r None), fs_delta (nth 0 r None) (nth 1 r None) (nth 2 r None)) :: pts_of ws aoi rows).
    unfold points_of, stores, fs_loaded in *. cbn [ld_wav ld_aoi ld_psi ld_delta ld_reflect map] in *.
    split; [split; [|split]|split; [|split; [|split; [|split]]]].
    + cbn [p_wav fst]. f_equal. exact P1.
    + cbn [p_aoi fst snd]. f_equal. exact P2.
    + constructor; [|exact P3]. split; [apply psi_decodes|apply delta_decodes].
    + cbn [p_wav fst]. f_equal. exact S1.
    + cbn [p_aoi fst snd]. f_equal. exact S2.
    + cbn [p_psi fst snd]. f_equal. exact S3.
    + cbn [p_delta snd]. f_equal. exact S4.
    + reflexivity.
Qed.
Theorem filmsense_accepts pf pi lines x : open_FilmSenseFile pf pi lines = Ok (OneSet x) ->
  exists head wls ws nls xs W T aoi rest pts, lines = ("Film_Sense_Data" ++ newline)%string :: head :: wls ++ nls ++ rest /\
    fs_head pf pi [3; 4; 5]%nat head W T aoi /\ List.length wls = W /\ Forall2 (fs_wave pf) wls ws /\
    List.length nls = W /\ Forall2 (ncs_line pf) nls xs /\ points_of aoi ws xs pts /\ stores x false pts.
Proof.
  unfold open_FilmSenseFile. destruct lines as [|h lines]; [discriminate|]. cbn [readline].
  destruct (String.eqb_spec h ("Film_Sense_Data" ++ newline)) as [->|E].
  2: { destruct (String.eqb h _); [|discriminate]. destruct (fs_dynamic _ _ _); discriminate. }
  unfold fs_standard. destruct lines as [|head lines]; cbn [readline].
  { destruct (fs_header pf pi false "") as [[[W T] aoi]|e] eqn:Eh; [|discriminate]. apply header_inv in Eh.
    destruct Eh as (fs & ? & ? & ? & ? & K & _). destruct (join tab fs); discriminate. }
  destruct (fs_header pf pi false head) as [[[W T] aoi]|e] eqn:Eh; [|discriminate]. cbn [rbind]. apply header_inv in Eh.
  destruct (fs_block pf [0; 1; 2; 3]%nat W lines) as [[rows lines1]|e] eqn:E1; [|discriminate]. cbn [rbind].
  destruct (fs_block pf [0; 1; 2; 3; 4]%nat W lines1) as [[ncs rest]|e] eqn:E2; [|discriminate]. cbn [rbind rmap].
  intros H. assert (x = fs_loaded (map (fun r => nth 0 r None) rows) aoi ncs) as -> by congruence.
  apply waves_inv in E1 as (wls & -> & L1 & F1). apply ncs_inv in E2 as (nls & -> & L2 & F2).
  assert (L : List.length (map (fun r : list num => nth 0 r None) rows) = List.length ncs).
  { pose proof (F2_length _ _ _ F1) as K1. pose proof (F2_length _ _ _ F2) as K2. rewrite map_length in K2. exact (eq_trans (eq_sym K1) (eq_trans L1 (eq_trans (eq_sym L2) K2))). }
  destruct (loaded_points _ aoi ncs L) as (P & S). exists head, wls, (map (fun r => nth 0 r None) rows), nls, (map triple ncs), W, T, aoi, rest. eexists.
  split; [reflexivity|]. split; [exact Eh|]. split; [exact L1|]. split; [exact F1|]. split; [exact L2|]. split; [exact F2|]. split; [exact P|exact S].
Qed.

Lemma two_ends s : chop 2 s <> EmptyString -> exists c c', s = (chop 2 s ++ String c (String c' EmptyString))%string.
Proof.
  intros H. assert (G : forall s, s = EmptyString \/ (exists c, s = String c EmptyString) \/ exists u c c', s = (u ++ String c (String c' EmptyString))%string).
  { clear. induction s as [|x s IH]; [auto|]. right. destruct IH as [-> | [(c & ->) | (u & c & c' & ->)]].
    - left. eauto.
    - right. exists EmptyString, x, c. reflexivity.
    - right. exists (String x u), c, c'. reflexivity. }
  destruct (G s) as [-> | [(c & ->) | (u & c & c' & ->)]]; [contradiction|contradiction|]. exists c, c'. rewrite chop2. reflexivity.
Qed.
Lemma mapR_seq_inv {B} (f : nat -> result B) n : forall k bs, mapR f (seq k n) = Ok bs ->
  List.length bs = n /\ forall j b, nth_error bs j = Some b -> f (k + j)%nat = Ok b.
Proof.
  induction n as [|n IH]; intros k bs H; cbn [seq mapR] in H.
  - injection H as <-. split; [reflexivity|]. intros [|j] b E; discriminate.
  - destruct (f k) as [b0|e] eqn:E0; [|discriminate]. cbn [rbind] in H. destruct (mapR f (seq (S k) n)) as [bs'|e] eqn:Es; [|discriminate].
    cbn in H. injection H as <-. destruct (IH _ _ Es) as (L & G). split; [cbn; congruence|]. intros [|j] b E.
    + cbn in E. injection E as <-. rewrite Nat.add_0_r. exact E0.
    + cbn in E. specialize (G j b E). replace (k + S j)%nat with (S k + j)%nat by lia. exact G.
Qed.
Lemma times_inv pf W wavs aoi : pf EmptyString = None -> forall n lines d d', fs_times pf W wavs aoi n lines d = Ok d' ->
  exists sls tps rest kvs, lines = sls ++ rest /\ List.length sls = n /\
    Forall2 (fun l tp => step_line pf W l (fst tp) (map triple (snd tp))) sls tps /\
    Forall (fun tp => List.length (snd tp) = W) tps /\
    d' = sets kvs d /\ kvs = map (fun tp => (fst tp, fs_loaded wavs aoi (snd tp))) tps.
Proof.
  intros P0. induction n as [|n IH]; intros lines d d' H; cbn [fs_times] in H.
  - injection H as <-. exists [], [], lines, []. repeat split; constructor.
  - destruct lines as [|l ls]; cbn [readline] in H.
    { cbn in H. rewrite P0 in H. discriminate. }
    destruct (float_at pf (split tab (chop 2 l)) 0) as [t|e] eqn:Et; [|discriminate]. cbn [rbind] in H.
    destruct (mapR (fs_point pf (split tab (chop 2 l))) (seq 0 W)) as [rows|e] eqn:Em; [|discriminate]. cbn [rbind] in H.
    destruct t as [t|]; [|discriminate]. destruct (IH _ _ _ H) as (sls & tps & rest & kvs & -> & L & F & FL & -> & Ek).
    destruct (mapR_seq_inv _ _ _ _ Em) as (Lr & G).
    exists (l :: sls), ((t, rows) :: tps), rest, ((t, fs_loaded wavs aoi rows) :: kvs). split; [reflexivity|]. split; [cbn; congruence|].
    split; [|split; [constructor; assumption|split; [reflexivity|cbn [map fst snd]; congruence]]].
    constructor; [|exact F]. cbn [fst snd]. split; [rewrite map_length; exact Lr|].
    destruct (two_ends l) as (c & c' & El).
    { intros K. rewrite K in Et. cbn in Et. rewrite P0 in Et. discriminate. }
    destruct (fields_split tab (chop 2 l)) as (Ne & Ff & Ej). exists (split tab (chop 2 l)), c, c'. split; [rewrite <- Ej; exact El|].
    split; [exact Ff|]. split; [exact Ne|]. split; [apply floats_inv; unfold floats_at; cbn [mapR]; rewrite Et; reflexivity|].
    intros j x Hx. rewrite nth_error_map in Hx. destruct (nth_error rows j) as [r|] eqn:Er; [|discriminate].
    specialize (G j r Er). unfold fs_point in G. apply floats_inv in G. cbn [map] in G.
    pose proof (numbers_n _ _ _ _ G) as Ln. destruct r as [|a [|b [|s [|v3 [|v4 [|]]]]]]; try discriminate Ln. exists v3, v4.
    cbn in Hx. injection Hx as <-. unfold triple. cbn [nth fst snd]. rewrite !(Nat.mul_comm 5 j). exact G.
Qed.
Theorem filmsense_series pf pi lines d : pf EmptyString = None -> open_FilmSenseFile pf pi lines = Ok (Dict d) ->
  exists head wls ws heading sls tps W T aoi rest,
    lines = ("Film_Sense_Dyn_Data" ++ newline)%string :: head :: wls ++ rest /\ (rest = [] /\ sls = [] \/ exists rest', rest = heading :: sls ++ rest') /\
    fs_head pf pi [3]%nat head W T aoi /\ List.length wls = W /\ Forall2 (fs_wave pf) wls ws /\
    List.length sls = T /\ Forall2 (fun l tp => step_line pf W l (fst tp) (snd tp)) sls tps /\
    NoDup (map fst d) /\ (forall t, In t (map fst d) <-> In t (map fst tps)) /\
    (forall before t xs after, tps = before ++ (t, xs) :: after -> ~ In t (map fst after) ->
       exists x pts, In (t, x) d /\ points_of aoi ws xs pts /\ stores x false pts).
Proof.
  intros P0. unfold open_FilmSenseFile. destruct lines as [|h lines]; [discriminate|]. cbn [readline].
  destruct (String.eqb h _).
  { destruct (fs_standard _ _ _); discriminate. }
  destruct (String.eqb_spec h ("Film_Sense_Dyn_Data" ++ newline)) as [->|E]; [|discriminate].
  unfold fs_dynamic. destruct lines as [|head lines]; cbn [readline].
  { destruct (fs_header pf pi true "") as [[[W T] aoi]|e] eqn:Eh; [|discriminate]. apply header_inv in Eh.
    destruct Eh as (fs & ? & ? & ? & ? & K & _). destruct (join tab fs); discriminate. }
  destruct (fs_header pf pi true head) as [[[W T] aoi]|e] eqn:Eh; [|discriminate]. cbn [rbind]. apply header_inv in Eh.
  destruct (fs_block pf [0; 1; 2; 3]%nat W lines) as [[rows lines1]|e] eqn:E1; [|discriminate]. cbn [rbind].
  destruct (readline lines1) as [heading lines2] eqn:E2.
  destruct (fs_times _ _ _ _ _ _ _) as [d'|e] eqn:E3; [|discriminate]. cbn [rmap]. intros H. assert (d' = d) as -> by congruence.
  apply waves_inv in E1 as (wls & -> & L1 & F1). destruct (times_inv _ _ _ _ P0 _ _ _ _ E3) as (sls & tps & rest & kvs & El & L2 & F2 & FW & Ed & Ek).
  set (ws := map (fun r => nth 0 r None) rows) in *.
  exists head, wls, ws, heading, sls, (map (fun tp => (fst tp, map triple (snd tp))) tps), W, T, aoi, lines1.
  split; [reflexivity|]. split.
  { destruct lines1 as [|y lines1]; cbn [readline] in E2; injection E2 as <- <-.
    - left. destruct sls; [auto|discriminate].
    - right. exists rest. rewrite <- El. reflexivity. }
  split; [exact Eh|]. split; [exact L1|]. split; [exact F1|]. split; [exact L2|]. split.
  { clear - F2. induction F2; cbn [map]; constructor; auto. }
  destruct (sets_general kvs [] ltac:(constructor)) as (I1 & I2 & I3 & _). rewrite Ed. split; [exact I1|].
  assert (K : map fst kvs = map fst tps) by (rewrite Ek, map_map; reflexivity).
  split.
  { intros t. rewrite I2, K, map_map. cbn. tauto. }
  intros before t xs after Et Na.
  destruct (map_eq_app _ _ _ _ Et) as (tb & ta & E4 & Eb & Ea). destruct ta as [|(t', rs) ta]; [discriminate|]. cbn [map fst snd] in Ea.
  assert (t' = t /\ map triple rs = xs /\ map (fun tp => (fst tp, map triple (snd tp))) ta = after) as (-> & <- & Ea') by (repeat split; congruence).
  assert (Lr : List.length ws = List.length rs).
  { rewrite E4 in FW. apply Forall_app in FW as (_ & FW). inversion FW as [|? ? Q _]; subst. cbn in Q. rewrite Q. symmetry. exact (F2_length _ _ _ F1). }
  destruct (loaded_points ws aoi rs Lr) as (P & S). exists (fs_loaded ws aoi rs), (pts_of ws aoi rs).
  split; [|split; [exact P|exact S]].
  eapply (I3 (map (fun tp => (fst tp, fs_loaded ws aoi (snd tp))) tb) t _ (map (fun tp => (fst tp, fs_loaded ws aoi (snd tp))) ta)).
  - rewrite Ek, E4, map_app. reflexivity.
  - rewrite map_map. cbn [fst]. rewrite <- Ea', map_map in Na. exact Na.
Qed.

(** ** Horiba *)
Lemma app_white a b : all_white (a ++ b)%string <-> all_white a /\ all_white b.
Proof. induction a as [|c a IH]; cbn [append all_white]; [tauto|]. rewrite IH. tauto. Qed.
Lemma rstrip_parts s : exists b, s = (rstrip s ++ b)%string /\ all_white b /\
  match rstrip s with EmptyString => True | String c s' => ~ white (last_char c s') end.
Proof.
  induction s as [|c s (b & E & Hb & Hr)]; [exists EmptyString; cbn; auto|]. cbn [rstrip].
  destruct (rstrip s) as [|d t] eqn:Er.
  - destruct (is_space c) eqn:Ec.
    + exists (String c s). split; [reflexivity|]. split; [|exact I]. split; [apply is_space_white, Ec|]. rewrite E. exact Hb.
    + exists s. split; [reflexivity|]. split; [rewrite E; exact Hb|]. cbn. intros W. apply is_space_white in W. congruence.
  - exists b. split; [rewrite E; reflexivity|]. split; [exact Hb|]. exact Hr.
Qed.
Lemma lstrip_parts s : exists a, s = (a ++ lstrip s)%string /\ all_white a /\
  match lstrip s with EmptyString => True | String c _ => ~ white c end.
Proof.
  induction s as [|c s (a & E & Ha & Hs)]; [exists EmptyString; cbn; auto|]. cbn [lstrip]. destruct (is_space c) eqn:Ec.
  - exists (String c a). split; [cbn [append]; rewrite <- E; reflexivity|]. split; [|exact Hs]. split; [apply is_space_white, Ec|exact Ha].
  - exists EmptyString. split; [reflexivity|]. split; [exact I|]. intros W. apply is_space_white in W. congruence.
Qed.
Lemma trimmed_strip raw : trimmed raw (strip raw).
Proof.
  unfold strip. destruct (lstrip_parts raw) as (a & Ea & Ha & Hl). destruct (rstrip_parts (lstrip raw)) as (b & Eb & Hb & Hr).
  split.
  - exists a, b. split; [rewrite <- Eb; exact Ea|]. auto.
  - destruct (rstrip (lstrip raw)) as [|c s] eqn:E; [exact I|]. split; [|exact Hr]. rewrite Eb in Hl. exact Hl.
Qed.
Lemma label_title raw r label : strip raw = String "#" r -> horiba_label (strip raw) = label -> label <> EmptyString -> title raw label.
Proof.
  intros E H N. unfold horiba_label in H. rewrite E in H.
  destruct (fields_split " " (String "#" r)) as (_ & F & J). set (sp := split " " (String "#" r)) in *.
  destruct (chop_char _ _ H N) as (c & K). destruct sp as [|w0 [|u us]]; cbn [tl] in K.
  - destruct label; discriminate.
  - destruct label; discriminate.
  - change (join " " (w0 :: u :: us)) with (w0 ++ String " " (join " " (u :: us)))%string in J. rewrite K in J.
    pose proof (Forall_inv F) as F1. destruct w0 as [|x w]; [discriminate J|]. cbn [append] in J. injection J as Ex Er. destruct F1 as (_ & F1).
    exists w, c. split; [exact F1|]. rewrite <- Er, <- E. apply trimmed_strip.
Qed.
Lemma set_in {A} (k j : string) (v u : A) d : In (j, u) (dict_set String.eqb k v d) -> (j = k /\ u = v) \/ In (j, u) d.
Proof.
  induction d as [|(k', v') d IH]; cbn [dict_set].
  - intros [E|[]]. left. split; congruence.
  - destruct (String.eqb_spec k k') as [->|Ne].
    + intros [E|E]; [left; split; congruence|right; right; exact E].
    + intros [E|E]; [right; left; exact E|]. destruct (IH E) as [?|?]; [left; assumption|right; right; assumption].
Qed.
Lemma get_some {A} k (v : A) d : get_key k d = Ok v -> In (k, v) d.
Proof.
  unfold get_key. induction d as [|(k', v') d IH]; cbn [dict_get]; [discriminate|]. destruct (String.eqb_spec k k') as [->|Ne].
  - intros E. left. congruence.
  - intros E. right. auto.
Qed.
Lemma loop_places lines0 : forall lines i cur md nd md' nd', horiba_loop i lines cur md nd = (md', nd') ->
  skipn i lines0 = lines ->
  (forall l j, In (l, j) nd -> exists t r, nth_error lines0 j = Some t /\ strip t = String "#" r /\ horiba_label (strip t) = l) ->
  forall l j, In (l, j) nd' -> exists t r, nth_error lines0 j = Some t /\ strip t = String "#" r /\ horiba_label (strip t) = l.
Proof.
  induction lines as [|raw lines IH]; intros i cur md nd md' nd' H Hs Hn; cbn [horiba_loop] in H.
  - injection H as _ <-. exact Hn.
  - assert (Hs' : skipn (S i) lines0 = lines).
    { clear - Hs. revert i Hs. induction lines0 as [|y ys IHy]; intros [|i] Hs; cbn in *; try discriminate; [congruence|]. apply IHy. exact Hs. }
    assert (Hi : nth_error lines0 i = Some raw).
    { clear - Hs. revert i Hs. induction lines0 as [|y ys IHy]; intros [|i] Hs; cbn in *; try discriminate; [congruence|]. apply IHy. exact Hs. }
    destruct cur as [(label, acc)|].
    + destruct (strip raw); eapply IH; eauto.
    + destruct (strip raw) as [|c s] eqn:Es; [eapply IH; eauto|]. destruct (Ascii.eqb_spec c "#") as [->|Ne]; [|eapply IH; eauto].
      eapply IH; [exact H|exact Hs'|]. intros l j Hj. apply set_in in Hj as [(-> & ->)|Hj]; [|apply Hn; exact Hj].
      exists raw, s. rewrite Es. auto.
Qed.
Lemma nonblank_strip raw : nonblank raw (filter nonempty (map strip raw)).
Proof.
  exists (map strip raw). split.
  - induction raw; constructor; auto. apply trimmed_strip.
  - induction (map strip raw) as [|s l IH]; [constructor|]. cbn [filter]. destruct s as [|c s]; cbn [nonempty].
    + apply those_no; auto.
    + apply those_yes; [discriminate|auto].
Qed.
Lemma parse_inv pf fs vs : parse_fields pf fs = Ok vs -> Forall2 (fun f v => pf f = Some v) fs vs.
Proof.
  unfold parse_fields. intros H. apply mapR_Forall2 in H. eapply F2_impl; [|exact H]. intros f v E. cbn beta in E.
  destruct (pf f); [congruence|discriminate].
Qed.
Theorem horiba_accepts pf ansi lines refl lo hi md x : open_HORIBAfile pf ansi lines refl lo hi = Ok (md, x) ->
  exists i t n header body names rows sel angle a,
    nth_error lines i = Some t /\ title t "DATA" /\ nonblank (skipn (S i) lines) (header :: body) /\
    fields " " header names /\ Forall2 (data_row pf names) (firstn n body) rows /\
    those (fun r => between lo hi (fst (fst r))) rows sel /\
    In ("INCIDENCE ANGLE"%string, ELine angle) md /\ pf (substring 0 5 angle) = Some a /\
    stores x refl (map (fun r => (fst (fst r), a, snd (fst r), snd r)) sel).
Proof.
  unfold open_HORIBAfile. destruct (horiba_loop 0 lines None [] []) as [md0 nd] eqn:El.
  destruct (get_key "DATA" nd) as [i|e] eqn:Ei; [|discriminate]. cbn [rbind].
  destruct (get_key "DATA" md0) as [data|e] eqn:Ed; [|discriminate]. cbn [rbind]. destruct (entry_len data) as [n|e]; [|discriminate]. cbn [rbind].
  destruct (Nat.eqb n 0); [discriminate|]. destruct (negb ansi); [discriminate|].
  destruct (read_horiba pf (i + 1) (n - 1) lines) as [rows|e] eqn:Er; [|discriminate]. cbn [rbind].
  destruct (get_key "INCIDENCE ANGLE" md0) as [ent|e] eqn:Ea; [|discriminate]. cbn [rbind].
  destruct (entry_float pf ent) as [a|e] eqn:Ef; [|discriminate]. cbn [rbind]. intros H.
  pose proof (f_equal (fun r => match r with Ok p => fst p | Raise _ => md end) H) as E1. cbn [fst] in E1. subst md0.
  pose proof (f_equal (fun r => match r with Ok p => snd p | Raise _ => x end) H) as E2. cbn [snd] in E2. clear H.
  apply get_some in Ei. destruct (loop_places lines _ _ _ _ _ _ _ El eq_refl (fun l j (K : In (l, j) []) => match K with end) _ _ Ei) as (t & r & Et & Es & Hl).
  unfold read_horiba in Er. destruct (filter nonempty (map strip (skipn (i + 1) lines))) as [|header body] eqn:Eb; [discriminate|].
  destruct (index_of "nm" (split " " header)) as [iw|] eqn:I1; [|discriminate]. destruct (index_of "Psi" (split " " header)) as [ip|] eqn:I2; [|discriminate].
  destruct (index_of "Delta" (split " " header)) as [id|] eqn:I3; [|discriminate]. apply index_of_some in I1, I2, I3.
  destruct ent as [ls|angle|]; try discriminate. cbn [entry_float] in Ef. destruct (pf (substring 0 5 angle)) as [a'|] eqn:Ep; [|discriminate].
  assert (a' = a) as -> by congruence.
  exists i, t, (n - 1)%nat, header, body, (split " " header), rows. eexists. exists angle, a. split; [exact Et|].
  split; [eapply label_title; eauto; discriminate|]. split; [rewrite Nat.add_1_r in Eb; rewrite <- Eb; apply nonblank_strip|].
  split; [apply fields_split|]. split.
  { apply mapR_Forall2 in Er. eapply F2_impl; [|exact Er]. intros l q Hq. cbn beta in Hq. destruct (Nat.eqb_spec (List.length (split " " l)) (List.length (split " " header))) as [Ln|]; [|discriminate].
    destruct (parse_fields pf (split " " l)) as [vs|e] eqn:Epf; [|discriminate]. apply parse_inv in Epf.
    pose proof (F2_length _ _ _ Epf) as Lv.
    assert (q = (nth iw vs None, nth ip vs None, nth id vs None)) as -> by congruence. exists (split " " l), vs. split; [apply fields_split|].
    split; [exact Ln|]. split; [exact Epf|]. cbn [fst snd].
    assert (G : forall k nm, nth_error (split " " header) k = Some nm -> exists i, nth_error (split " " header) i = Some nm /\ nth_error vs i = Some (nth k vs None)).
    { intros k nm E. exists k. split; [exact E|]. apply nth_error_nth'. rewrite <- Lv, Ln. apply nth_error_Some. congruence. }
    split; [apply G, I1|]. split; [apply G, I2|apply G, I3]. }
  split; [apply filter_those|]. split; [apply get_some; exact Ea|]. split; [exact Ep|].
  rewrite <- E2. unfold stores. cbn [ld_wav ld_aoi ld_psi ld_delta ld_reflect]. rewrite !map_map. cbn. auto.
Qed.

(** ** the decoding is unique *)
Lemma same_angle a b : 0 <= a < 360 -> 0 <= b < 360 -> cos (rad a) = cos (rad b) -> sin (rad a) = sin (rad b) -> a = b.
Proof.
  intros Ha Hb Ec Es. pose proof PI_RGT_0 as Hp. set (h := (rad a - rad b) / 2).
  assert (S0 : sin h = 0).
  { assert (C1 : cos (2 * h) = 1).
    { replace (2 * h) with (rad a - rad b) by (unfold h; field). rewrite cos_minus, Ec, Es. pose proof (sin2_cos2 (rad b)) as Q. unfold Rsqr in Q. lra. }
    rewrite cos_2a_sin in C1. assert (sin h * sin h = 0) by lra. apply Rmult_integral in H. tauto. }
  assert (Bh : - PI < h < PI) by (unfold h, rad; nra).
  assert (h = 0).
  { destruct (Rtotal_order h 0) as [L|[L|L]]; [|exact L|].
    - pose proof (sin_gt_0 (- h) ltac:(lra) ltac:(lra)) as G. rewrite sin_neg in G. lra.
    - pose proof (sin_gt_0 h ltac:(lra) ltac:(lra)). lra. }
  unfold h, rad in H. assert ((a - b) * (PI / 180) = 0) by lra. apply Rmult_integral in H0 as [?|?]; lra.
Qed.
Lemma psi_unique N p p' : psi_from N p -> psi_from N p' -> p = p'.
Proof.
  destruct N as [n|]; cbn [psi_from]; [|congruence]. intros (A1 & A2) (B1 & B2).
  destruct (Rle_dec (Rabs n) 1) as [L|L]; [|rewrite A2, B2 by lra; reflexivity].
  destruct (A1 L) as (a & -> & Ra & Ca), (B1 L) as (b & -> & Rb & Cb). f_equal. pose proof PI_RGT_0.
  assert (rad (2 * a) = rad (2 * b)).
  { apply cos_inj; [unfold rad; nra|unfold rad; nra|congruence]. }
  unfold rad in H0. apply Rmult_eq_reg_r in H0; lra.
Qed.
Lemma delta_unique N Cc S d d' : delta_from N Cc S d -> delta_from N Cc S d' -> d = d'.
Proof.
  destruct N as [n|], Cc as [c|], S as [s|]; cbn [delta_from]; try congruence. intros (A1 & A2) (B1 & B2).
  destruct (Req_EM_T (1 + n) 0) as [Z|Z].
  - destruct (A2 Z) as (A3 & A4), (B2 Z) as (B3 & B4). destruct (Req_EM_T c 0) as [Ec|Ec]; [rewrite A3, B3 by auto; reflexivity|].
    destruct (Req_EM_T s 0) as [Es|Es]; [rewrite A3, B3 by auto; reflexivity|].
    destruct (A4 Ec Es) as (a & -> & Ra & P1 & P2 & P3), (B4 Ec Es) as (b & -> & Rb & Q1 & Q2 & Q3). f_equal.
    pose proof (sin2_cos2 (rad a)) as Ta. pose proof (sin2_cos2 (rad b)) as Tb. unfold Rsqr in *.
    apply same_angle; auto.
    + assert (cos (rad a) * cos (rad a) = cos (rad b) * cos (rad b)) by lra.
      assert ((cos (rad a) - cos (rad b)) * (cos (rad a) + cos (rad b)) = 0) by lra. apply Rmult_integral in H0 as [?|?]; [lra|].
      exfalso. assert (cos (rad a) = - cos (rad b)) as E by lra. rewrite E in P1. lra.
    + assert (sin (rad a) * sin (rad a) = sin (rad b) * sin (rad b)) by lra.
      assert ((sin (rad a) - sin (rad b)) * (sin (rad a) + sin (rad b)) = 0) by lra. apply Rmult_integral in H0 as [?|?]; [lra|].
      exfalso. assert (sin (rad a) = - sin (rad b)) as E by lra. rewrite E in P2. lra.
  - destruct (A1 Z) as (a & r & -> & Ra & Pr & P1 & P2 & P3), (B1 Z) as (b & q & -> & Rb & Qr & Q1 & Q2 & Q3). f_equal.
    assert (E1 : r * cos (rad a) = q * cos (rad b)).
    { apply (Rmult_eq_reg_r (1 + n)); [|exact Z]. rewrite P1 in Q1. lra. }
    assert (E2 : r * sin (rad a) = q * sin (rad b)).
    { apply (Rmult_eq_reg_r (1 + n)); [|exact Z]. rewrite P2 in Q2. lra. }
    pose proof (sin2_cos2 (rad a)) as Ta. pose proof (sin2_cos2 (rad b)) as Tb. unfold Rsqr in *.
    assert (Er : r * r = q * q).
    { transitivity ((r * cos (rad a)) * (r * cos (rad a)) + (r * sin (rad a)) * (r * sin (rad a))).
      - replace (r * cos (rad a) * (r * cos (rad a)) + r * sin (rad a) * (r * sin (rad a))) with (r * r * (sin (rad a) * sin (rad a) + cos (rad a) * cos (rad a))) by ring.
        rewrite Ta. ring.
      - rewrite E1, E2. replace (q * cos (rad b) * (q * cos (rad b)) + q * sin (rad b) * (q * sin (rad b))) with (q * q * (sin (rad b) * sin (rad b) + cos (rad b) * cos (rad b))) by ring.
        rewrite Tb. ring. }
    assert (r = q) as <-.
    { assert ((r - q) * (r + q) = 0) as K by lra. apply Rmult_integral in K as [K|K]; lra. }
    destruct (Req_EM_T r 0) as [R0|R0]; [rewrite P3, Q3 by assumption; reflexivity|].
    apply Rmult_eq_reg_l in E1, E2; auto using same_angle.
Qed.
Theorem decoded_unique x p d p' d' : decoded x p d -> decoded x p' d' -> p = p' /\ d = d'.
Proof. intros (A1 & A2) (B1 & B2). split; [eapply psi_unique|eapply delta_unique]; eauto. Qed.
Theorem decoded_encoded N Cc S psi delta : encoded N Cc S psi delta -> decoded (N, Cc, S) (Some psi) (Some delta).
Proof.
  intros H. split; cbn [fst snd].
  - rewrite <- (encoded_psi _ _ _ _ _ H). apply psi_decodes.
  - rewrite <- (encoded_delta _ _ _ _ _ H). apply delta_decodes.
Qed.
