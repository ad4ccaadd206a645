(** * Simulated data with an offset and folding *)

Require Import Reals List Bool String Ascii Lra Lia ZArith.
From Coquelicot Require Import Complex.
From Verif Require Import Base Cplx M_tmm M_disp M_struct M_model Spec_struct P_struct P_struct2 P_tmm P_tmm2 P_psidelta P_examples P_model P_model2 M_data M_objective Spec_data P_data Spec_objective P_objective
  P_objective2 P_objective3 Spec_round P_round.
Import ListNotations.
Open Scope list_scope.
Open Scope R_scope.

Definition X_r : list (R * R) := [(633, 0); (633, 0)].
Definition st_r (x : R) (flip : bool) : state := State (write_all (fun _ => 0) [1%nat] [x]) [None] [flip].
Definition sys_r (h : heap) : system := sys_ex 1 (3 / 2) h.

Lemma model_r h st : st_store st 0%nat = 0 ->
  predicts (sys_r h) st 0%nat X_r (map Some [45; 45]) (map Some [180 + st_store st 1%nat; 180 + st_store st 1%nat]).
Proof.
  intros E. unfold predicts, call_model, X_r.
  assert (C : current (sys_r h) st 0%nat = set_wavelength glass (nth 0%nat (st_wavelengths st) None)).
  { unfold current, inst_structure, set_wavelength, glass, simple, layer_c, const. cbn.
    unfold inst_component. cbn. unfold value, read. cbn. rewrite E. reflexivity. }
  rewrite C. change (value (sys_r h) st (mo_offset (the_model (sys_r h) 0%nat))) with (st_store st 1%nat).
  change (sy_ext (sys_r h)) with no_ext.
  destruct (model_forgets no_ext DFloat glass (nth 0%nat (st_wavelengths st) None) (st_store st 1%nat) (nth 0%nat (st_flips st) false) [(633, 0); (633, 0)]) as [M _].
  rewrite glass_batch in M. destruct (model no_ext DFloat (set_wavelength glass _) _ _ _) as [r s]. cbn [fst] in *. exact M.
Qed.

(** ** with folding the predictions exceed 180 degrees by the offset at most *)
Lemma folded_delta off (rs rp : C) d : delta_of true off rs rp = Some d -> d <= 180 + off.
Proof.
  intros H. destruct (delta_of false off rs rp) as [d0|] eqn:E.
  - destruct (delta_reflect off rs rp d0 E) as (d' & E' & B & _). rewrite H in E'. injection E' as <-. lra.
  - exfalso. revert H E. unfold delta_of. destruct (cdiv (- rp)%C rs) as [q|]; cbn [obind]; [|discriminate].
    destruct (cdiv 1 q); cbn [obind]; discriminate.
Qed.

Lemma folded_prediction sy st m X psi delta : predicts sy st m X psi (map Some delta) -> nth m (st_flips st) false = true ->
  Forall (fun x => x <= 180 + value sy st (mo_offset (the_model sy m))) delta.
Proof.
  unfold predicts, call_model. intros P F. rewrite F in P. set (off := value _ _ _) in *.
  destruct (model (sy_ext sy) DFloat (current sy st m) off true X) as [r s'] eqn:M. cbn [fst] in P. subst r.
  pose proof (model_fine _ _ _ _ _ _ _ _ M) as FI. rewrite model_value in M by exact FI.
  assert (D : map (fun x => snd (val (sy_ext sy) (current sy st m) off true x)) X = map Some delta).
  { apply (f_equal (fun r => match fst r with Ok v => snd v | _ => [] end)) in M. exact M. }
  clear M. apply Forall_forall. intros x Hx. apply (in_map Some) in Hx. rewrite <- D in Hx. apply in_map_iff in Hx as (y & Hy & Iy).
  specialize (FI y Iy). unfold fine in FI. destruct (val (sy_ext sy) (current sy st m) off true y) as [p q]. cbn [snd] in Hy. subst q.
  unfold one_wavelength in FI. destruct (structure_slabs _ _ None) as [[[rows|]|e] s2]; cbn [fst] in FI; try discriminate.
  unfold Delta_Psi_TMM in FI. destruct (map layer_of rows) as [|l0 rest]; [discriminate|]. cbv zeta in FI. cbn [fst] in FI.
  destruct (mapM l_ri (drop_k l0 :: rest)) as [RIs|].
  - destruct (coh_tmm RIs _ _) as [a|e]; cbn [rmap] in FI; [|discriminate].
    destruct a as [|a0 [|]]; cbn [map] in FI; try discriminate.
    assert (Q : psi_delta true off a0 = (p, Some x)) by (apply (f_equal (fun r => match r with Ok (v :: _) => v | _ => (None, None) end)) in FI; exact FI).
    unfold psi_delta in Q. destruct (amp_s a0) as [[rs ?]|]; [|discriminate]. destruct (amp_p a0) as [[rp ?]|]; [|discriminate].
    apply (folded_delta off rs rp). apply (f_equal snd) in Q. exact Q.
  - destruct (l_ri l0); [|discriminate]. destruct (_ <? 2)%nat; discriminate.
Qed.

Theorem round_trip_any pf pr sy st m X psi delta h d name refl lnsigma use_weights extra :
  predicts sy st m X (map Some psi) (map Some delta) -> (m < List.length (st_flips st))%nat -> nth m (st_flips st) false = refl ->
  (refl = true -> value sy st (mo_offset (the_model sy m)) <= 0) ->
  holds h d (simulated X psi delta) -> (2 <= List.length X)%nat ->
  Forall (point_survives pf pr) (simulated X psi delta) -> pf "# wavelength"%string = None ->
  exists lines d' h', save pr h d = Ok lines /\ new_dataset pf (sy_heap sy) tab (FromFile name lines) refl = Ok (d', h') /\
  exists o, new_objective m d' lnsigma use_weights extra st = (o, st) /\
  let sy' := with_arrays sy h' in
  fst (residuals sy' o None st) = Ok (map (fun _ => Some 0) (psi ++ delta)) /\ fst (chisqr sy' o None st) = Ok (Some 0) /\
  fst (logl sy' o None st) = Ok 0 /\
  (forall v l, fst (logl sy' o v st) = Ok l -> l <= 0) /\
  (forall v st1 psi' delta', setp sy' o v st = (Ok tt, st1) -> predicts sy' st1 m X (map Some psi') (map Some delta') ->
     Forall2 (fun a b => Rabs (a - b) <= 360) delta' delta ->
     (fst (chisqr sy' o v st) = Ok (Some 0) <-> psi' = psi /\ Forall2 (fun a b => exists k : Z, a - b = IZR k * 360) delta' delta)).
Proof.
  intros P M FL OF. apply round_trip; auto. intros T. rewrite T in FL.
  eapply Forall_impl; [|exact (folded_prediction _ _ _ _ _ _ P FL)]. cbv beta. intros x Hx. specialize (OF T). lra.
Qed.

(** a way of writing and reading four numbers *)
Definition print_r (v : num) : string :=
  match v with
  | Some x => if Req_EM_T x 633 then "6" else if Req_EM_T x 0 then "0" else if Req_EM_T x 45 then "4" else "9"
  | None => "nan"
  end%string.
Definition parse_r (y : R) (s : string) : option num :=
  match s with
  | String c EmptyString =>
      if Nat.eqb (nat_of_ascii c) 54 then Some (Some 633) else if Nat.eqb (nat_of_ascii c) 48 then Some (Some 0)
      else if Nat.eqb (nat_of_ascii c) 52 then Some (Some 45) else if Nat.eqb (nat_of_ascii c) 57 then Some (Some y) else None
  | _ => None
  end.

Lemma survive_r y v : y <> 633 -> y <> 0 -> y <> 45 -> In v [633; 0; 45; y] -> survives (parse_r y) print_r (Some v).
Proof.
  intros N1 N2 N3 H. unfold survives, print_r.
  destruct H as [<-|[<-|[<-|[<-|[]]]]]; repeat (destruct (Req_EM_T _ _); try lra);
    cbv -[IZR INR Rplus Rmult]; (split; [reflexivity|split; [discriminate|split; [discriminate|split; [discriminate|exact Logic.I]]]]).
Qed.

Lemma survives_r y : y <> 633 -> y <> 0 -> y <> 45 ->
  Forall (point_survives (parse_r y) print_r) (simulated X_r [45; 45] [y; y]).
Proof.
  intros N1 N2 N3. assert (P : point_survives (parse_r y) print_r (Some 633, Some 0, Some 45, Some y)).
  { unfold point_survives. cbn [p_wav p_aoi p_psi p_delta fst snd].
    split; [|split; [|split]]; apply survive_r; auto; simpl; auto. }
  constructor; [exact P|]. constructor; [exact P|constructor].
Qed.

Definition heap_r (y : R) : heap := [[Some 633; Some 633]; [Some 0; Some 0]; [Some 45; Some 45]; [Some y; Some y]].
Definition data_r : dataset := DataSE 0%nat 1%nat 2%nat 3%nat (MBool [true; true]) false false None tab.
Lemma holds_r y : holds (heap_r y) data_r (simulated X_r [45; 45] [y; y]).
Proof. repeat split. Qed.

(** with folding and an offset, what is read is not what was predicted *)
Theorem offset_refuted : exists pf pr sy st m X psi delta h d,
  predicts sy st m X (map Some psi) (map Some delta) /\ (m < List.length (st_flips st))%nat /\ nth m (st_flips st) false = true /\
  holds h d (simulated X psi delta) /\ (2 <= List.length X)%nat /\
  Forall (point_survives pf pr) (simulated X psi delta) /\ pf "# wavelength"%string = None /\
  forall name lnsigma use_weights extra,
  exists lines d' h', save pr h d = Ok lines /\ new_dataset pf (sy_heap sy) tab (FromFile name lines) true = Ok (d', h') /\
  exists o, new_objective m d' lnsigma use_weights extra st = (o, st) /\
  exists c, fst (chisqr (with_arrays sy h') o None st) = Ok (Some c) /\ 0 < c.
Proof.
  exists (parse_r 190), print_r, (sys_r []), (st_r 10 true), 0%nat, X_r, [45; 45], [190; 190], (heap_r 190), data_r.
  assert (P : forall h, predicts (sys_r h) (st_r 10 true) 0%nat X_r (map Some [45; 45]) (map Some [190; 190])).
  { intros h. pose proof (model_r h (st_r 10 true) eq_refl) as Q. replace (180 + st_store (st_r 10 true) 1%nat) with 190 in Q; [exact Q|].
    cbn. ring. }
  split; [apply P|]. split; [cbn; lia|]. split; [reflexivity|]. split; [apply holds_r|]. split; [cbn; lia|].
  split; [apply survives_r; lra|]. split; [reflexivity|]. intros name lnsigma use_weights extra.
  destruct (load_new (parse_r 190) print_r (heap_r 190) data_r _ [] name true (holds_r 190) ltac:(cbn; lia) ltac:(apply survives_r; lra) eq_refl)
    as (lines & S & d' & h' & E & E1 & E2 & E3 & E4).
  exists lines, d', h'. split; [exact S|]. split; [exact E|]. exists (Objective 0%nat d' lnsigma use_weights extra). split.
  { unfold new_objective. rewrite E1. reflexivity. }
  set (o := Objective 0%nat d' lnsigma use_weights extra).
  assert (FP : map fold_point (simulated X_r [45; 45] [190; 190]) = simulated X_r [45; 45] [170; 170]).
  { assert (Q : fold_point (Some 633, Some 0, Some 45, Some 190) = (Some 633, Some 0, Some 45, Some 170)).
    { unfold fold_point, fold_delta. cbn [fst snd]. destruct (Rlt_dec 180 190); [|lra]. replace (360 - 190) with 170 by lra. reflexivity. }
    unfold simulated, X_r. cbn [combine map fst snd]. rewrite Q. reflexivity. }
  rewrite FP in E4.
  change (with_arrays (sys_r []) h') with (sys_r h').
  assert (HD : has_data (sys_r h') o (simulated X_r [45; 45] [170; 170]) X_r).
  { exists (simulated X_r [45; 45] [170; 170]), (map (fun _ => true) (simulated X_r [45; 45] [170; 170])).
    split; [exact E4|]. split; [exact E3|]. split; [apply kept_all|]. repeat constructor. }
  assert (HS : setp (sys_r h') o None (st_r 10 true) = (Ok tt, st_r 10 true)) by reflexivity.
  destruct (residuals_spec (sys_r h') o None (st_r 10 true) _ _ X_r _ _ HD HS (P h')) as (rp & rd & ER & L1 & L2 & L3 & L4 & N).
  assert (Q : forall i, (i < 2)%nat -> exists a b, nth_error rp i = Some (Some a) /\ nth_error rd i = Some (Some b)).
  { intros i Hi. assert (HX : exists x, nth_error (simulated X_r [45; 45] [170; 170]) i = Some x /\ x = (Some 633, Some 0, Some 45, Some 170)).
    { destruct i as [|[|]]; [eexists; split; reflexivity..|lia]. }
    destruct HX as (x & Hx & ->).
    destruct (N i _ (Some 45) (Some 190) Hx) as (a & b & A1 & A2 & B1 & B2); [destruct i as [|[|]]; [reflexivity..|lia]|destruct i as [|[|]]; [reflexivity..|lia]|].
    cbn in A2, B2. destruct B2 as (dd & -> & _). rewrite A1, B1, A2. eexists. eexists. split; reflexivity. }
  destruct (Q 0%nat ltac:(lia)) as (a0 & b0 & A0 & B0). destruct (Q 1%nat ltac:(lia)) as (a1 & b1 & A1 & B1).
  destruct rp as [|x0 [|x1 [|]]]; try discriminate. destruct rd as [|y0 [|y1 [|]]]; try discriminate.
  cbn in A0, A1, B0, B1. injection A0 as ->. injection A1 as ->. injection B0 as ->. injection B1 as ->.
  destruct (chisqr_spec (sys_r h') o None (st_r 10 true)) as (C & _). specialize (C [a0; a1; b0; b1] ER).
  eexists. split; [exact C|].
  pose proof (chisqr_zero (sys_r h') o None (st_r 10 true) _ _ X_r _ _ _ HD HS (P h') C) as Z.
  match goal with |- 0 < ?c => set (cc := c) in *; destruct (Rtotal_order 0 cc) as [K|[K|K]]; [exact K| |] end.
  - exfalso. destruct (proj1 (Z ltac:(intros [|[|[|i]]] x y d Hx Hy Hd; cbn in Hx, Hd; try discriminate; injection Hx as <-; cbn in Hy; injection Hy as <-; injection Hd as <-; rewrite Rabs_pos_eq; lra)) (eq_sym K) 0%nat _ eq_refl) as (p & dm & y & _ & _ & M1 & M2 & k & M3).
    cbn in M1, M2. injection M1 as <-. injection M2 as <-.
    assert (U : IZR (18 * k) = IZR 1) by (rewrite mult_IZR; lra). apply eq_IZR in U. lia.
  - exfalso. unfold cc in K. cbn in K. pose proof (pow2_ge_0 a0). pose proof (pow2_ge_0 a1). pose proof (pow2_ge_0 b0). pose proof (pow2_ge_0 b1). cbn in *. lra.
Qed.
