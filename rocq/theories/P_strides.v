(** * Lemmas: negative strides *)

Require Import Reals ZArith Lia List Bool String Ascii Sorted.
From Coquelicot Require Import Complex.
Require Import List.
From Verif Require Import Base M_model M_data M_ep4 M_instr M_strides Spec_data Spec_instr P_instr P_instr4.
Import ListNotations.
Open Scope list_scope.
Open Scope R_scope.

Lemma slice_nat {A} n (l : list A) : slice_step (Z.of_nat n) l = stride n l.
Proof. destruct n as [|n]; [reflexivity|]. cbn [Z.of_nat slice_step stride]. rewrite SuccNat2Pos.id_succ. reflexivity. Qed.
Lemma slice_neg {A} n (l : list A) : (0 < n)%nat -> slice_step (- Z.of_nat n) l = stride n (rev l).
Proof. intros H. destruct n as [|n]; [lia|]. cbn [Z.of_nat Z.opp slice_step stride]. rewrite SuccNat2Pos.id_succ. reflexivity. Qed.
Lemma slice_0 {A} (l : list A) : slice_step 0 l = Raise ValueError.
Proof. reflexivity. Qed.

Lemma mod_abs idx te : te <> 0%Z -> (Z.of_nat idx mod te =? 0)%Z = Nat.eqb (idx mod Z.abs_nat te) 0.
Proof.
  intros H. apply eq_true_iff_eq. rewrite Z.eqb_eq, Nat.eqb_eq.
  assert (N : Z.abs_nat te <> 0%nat) by lia.
  rewrite Z.mod_divide by auto. rewrite Nat.mod_divide by auto. rewrite <- (Z.divide_abs_l te).
  replace (Z.abs te) with (Z.of_nat (Z.abs_nat te)) by lia. split.
  - intros [k E]. exists (Z.to_nat k). nia.
  - intros [k E]. exists (Z.of_nat k). nia.
Qed.

Lemma loop_abs te drop rows : forall ts idx d, te <> 0%Z ->
  kinetic_loop_z te drop rows idx ts d = kinetic_loop_z (Z.of_nat (Z.abs_nat te)) drop rows idx ts d.
Proof.
  induction ts as [|t ts IH]; intros idx d H; [reflexivity|]. cbn [kinetic_loop_z].
  assert (H' : Z.of_nat (Z.abs_nat te) <> 0%Z) by lia.
  rewrite (proj2 (Z.eqb_neq te 0) H), (proj2 (Z.eqb_neq _ 0) H').
  rewrite (mod_abs idx te H), (mod_abs idx _ H'), Zabs2Nat.id.
  destruct (Nat.eqb _ 0); [|apply IH; auto].
  destruct (kinetic_dataset_z drop (group_rows rows t)) as [x|e]; cbn [rbind]; auto.
Qed.

Lemma loop_nat te drop rows : forall ts idx d,
  kinetic_loop_z (Z.of_nat te) (Z.of_nat drop) rows idx ts d = kinetic_loop te drop rows idx ts d.
Proof.
  induction ts as [|t ts IH]; intros idx d; [reflexivity|]. cbn [kinetic_loop_z kinetic_loop].
  destruct te as [|te]; [reflexivity|].
  rewrite (proj2 (Z.eqb_neq (Z.of_nat (S te)) 0)) by lia.
  rewrite mod_abs, Zabs2Nat.id by lia. destruct (Nat.eqb _ 0); [|apply IH].
  unfold kinetic_dataset_z, kinetic_dataset. rewrite slice_nat.
  destruct (stride drop (group_rows rows t)) as [x|e]; cbn [rmap rbind]; auto.
Qed.

Lemma filter_backwards {A} (f : A -> bool) (l : list A) : filter f (rev l) = rev (filter f l).
Proof.
  induction l as [|r l IH]; [reflexivity|]. cbn [rev filter]. rewrite filter_app, IH. cbn [filter].
  destruct (f r); cbn [rev]; auto. rewrite app_nil_r. reflexivity.
Qed.
Lemma group_rows_rev rows t : group_rows (rev rows) t = rev (group_rows rows t).
Proof. apply filter_backwards. Qed.
Lemma rows_at_rev rows t : rows_at t (rev rows) = rev (rows_at t rows).
Proof. unfold rows_at. rewrite <- map_rev. f_equal. apply filter_backwards. Qed.
Lemma is_times_rev rows ts : is_times rows ts -> is_times (rev rows) ts.
Proof.
  intros [S H]. split; auto. intros t. rewrite H. split; intros [x I]; exists x; [apply in_rev; rewrite rev_involutive|apply in_rev in I]; auto.
Qed.
Lemma group_times_rev rows : group_times (rev rows) = group_times rows.
Proof. apply (times_unique (rev rows)); [apply group_times_spec|apply is_times_rev, group_times_spec]. Qed.

Lemma loop_rev te drop rows : (0 < drop)%nat -> forall ts idx d,
  kinetic_loop_z (Z.of_nat te) (- Z.of_nat drop) rows idx ts d = kinetic_loop te drop (rev rows) idx ts d.
Proof.
  intros Hd. induction ts as [|t ts IH]; intros idx d; [reflexivity|]. cbn [kinetic_loop_z kinetic_loop].
  destruct te as [|te]; [reflexivity|].
  rewrite (proj2 (Z.eqb_neq (Z.of_nat (S te)) 0)) by lia.
  rewrite mod_abs, Zabs2Nat.id by lia. destruct (Nat.eqb _ 0); [|apply IH].
  unfold kinetic_dataset_z, kinetic_dataset. rewrite slice_neg, group_rows_rev by auto.
  destruct (stride drop (rev (group_rows rows t))) as [x|e]; cbn [rmap rbind]; auto.
Qed.

(** ** The file *)
Theorem natural pf f table te drop : open_M2000file_z pf f table (Z.of_nat te) (Z.of_nat drop) = open_M2000file pf f table te drop.
Proof.
  unfold open_M2000file_z, open_M2000file. destruct (readline _) as [l0 ls0]. destruct (readline ls0) as [l1 ls1]. destruct (readline ls1) as [l2 ls2].
  destruct (String.eqb (chop 1 l2) "nm"); [|destruct (String.eqb (chop 1 l2) "Dynamic"); [|reflexivity]].
  - destruct (m2000_header _) as [md|e]; cbn [rbind]; auto. f_equal. unfold M2000_standard_z, M2000_standard.
    destruct (m2000_loop _ _ _) as [data|e]; cbn [rbind]; auto. rewrite slice_nat. reflexivity.
  - destruct (m2000_header _) as [md|e]; cbn [rbind]; auto. f_equal. unfold M2000_kinetic_z, M2000_kinetic. apply loop_nat.
Qed.

Theorem sign_of_take_every pf f table te drop : open_M2000file_z pf f table (- te) drop = open_M2000file_z pf f table te drop.
Proof.
  unfold open_M2000file_z. destruct (readline _) as [l0 ls0]. destruct (readline ls0) as [l1 ls1]. destruct (readline ls1) as [l2 ls2].
  destruct (String.eqb (chop 1 l2) "nm"); [reflexivity|]. destruct (String.eqb (chop 1 l2) "Dynamic"); [|reflexivity].
  destruct (m2000_header _) as [md|e]; cbn [rbind]; auto. f_equal. unfold M2000_kinetic_z.
  destruct (Z.eq_dec te 0) as [->|N]; [reflexivity|].
  rewrite (loop_abs (- te)), (loop_abs te) by lia. do 2 f_equal. lia.
Qed.

Lemma F2_rev {A B} (P : A -> B -> Prop) l l' : Forall2 P l l' -> Forall2 P (rev l) (rev l').
Proof. intros H. induction H; cbn [rev]; auto. apply Forall2_app; auto. Qed.

Lemma standard_backwards pf d skip pre recs pts rest : Forall2 (record pf) recs pts -> ends rest -> (0 < d)%nat -> recs <> [] ->
  List.length pre = skip ->
  exists x sel, M2000_standard_z pf (- Z.of_nat d) skip (pre ++ List.concat recs ++ rest) = Ok x /\ every d (rev pts) sel /\ stores x false sel.
Proof.
  intros H He Hd Hn Hs. unfold M2000_standard_z. rewrite <- Hs, skipn_app, skipn_all, Nat.sub_diag. cbn [skipn app].
  destruct (loop_records pf recs pts rest H He (List.length (pre ++ List.concat recs ++ rest))) as (rows & E & R).
  { rewrite !app_length, (concat_records_len _ _ _ H). lia. }
  rewrite E. cbn [rbind]. rewrite slice_neg by auto.
  destruct (stride_every d (rev rows) Hd) as (r & E' & V). rewrite E'. cbn [rbind].
  assert (rows <> []) as Nr.
  { inversion H; subst; [congruence|]. inversion R. discriminate. }
  assert (rev rows <> []) as Nr0 by (intros Z; apply Nr; rewrite <- (rev_involutive rows), Z; reflexivity).
  pose proof (every_nonempty _ _ _ V Nr0) as Nr'.
  assert (exists sel, every d (rev pts) sel) as (sel & Vs).
  { destruct (stride_every d (rev pts) Hd) as (sel & _ & Vs). eauto. }
  pose proof (F2_every _ _ _ _ _ _ (F2_rev _ _ _ R) Vs V) as Q.
  destruct r as [|r0 r]; [congruence|].
  eexists. exists sel. split; [reflexivity|]. split; [exact Vs|].
  unfold stores. cbn [ld_wav ld_aoi ld_psi ld_delta ld_reflect].
  assert (forall (f : list num -> num) (g : point -> num), (forall x r, row_of x r -> f r = g x) -> forall l l',
    Forall2 row_of l l' -> map f l' = map g l) as M.
  { intros f g Hfg l l' HF. induction HF; simpl; [reflexivity|]. f_equal; auto. }
  repeat split; apply M; auto; intros ? ? (A1 & A2 & A3 & A4); auto.
Qed.

Theorem static_backwards pf te d l0 l1 kvs recs pts rest table :
  vase_line kvs l1 -> Forall2 (record pf) recs pts -> recs <> [] -> ends rest -> (0 < d)%nat ->
  exists x sel, open_M2000file_z pf (ByName (l0 :: l1 :: ("nm" ++ newline)%string :: List.concat recs ++ rest)) table te (- Z.of_nat d)
                = Ok (kvs, OneSet x) /\ every d (rev pts) sel /\ stores x false sel.
Proof.
  intros Hh H N He Hd. unfold open_M2000file_z. cbn [readline]. rewrite nm_line.
  change (String.eqb "nm" "nm") with true. cbv iota.
  rewrite (header_ok _ _ Hh). cbn [rbind].
  destruct (standard_backwards pf d 3 [l0; l1; ("nm" ++ newline)%string] recs pts rest H He Hd N eq_refl) as (x & sel & E & V & S).
  exists x, sel. cbn [app] in E. rewrite E. cbn [rmap]. auto.
Qed.

Lemma dynamic_z pf f l0 l1 kvs rest table te drop : vase_line kvs l1 ->
  f = ByName (l0 :: l1 :: ("Dynamic" ++ newline)%string :: rest) \/ f = ByHandle (l0 :: l1 :: ("Dynamic" ++ newline)%string :: rest) ->
  open_M2000file_z pf f table te drop = rmap (fun d => (kvs, Dict d)) (M2000_kinetic_z te drop table).
Proof.
  intros Hh [->| ->]; unfold open_M2000file_z; cbn [readline]; change (chop 1 ("Dynamic" ++ newline)) with "Dynamic"%string;
    change (String.eqb "Dynamic" "nm") with false; change (String.eqb "Dynamic" "Dynamic") with true; cbv iota;
    rewrite (header_ok _ _ Hh); reflexivity.
Qed.

(** the datasets of the steps, with their points backwards *)
Theorem kinetic_backwards te drop rows ts kept : te <> 0%Z -> (0 < drop)%nat -> is_times rows ts -> every (Z.abs_nat te) ts kept ->
  exists d, M2000_kinetic_z te (- Z.of_nat drop) rows = Ok d /\ NoDup (map fst d) /\
    (forall k, In k (map fst d) <-> exists t, In t kept /\ seconds t k) /\
    (forall before t after k, kept = before ++ t :: after -> seconds t k -> (forall t', In t' after -> ~ seconds t' k) ->
       exists x sel, In (k, x) d /\ every drop (rev (rows_at t rows)) sel /\ stores x false sel).
Proof.
  intros Ht Hd T E.
  destruct (kinetic_general (Z.abs_nat te) drop (rev rows) ts kept ltac:(lia) Hd (is_times_rev _ _ T) E) as (d & E1 & ND & K & L).
  exists d. split; [|split; [auto|split; [auto|]]].
  - rewrite <- E1. unfold M2000_kinetic_z, M2000_kinetic. rewrite loop_abs by auto. rewrite loop_rev by auto. rewrite group_times_rev. reflexivity.
  - intros before t after k Ek S NA. destruct (L before t after k Ek S NA) as (x & I & sel & V & SS).
    exists x, sel. split; auto. split; auto. rewrite <- rows_at_rev. exact V.
Qed.

Lemma backwards_none pf te d l0 l1 kvs rest table : vase_line kvs l1 -> ends rest -> (0 < d)%nat ->
  open_M2000file_z pf (ByName (l0 :: l1 :: ("nm" ++ newline)%string :: rest)) table te (- Z.of_nat d) = Raise IndexError.
Proof.
  intros Hh He Hd. unfold open_M2000file_z. cbn [readline]. rewrite nm_line.
  change (String.eqb "nm" "nm") with true. cbv iota. rewrite (header_ok _ _ Hh). cbn [rbind].
  unfold M2000_standard_z. cbn [skipn]. rewrite loop_ends by auto. cbn [rbind]. rewrite slice_neg by auto.
  destruct d as [|d]; [lia|]. reflexivity.
Qed.

(** two records: every second point from the front and from the back *)
Lemma other_points : exists file x x',
  open_M2000file_z ex_pf (ByName file) [] 1 2 = Ok (ex_kvs, OneSet x) /\ ld_wav x = [Some 500] /\
  open_M2000file_z ex_pf (ByName file) [] 1 (-2) = Ok (ex_kvs, OneSet x') /\ ld_wav x' = [Some 600].
Proof.
  destruct ex_static as (Hv & Hr & He).
  assert (Two : forall A (a b : A) r, every 2 [a; b] r -> r = [a]).
  { intros A a b r H. apply nth_error_ext. intros i. rewrite H. destruct i as [|i]; [reflexivity|].
    replace (S i * 2)%nat with (S (S (i * 2))) by lia. destruct i; [reflexivity|]. cbn. destruct (i * 2)%nat; reflexivity. }
  destruct (open_static ex_pf 1 2 "" ex_vase ex_kvs _ _ [""%string] [] Hv Hr ltac:(discriminate) He ltac:(lia)) as (x & sel & E & V & S).
  destruct (static_backwards ex_pf 1 2 "" ex_vase ex_kvs _ _ [""%string] [] Hv Hr ltac:(discriminate) He ltac:(lia)) as (x' & sel' & E' & V' & S').
  apply Two in V. cbn [rev app ex_pts] in V'. apply Two in V'. subst.
  eexists _, x, x'. rewrite <- (natural ex_pf _ [] 1 2) in E. split; [exact E|].
  split; [rewrite (proj1 S); reflexivity|]. split; [exact E'|]. rewrite (proj1 S'); reflexivity.
Qed.
