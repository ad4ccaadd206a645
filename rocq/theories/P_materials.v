(** * Proofs about the bundled dispersion curves *)

Require Import Reals List Bool ZArith String Lra Lia Sorting.Sorted.
From Coquelicot Require Import Complex.
From Verif Require Import Base Cplx M_ema M_disp Spec_disp P_disp M_materials.
Import ListNotations.
Open Scope R_scope.

Fixpoint sortedb (f : Z -> Z -> bool) (l : list Z) : bool :=
  match l with
  | a :: (b :: _) as l' => f a b && sortedb f l'
  | _ => true
  end.

Definition all_ge (b : Z) (l : list Z) : bool := forallb (fun z => (b <=? z)%Z) l.

(** one curve: same lengths, positive scales, wavelengths positive and in order,
    n > 0, k >= 0 *)
Definition good_cols (c : list (Z * list Z)) : bool :=
  match c with
  | (sw, w) :: (sn, n) :: rest =>
      (1 <=? sw)%Z && (1 <=? sn)%Z && Nat.eqb (List.length n) (List.length w) &&
      Nat.leb 2 (List.length w) && all_ge 1 w && all_ge 1 n && sortedb Z.leb w &&
      match rest with
      | [] => true
      | [(sk, k)] => (1 <=? sk)%Z && Nat.eqb (List.length k) (List.length w) && all_ge 0 k
      | _ => false
      end
  | _ => false
  end.

Lemma all_good : forallb (fun p => good_cols (snd p)) material_files = true.
Proof. vm_compute. reflexivity. Qed.

Lemma column_ge b s l : (1 <= s)%Z -> all_ge b l = true -> Forall (fun y => IZR b / IZR s <= y) (column (s, l)).
Proof.
  intros Hs H. unfold column, all_ge in *. rewrite Forall_map. rewrite forallb_forall in H.
  rewrite Forall_forall. intros z Hz. specialize (H z Hz). apply Z.leb_le in H.
  cbn [fst]. apply IZR_le in H, Hs. unfold Rdiv. apply Rmult_le_compat_r; auto.
  left; apply Rinv_0_lt_compat; lra.
Qed.

Lemma exists_upper (l : list R) : exists hi, Forall (fun y => y <= hi) l.
Proof.
  induction l as [|a l [hi IH]]; [exists 0; constructor|].
  exists (Rmax a hi). constructor; [apply Rmax_l|]. eapply Forall_impl; [|exact IH].
  intros y Hy. simpl in Hy. pose proof (Rmax_r a hi). lra.
Qed.

Lemma column_any s w : (1 <= s)%Z -> all_ge 1 w = true -> w <> [] ->
  exists x, In x (map (fun x => x * 1000) (column (s, w))) /\ x <> 0.
Proof.
  intros Hs H Hn. destruct w as [|z w]; [congruence|].
  pose proof (column_ge _ _ _ Hs H) as F. unfold column in *. cbn [map fst snd] in *.
  inversion F; subst. eexists; split; [left; reflexivity|].
  assert (0 < 1 / IZR s). { apply Rdiv_lt_0_compat; [lra|]. apply IZR_le in Hs. lra. } lra.
Qed.

(** the view of a freshly loaded file *)
Lemma file_view h path w n k wl name : (2 <= List.length w)%nat ->
  exists o h', RI_init h (D_file path (w :: n :: match k with Some k => [k] | None => [] end)) wl name = (Ok o, h') /\
  ri_view h' o = Scatterer (K_RI (RI_table (map (fun x => x * 1000) w) n
    (match k with Some k => k | None => repeat 0 (List.length w) end))) wl name.
Proof.
  intros H. rewrite RI_file_table by exact H. do 2 eexists. split; [reflexivity|].
  unfold ri_view. cbn [ri_attr ri_wavelength ri_name].
  rewrite !app_nth2 by lia.
  replace (List.length h - List.length h)%nat with 0%nat by lia.
  replace (List.length h + 1 - List.length h)%nat with 1%nat by lia.
  replace (List.length h + 2 - List.length h)%nat with 2%nat by lia.
  cbn [nth cell_values]. destruct k; reflexivity.
Qed.

Lemma lookup_In {A} m (l : list (string * A)) a : lookup m l = Some a -> In (m, a) l.
Proof.
  induction l as [|[k x] l IH]; simpl; [discriminate|].
  destruct (String.eqb_spec m k); intros H; [left; congruence|auto].
Qed.
Lemma lookup_None {A} m (l : list (string * A)) : lookup m l = None <-> ~ In m (map fst l).
Proof.
  induction l as [|[k x] l IH]; simpl; [tauto|].
  destruct (String.eqb_spec m k); split; intros H; try discriminate.
  - subst. tauto.
  - rewrite IH in H. intros [?|?]; [congruence|tauto].
  - apply IH. tauto.
Qed.

Global Opaque material_files.

(** a curve with bounds on k *)
Lemma curve_bounds h m cols wl klo : lookup m material_files = Some cols -> good_cols cols = true ->
  (match cols with
   | [_; _; (sk, k)] => (0 <= klo)%Z /\ all_ge klo k = true
   | _ => klo = 0%Z end) ->
  exists o h' n k, load_material h m = (Ok o, h') /\
    sc_complex (ri_view h' o) wl = Ok (Some (n, k)) /\ 0 < n /\ 
    IZR klo / IZR (match cols with [_; _; (sk, _)] => sk | _ => 1 end) <= k.
Proof.
  intros Hl Hg Hk. unfold load_material. rewrite Hl.
  unfold good_cols in Hg. destruct cols as [|[sw w] [|[sn n] rest]]; try discriminate.
  repeat (apply andb_true_iff in Hg; destruct Hg as [Hg ?]).
  apply Z.leb_le in Hg.
  repeat match goal with
  | H : (_ <=? _)%Z = true |- _ => apply Z.leb_le in H
  | H : Nat.eqb _ _ = true |- _ => apply Nat.eqb_eq in H
  | H : Nat.leb _ _ = true |- _ => apply Nat.leb_le in H
  end.
  assert (Hw : w <> []) by (destruct w; [simpl in *; lia|discriminate]).
  set (W := column (sw, w)). set (N := column (sn, n)).
  assert (LW : List.length W = List.length w) by apply map_length.
  assert (LN : List.length N = List.length w) by (unfold N, column; rewrite map_length; auto).
  destruct (exists_upper N) as [nhi FN].
  assert (FN' : Forall (fun y => 1 / IZR sn <= y <= nhi) N).
  { pose proof (column_ge 1 sn n ltac:(lia) ltac:(assumption)) as F. fold N in F.
    rewrite Forall_forall in *. intros y Hy. split; auto. }
  assert (Hsn : 0 < 1 / IZR sn).
  { apply Rdiv_lt_0_compat; [lra|]. assert (1 <= sn)%Z as Q by lia. apply IZR_le in Q. lra. }
  assert (Hany : exists x, In x (map (fun x => x * 1000) W) /\ x <> 0) by (apply column_any; auto; lia).
  destruct rest as [|[sk k] [|? ?]]; try discriminate.
  - subst klo. cbn [map].
    destruct (file_view h (String.append m ".csv") W N None 658 EmptyString) as [o [h' [E V]]]; [lia|].
    destruct (RI_table_bounds (map (fun x => x * 1000) W) N (repeat 0 (List.length W)) 658 EmptyString wl (1 / IZR sn) nhi 0 0)
      as [re [im [E2 [B1 B2]]]]; auto.
    + rewrite map_length. lia.
    + rewrite map_length, repeat_length. auto.
    + rewrite Forall_forall. intros y Hy. apply repeat_spec in Hy. lra.
    + exists o, h', re, im. split; [exact E|]. rewrite V. split; auto. split; [lra|]. unfold Rdiv. lra.
  - destruct Hk as [Hk0 Hk]. cbn [map].
    repeat match goal with H : (_ && _)%bool = true |- _ => apply andb_true_iff in H; destruct H end.
    repeat match goal with
    | H : (_ <=? _)%Z = true |- _ => apply Z.leb_le in H
    | H : Nat.eqb _ _ = true |- _ => apply Nat.eqb_eq in H
    end.
    set (K := column (sk, k)).
    assert (LK : List.length K = List.length w) by (unfold K, column; rewrite map_length; auto).
    destruct (file_view h (String.append m ".csv") W N (Some K) 658 EmptyString) as [o [h' [E V]]]; [lia|].
    destruct (exists_upper K) as [khi FK].
    assert (FK' : Forall (fun y => IZR klo / IZR sk <= y <= khi) K).
    { pose proof (column_ge klo sk k ltac:(lia) Hk) as F. fold K in F.
      rewrite Forall_forall in *. intros y Hy. split; auto. }
    destruct (RI_table_bounds (map (fun x => x * 1000) W) N K 658 EmptyString wl (1 / IZR sn) nhi (IZR klo / IZR sk) khi)
      as [re [im [E2 [B1 B2]]]]; auto; try (rewrite map_length; lia).
    exists o, h', re, im. split; [exact E|]. rewrite V. split; auto. split; lra.
Qed.

Lemma material_good m cols : lookup m material_files = Some cols -> good_cols cols = true.
Proof.
  intros H. apply lookup_In in H. pose proof all_good as A. rewrite forallb_forall in A.
  exact (A _ H).
Qed.

Lemma material_passive m h wl : In m materials ->
  exists o h' n k, load_material h m = (Ok o, h') /\
    sc_complex (ri_view h' o) wl = Ok (Some (n, k)) /\ 0 < n /\ 0 <= k.
Proof.
  intros Hm. destruct (lookup m material_files) as [cols|] eqn:E.
  2:{ apply lookup_None in E. contradiction. }
  pose proof (material_good _ _ E) as G.
  destruct (curve_bounds h m cols wl 0 E G) as [o [h' [n [k [H1 [H2 [H3 H4]]]]]]].
  - unfold good_cols in G. destruct cols as [|[sw w] [|[sn n] [|[sk k] [|? ?]]]]; auto.
    repeat (apply andb_true_iff in G; destruct G as [G ?]).
    repeat match goal with H : (_ && _)%bool = true |- _ => apply andb_true_iff in H; destruct H end.
    split; [lia|assumption].
  - exists o, h', n, k. repeat split; auto. unfold Rdiv in H4. lra.
Qed.

Lemma material_unknown m h : ~ In m materials <-> load_material h m = (Raise ValueError, h).
Proof.
  unfold load_material. split; intros H.
  - apply lookup_None in H. rewrite H. reflexivity.
  - intros Hin. destruct (material_passive m h None Hin) as [o [h' [n [k [E _]]]]].
    unfold load_material in E. rewrite H in E. discriminate.
Qed.

Lemma aluminium_lookup : lookup "aluminium_oxide"%string material_files = Some mat_aluminium_oxide.
Proof. vm_compute. reflexivity. Qed.

Lemma aluminium_absorbs h wl :
  exists o h' n k, load_material h "aluminium_oxide"%string = (Ok o, h') /\
    sc_complex (ri_view h' o) wl = Ok (Some (n, k)) /\ 0 < n /\ 1976 / 1000 <= k.
Proof.
  destruct (curve_bounds h "aluminium_oxide" mat_aluminium_oxide wl 1976 aluminium_lookup)
    as [o [h' [n [k [H1 [H2 [H3 H4]]]]]]].
  - apply (material_good "aluminium_oxide"). apply aluminium_lookup.
  - vm_compute. split; [discriminate|reflexivity].
  - exists o, h', n, k. repeat split; auto.
Qed.

Lemma polymer_same h wl : exists o1 h1 o2 h2,
  load_material h "pnipam"%string = (Ok o1, h1) /\ load_material h "polymer_diffuse"%string = (Ok o2, h2) /\
  sc_complex (ri_view h1 o1) wl = sc_complex (ri_view h2 o2) wl.
Proof.
  assert (E1 : lookup "pnipam"%string material_files = Some mat_pnipam) by (vm_compute; reflexivity).
  assert (E2 : lookup "polymer_diffuse"%string material_files = Some mat_polymer_diffuse) by (vm_compute; reflexivity).
  assert (E : mat_pnipam = mat_polymer_diffuse) by (vm_compute; reflexivity).
  unfold load_material. rewrite E1, E2, <- E. do 4 eexists. split; [reflexivity|]. split; reflexivity.
Qed.

(** order of the wavelengths *)
Lemma sortedb_StronglySorted (f : Z -> Z -> bool) (P : R -> R -> Prop) s l :
  (forall a b, f a b = true -> P (IZR a / IZR s) (IZR b / IZR s)) ->
  (forall a b c, P a b -> P b c -> P a c) ->
  sortedb f l = true -> StronglySorted P (column (s, l)).
Proof.
  intros Hf Ht H. apply Sorted_StronglySorted; [exact Ht|].
  unfold column. cbn [fst snd]. induction l as [|a [|b l] IH]; simpl.
  - constructor.
  - repeat constructor.
  - cbn [sortedb] in H. apply andb_true_iff in H. destruct H as [H1 H2].
    constructor; [apply IH; exact H2|]. constructor. apply Hf; auto.
Qed.

Lemma material_order m cols : In (m, cols) material_files ->
  exists w rest, map column cols = w :: rest /\ StronglySorted Rle w /\
  (m <> "aluminium_oxide"%string -> increasing w).
Proof.
  intros H.
  assert (A : forallb (fun p => good_cols (snd p) &&
     (String.eqb (fst p) "aluminium_oxide" || sortedb Z.ltb (snd (hd (1, []) (snd p))%Z))) material_files = true)
    by (vm_compute; reflexivity).
  rewrite forallb_forall in A. specialize (A _ H). cbn [fst snd] in A.
  apply andb_true_iff in A. destruct A as [G A].
  unfold good_cols in G. destruct cols as [|[sw w] [|[sn n] rest]]; try discriminate.
  repeat (apply andb_true_iff in G; destruct G as [G ?]).
  apply Z.leb_le in G. apply IZR_le in G.
  exists (column (sw, w)), (map column ((sn, n) :: rest)). split; [reflexivity|]. split.
  - apply (sortedb_StronglySorted Z.leb); auto.
    + intros a b Hab. apply Z.leb_le in Hab. apply IZR_le in Hab. apply Rmult_le_compat_r; auto.
      left; apply Rinv_0_lt_compat; lra.
    + intros; lra.
  - intros Hm. cbn [hd snd] in A. apply orb_true_iff in A. destruct A as [A|A].
    + apply String.eqb_eq in A. contradiction.
    + apply (sortedb_StronglySorted Z.ltb); auto.
      * intros a b Hab. apply Z.ltb_lt in Hab. apply IZR_lt in Hab. apply Rmult_lt_compat_r; auto.
        apply Rinv_0_lt_compat; lra.
      * intros; lra.
Qed.
