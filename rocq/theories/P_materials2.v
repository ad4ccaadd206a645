(** * The ranges of the bundled materials *)

Require Import Reals List Bool ZArith String Lra Lia Sorting.Sorted.
From Coquelicot Require Import Complex.
From Verif Require Import Base Cplx M_ema M_disp Spec_disp P_disp M_materials P_materials Spec_materials.
Import ListNotations.
Open Scope R_scope.

(** [lo/u <= z/s <= hi/u] for all entries *)
Definition within (u lo hi s : Z) (l : list Z) : bool := forallb (fun z => (lo * s <=? z * u)%Z && (z * u <=? hi * s)%Z) l.

Lemma within_ok u lo hi s l : (1 <= u)%Z -> (1 <= s)%Z -> within u lo hi s l = true ->
  Forall (fun y => IZR lo / IZR u <= y <= IZR hi / IZR u) (column (s, l)).
Proof.
  intros U S H. unfold column, within in *. rewrite Forall_map. rewrite forallb_forall in H. apply Forall_forall. intros z Hz.
  specialize (H z Hz). apply andb_true_iff in H as [H1 H2]. apply Z.leb_le, IZR_le in H1, H2. rewrite !mult_IZR in H1, H2.
  cbn [fst]. apply IZR_le in U, S.
  split; apply (Rmult_le_reg_r (IZR u * IZR s)); try nra.
  - replace (IZR lo / IZR u * (IZR u * IZR s)) with (IZR lo * IZR s) by (field; lra).
    replace (IZR z / IZR s * (IZR u * IZR s)) with (IZR z * IZR u) by (field; lra). exact H1.
  - replace (IZR hi / IZR u * (IZR u * IZR s)) with (IZR hi * IZR s) by (field; lra).
    replace (IZR z / IZR s * (IZR u * IZR s)) with (IZR z * IZR u) by (field; lra). exact H2.
Qed.

Lemma curve_range h m cols wl u nlo nhi klo khi : lookup m material_files = Some cols -> good_cols cols = true -> (1 <= u)%Z ->
  (match cols with
   | [_; (sn, n); (sk, k)] => within u nlo nhi sn n = true /\ within u klo khi sk k = true
   | [_; (sn, n)] => within u nlo nhi sn n = true /\ klo = 0%Z /\ khi = 0%Z
   | _ => False end) ->
  exists o h' n k, load_material h m = (Ok o, h') /\ sc_complex (ri_view h' o) wl = Ok (Some (n, k)) /\
    IZR nlo / IZR u <= n <= IZR nhi / IZR u /\ IZR klo / IZR u <= k <= IZR khi / IZR u.
Proof.
  intros Hl Hg U Hk. unfold load_material. rewrite Hl.
  unfold good_cols in Hg. destruct cols as [|[sw w] [|[sn n] rest]]; try discriminate.
  repeat (apply andb_true_iff in Hg; destruct Hg as [Hg ?]).
  apply Z.leb_le in Hg.
  repeat match goal with
  | H : (_ <=? _)%Z = true |- _ => apply Z.leb_le in H
  | H : Nat.eqb _ _ = true |- _ => apply Nat.eqb_eq in H
  | H : Nat.leb _ _ = true |- _ => apply Nat.leb_le in H
  end.
  assert (Hw : w <> []) by (destruct w; [simpl in *; lia|discriminate]).
  set (W := column (sw, w)). set (N := column (sn, n)).
  assert (LW : List.length W = List.length w) by apply map_length.
  assert (LN : List.length N = List.length w) by (unfold N, column; rewrite map_length; auto).
  assert (Hany : exists x, In x (map (fun x => x * 1000) W) /\ x <> 0) by (apply column_any; auto; lia).
  destruct rest as [|[sk k] [|? ?]]; try discriminate.
  - destruct Hk as (Hn & -> & ->). cbn [map].
    destruct (file_view h (String.append m ".csv") W N None 658 EmptyString) as [o [h' [E V]]]; [lia|].
    destruct (RI_table_bounds (map (fun x => x * 1000) W) N (repeat 0 (List.length W)) 658 EmptyString wl (IZR nlo / IZR u) (IZR nhi / IZR u) 0 0)
      as [re [im [E2 [B1 B2]]]]; auto.
    + rewrite map_length. lia.
    + rewrite map_length, repeat_length. auto.
    + apply within_ok; auto; lia.
    + rewrite Forall_forall. intros y Hy. apply repeat_spec in Hy. lra.
    + exists o, h', re, im. split; [exact E|]. rewrite V. split; auto. split; [lra|]. unfold Rdiv. lra.
  - destruct Hk as [Hn Hk]. cbn [map].
    repeat match goal with H : (_ && _)%bool = true |- _ => apply andb_true_iff in H; destruct H end.
    repeat match goal with
    | H : (_ <=? _)%Z = true |- _ => apply Z.leb_le in H
    | H : Nat.eqb _ _ = true |- _ => apply Nat.eqb_eq in H
    end.
    set (K := column (sk, k)).
    assert (LK : List.length K = List.length w) by (unfold K, column; rewrite map_length; auto).
    destruct (file_view h (String.append m ".csv") W N (Some K) 658 EmptyString) as [o [h' [E V]]]; [lia|].
    destruct (RI_table_bounds (map (fun x => x * 1000) W) N K 658 EmptyString wl (IZR nlo / IZR u) (IZR nhi / IZR u) (IZR klo / IZR u) (IZR khi / IZR u))
      as [re [im [E2 [B1 B2]]]]; auto; try (rewrite map_length; lia); try (apply within_ok; auto; lia).
    exists o, h', re, im. split; [exact E|]. rewrite V. auto.
Qed.

Lemma range_of h m cols wl u nlo nhi klo khi a b c d : lookup m material_files = Some cols -> (1 <= u)%Z ->
  (match cols with
   | [_; (sn, n); (sk, k)] => within u nlo nhi sn n = true /\ within u klo khi sk k = true
   | [_; (sn, n)] => within u nlo nhi sn n = true /\ klo = 0%Z /\ khi = 0%Z
   | _ => False end) ->
  a = IZR nlo / IZR u -> b = IZR nhi / IZR u -> c = IZR klo / IZR u -> d = IZR khi / IZR u ->
  exists o h' n k, load_material h m = (Ok o, h') /\ sc_complex (ri_view h' o) wl = Ok (Some (n, k)) /\ a <= n <= b /\ c <= k <= d.
Proof. intros L U H -> -> -> ->. exact (curve_range h m cols wl u nlo nhi klo khi L (material_good _ _ L) U H). Qed.

Lemma material_range m nlo nhi klo khi h wl : In (m, ((nlo, nhi), (klo, khi))) material_ranges ->
  exists o h' n k, load_material h m = (Ok o, h') /\ sc_complex (ri_view h' o) wl = Ok (Some (n, k)) /\ nlo <= n <= nhi /\ klo <= k <= khi.
Proof.
  unfold material_ranges. cbn [In]. intros HH.
  repeat (destruct HH as [HH|HH]); try contradiction; injection HH as <- <- <- <- <-.
  - eapply (range_of h _ mat_air wl 1000000000 1000273158 1000308003 0 0); [vm_compute; reflexivity|lia|vm_compute; auto|lra|lra|lra|lra].
  - eapply (range_of h _ mat_aluminium_oxide wl 1000 215 51611 1976 70623); [vm_compute; reflexivity|lia|vm_compute; auto|lra|lra|lra|lra].
  - eapply (range_of h _ mat_dmso wl 10000000000000 14745480514496 16276996475098 0 0); [vm_compute; reflexivity|lia|vm_compute; auto|lra|lra|lra|lra].
  - eapply (range_of h _ mat_gold wl 1000000000 118674305 1737118900 1780138990 14104028000); [vm_compute; reflexivity|lia|vm_compute; auto|lra|lra|lra|lra].
  - eapply (range_of h _ mat_pnipam wl 1000000 1492159 1602264 1263 9484); [vm_compute; reflexivity|lia|vm_compute; auto|lra|lra|lra|lra].
  - eapply (range_of h _ mat_polymer_diffuse wl 1000000 1492159 1602264 1263 9484); [vm_compute; reflexivity|lia|vm_compute; auto|lra|lra|lra|lra].
  - eapply (range_of h _ mat_polystyrene wl 1000000000 1406020000 1759520000 204 322000000); [vm_compute; reflexivity|lia|vm_compute; auto|lra|lra|lra|lra].
  - eapply (range_of h _ mat_silica wl 1000000 1464881 1517462 0 260); [vm_compute; reflexivity|lia|vm_compute; auto|lra|lra|lra|lra].
  - eapply (range_of h _ mat_silicon wl 1000 1010 6709 5 5395); [vm_compute; reflexivity|lia|vm_compute; auto|lra|lra|lra|lra].
  - eapply (range_of h _ mat_void wl 1 1 1 0 0); [vm_compute; reflexivity|lia|vm_compute; auto|lra|lra|lra|lra].
  - eapply (range_of h _ mat_water wl 1000000000000 1111000000000 2130000000000 935 587000000000); [vm_compute; reflexivity|lia|vm_compute; auto|lra|lra|lra|lra].
Qed.

Lemma materials_listed : materials = map fst material_ranges.
Proof. vm_compute. reflexivity. Qed.
