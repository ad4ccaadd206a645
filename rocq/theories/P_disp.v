(** * Proofs about dispersion curves: interpolation, RI, Cauchy, Sellmeier *)

Require Import Reals List Bool ZArith String Lra Lia Psatz Sorting.Sorted Sorting.Permutation.
From Coquelicot Require Import Complex.
From Verif Require Import Base Cplx M_ema Spec_ema P_ema M_disp Spec_disp.
Import ListNotations.
Open Scope R_scope.

(** ** np.interp *)
Definition lin (p q : R * R) (x : R) : R :=
  snd p + (snd q - snd p) * ((x - fst p) / (fst q - fst p)).

Lemma interp_from_node x0 y0 rest : StronglySorted Rlt (map fst ((x0, y0) :: rest)) ->
  interp_from x0 y0 rest x0 = y0.
Proof.
  destruct rest as [|[x1 y1] r]; simpl; auto. intros H.
  apply StronglySorted_inv in H. destruct H as [_ H]. inversion H; subst.
  destruct (Rle_dec x1 x0); [lra|]. destruct (Req_EM_T x0 x0); [auto|lra].
Qed.

Lemma interp_from_cell rest : forall x0 y0 x,
  StronglySorted Rlt (map fst ((x0, y0) :: rest)) ->
  forall i, (S i < List.length ((x0, y0) :: rest))%nat ->
  fst (nth i ((x0, y0) :: rest) (0, 0)) <= x <= fst (nth (S i) ((x0, y0) :: rest) (0, 0)) ->
  interp_from x0 y0 rest x = lin (nth i ((x0, y0) :: rest) (0, 0)) (nth (S i) ((x0, y0) :: rest) (0, 0)) x.
Proof.
  induction rest as [|[x1 y1] r IH]; intros x0 y0 x Hs i Hi Hx.
  - simpl in Hi. lia.
  - assert (Hs' := Hs). simpl in Hs'. apply StronglySorted_inv in Hs'. destruct Hs' as [Hs1 Hf].
    inversion Hf; subst.
    destruct i as [|i].
    + cbn [nth fst snd] in *. cbn [interp_from]. destruct (Rle_dec x1 x).
      * assert (x = x1) by lra. subst x. rewrite interp_from_node; auto.
        unfold lin; simpl. field. lra.
      * unfold lin; simpl. destruct (Req_EM_T x0 x); [subst; field; lra|]. field. lra.
    + cbn [interp_from].
      change (nth (S i) ((x0, y0) :: (x1, y1) :: r) (0, 0)) with (nth i ((x1, y1) :: r) (0, 0)) in *.
      change (nth (S (S i)) ((x0, y0) :: (x1, y1) :: r) (0, 0)) with (nth (S i) ((x1, y1) :: r) (0, 0)) in *.
      assert (x1 <= x).
      { destruct i as [|i]; [simpl in Hx; lra|].
        assert (In (nth (S i) ((x1, y1) :: r) (0, 0)) r) as Hin.
        { simpl nth. apply nth_In. simpl in Hi. lia. }
        apply StronglySorted_inv in Hs1. destruct Hs1 as [_ Hf1].
        rewrite Forall_forall in Hf1.
        assert (x1 < fst (nth (S i) ((x1, y1) :: r) (0, 0))).
        { apply Hf1. apply in_map. auto. }
        lra. }
      destruct (Rle_dec x1 x); [|contradiction].
      apply IH; auto. simpl in *. lia.
Qed.

Lemma interp_from_last rest : forall x0 y0,
  StronglySorted Rlt (map fst ((x0, y0) :: rest)) ->
  forall x, last (map fst ((x0, y0) :: rest)) 0 <= x ->
  interp_from x0 y0 rest x = last (map snd ((x0, y0) :: rest)) 0.
Proof.
  induction rest as [|[x1 y1] r IH]; intros x0 y0 Hs x Hx.
  - reflexivity.
  - simpl in Hs. apply StronglySorted_inv in Hs. destruct Hs as [Hs1 Hf].
    cbn [interp_from].
    change (last (map fst ((x0, y0) :: (x1, y1) :: r)) 0) with (last (map fst ((x1, y1) :: r)) 0) in Hx.
    change (last (map snd ((x0, y0) :: (x1, y1) :: r)) 0) with (last (map snd ((x1, y1) :: r)) 0).
    assert (x1 <= x).
    { destruct r as [|p r]; [exact Hx|].
      apply StronglySorted_inv in Hs1. destruct Hs1 as [_ Hf1]. rewrite Forall_forall in Hf1.
      assert (In (last (map fst ((x1, y1) :: p :: r)) 0) (map fst (p :: r))).
      { change (last (map fst ((x1, y1) :: p :: r)) 0) with (last (map fst (p :: r)) 0).
        rewrite (app_removelast_last 0 (l := map fst (p :: r))) at 2 by discriminate.
        apply in_or_app. right; left; auto. }
      pose proof (Hf1 _ H). simpl fst in *. lra. }
    destruct (Rle_dec x1 x); [|contradiction]. apply IH; auto.
Qed.

Lemma combine_fst_eq {A B} (l : list A) (m : list B) : List.length l = List.length m -> map fst (combine l m) = l.
Proof. revert m; induction l; destruct m; simpl; intros H; try discriminate; auto. f_equal; auto. Qed.
Lemma combine_snd_eq {A B} (l : list A) (m : list B) : List.length l = List.length m -> map snd (combine l m) = m.
Proof. revert m; induction l; destruct m; simpl; intros H; try discriminate; auto. f_equal; auto. Qed.

Lemma np_interp_spec x xp fp : increasing xp -> xp <> [] -> List.length xp = List.length fp ->
  exists v, np_interp x xp fp = Ok v /\ interpolates xp fp x v.
Proof.
  intros Hs Hne Hl. unfold np_interp.
  pose proof (combine_fst_eq xp fp Hl) as F1. pose proof (combine_snd_eq xp fp Hl) as F2.
  destruct (combine xp fp) as [|[x0 y0] rest] eqn:Ec.
  { destruct xp; [congruence|]. destruct fp; discriminate. }
  rewrite Hl, Nat.eqb_refl.
  assert (N1 : forall i, nth i xp 0 = fst (nth i ((x0, y0) :: rest) (0, 0))).
  { intros i. rewrite <- F1. apply (map_nth fst _ (0, 0)). }
  assert (N2 : forall i, nth i fp 0 = snd (nth i ((x0, y0) :: rest) (0, 0))).
  { intros i. rewrite <- F2. apply (map_nth snd _ (0, 0)). }
  assert (Hs' : StronglySorted Rlt (map fst ((x0, y0) :: rest))) by (rewrite F1; auto).
  assert (Hlast : forall y, In y xp -> y <= last xp 0).
  { intros y Hy. clear - Hs Hy. revert y Hy. induction xp as [|a l IH]; intros y Hy; [easy|].
    apply StronglySorted_inv in Hs. destruct Hs as [Hs Hf].
    destruct l as [|b l]; [destruct Hy as [->|[]]; simpl; lra|].
    change (last (a :: b :: l) 0) with (last (b :: l) 0).
    destruct Hy as [->|Hy]; [|apply IH; auto].
    rewrite Forall_forall in Hf. pose proof (Hf b (or_introl eq_refl)).
    pose proof (IH Hs b (or_introl eq_refl)). lra. }
  assert (H0 : nth 0 xp 0 = x0) by (rewrite N1; reflexivity).
  assert (Hlen : List.length ((x0, y0) :: rest) = List.length xp) by (rewrite <- F1; symmetry; apply map_length).
  assert (Hmono : forall i, (i < List.length xp)%nat -> x0 <= nth i xp 0).
  { intros i Hi. rewrite N1. destruct i; [simpl; lra|]. simpl nth.
    simpl in Hs'. apply StronglySorted_inv in Hs'. destruct Hs' as [_ Hf]. rewrite Forall_forall in Hf.
    left. apply Hf. apply in_map. apply nth_In. simpl in Hlen. lia. }
  assert (HlastF : last fp 0 = last (map snd ((x0, y0) :: rest)) 0) by (rewrite F2; auto).
  assert (HlastX : last xp 0 = last (map fst ((x0, y0) :: rest)) 0) by (rewrite F1; auto).
  assert (Cell : forall i, (S i < List.length xp)%nat -> nth i xp 0 <= x <= nth (S i) xp 0 ->
     interp_from x0 y0 rest x = nth i fp 0 + (nth (S i) fp 0 - nth i fp 0) *
         ((x - nth i xp 0) / (nth (S i) xp 0 - nth i xp 0))).
  { intros i Hi Hx. rewrite !N2. rewrite !N1 in *. apply interp_from_cell; auto. lia. }
  destruct (Rlt_dec x x0) as [L|L]; [|destruct (Rlt_dec (last xp 0) x) as [G|G]].
  - eexists; split; [reflexivity|]. repeat split.
    + intros _. rewrite N2. reflexivity.
    + intros H. exfalso. assert (In x0 xp) by (rewrite <- F1; left; auto).
      pose proof (Hlast _ H1). lra.
    + intros i Hi Hx. exfalso. pose proof (Hmono i). assert (i < List.length xp)%nat by lia.
      specialize (H H1). lra.
  - eexists; split; [reflexivity|]. repeat split; auto.
    + intros H. exfalso. assert (In x0 xp) by (rewrite <- F1; left; auto).
      pose proof (Hlast _ H1). lra.
    + intros i Hi Hx. exfalso. assert (In (nth (S i) xp 0) xp) by (apply nth_In; auto).
      pose proof (Hlast _ H). lra.
  - eexists; split; [reflexivity|]. split; [|split].
    + intros H. assert (x = x0) by lra. subst x. rewrite interp_from_node; auto. rewrite N2. reflexivity.
    + intros H. rewrite HlastF. apply interp_from_last; auto. rewrite <- HlastX. auto.
    + exact Cell.
Qed.

(** the specification determines the value *)
Lemma interpolates_unique xs ys x v v' : increasing xs -> xs <> [] ->
  interpolates xs ys x v -> interpolates xs ys x v' -> v = v'.
Proof.
  intros Hs Hne [A1 [A2 A3]] [B1 [B2 B3]].
  destruct (Rle_dec x (nth 0 xs 0)) as [L|L]; [rewrite A1, B1; auto|].
  destruct (Rle_dec (last xs 0) x) as [G|G]; [rewrite A2, B2; auto|].
  assert (exists i, (S i < List.length xs)%nat /\ nth i xs 0 <= x <= nth (S i) xs 0) as [i [Hi Hx]].
  { apply Rnot_le_lt in L, G. clear - L G Hne.
    induction xs as [|a l IH]; [congruence|]. destruct l as [|b l].
    - simpl in *. lra.
    - destruct (Rle_dec x b) as [H|H].
      + exists 0%nat. simpl in *. split; [lia|lra].
      + destruct IH as [i [Hi Hx]]; [discriminate|simpl; lra|exact G|].
        exists (S i). split; [simpl in *; lia|exact Hx]. }
  rewrite (A3 i), (B3 i); auto.
Qed.

(** between nodes the interpolant lies between the nodes' values *)
Lemma lin_between p q x : fst p <= x <= fst q -> fst p < fst q ->
  Rmin (snd p) (snd q) <= lin p q x <= Rmax (snd p) (snd q).
Proof.
  intros Hx Hpq. unfold lin. set (t := (x - fst p) / (fst q - fst p)).
  assert (Ht : 0 <= t <= 1).
  { unfold t. split.
    - apply Rmult_le_pos; [lra|]. left; apply Rinv_0_lt_compat; lra.
    - apply (Rmult_le_reg_r (fst q - fst p)); [lra|]. unfold Rdiv. rewrite Rmult_assoc, Rinv_l by lra. lra. }
  pose proof (Rmin_l (snd p) (snd q)). pose proof (Rmin_r (snd p) (snd q)).
  pose proof (Rmax_l (snd p) (snd q)). pose proof (Rmax_r (snd p) (snd q)). nra.
Qed.

Lemma interp_from_bounds lo hi rest : forall x0 y0 x, x0 <= x -> lo <= y0 <= hi ->
  Forall (fun p => lo <= snd p <= hi) rest -> lo <= interp_from x0 y0 rest x <= hi.
Proof.
  induction rest as [|[x1 y1] r IH]; intros x0 y0 x Hx Hy Hf; [simpl; auto|].
  inversion Hf; subst. cbn [interp_from]. simpl in H1.
  destruct (Rle_dec x1 x); [apply IH; auto|]. destruct (Req_EM_T x0 x); auto.
  set (t := (x - x0) / (x1 - x0)).
  assert (Ht : 0 <= t <= 1).
  { unfold t. split.
    - apply Rmult_le_pos; [lra|]. left; apply Rinv_0_lt_compat; lra.
    - apply (Rmult_le_reg_r (x1 - x0)); [lra|]. unfold Rdiv. rewrite Rmult_assoc, Rinv_l by lra. lra. }
  replace ((y1 - y0) / (x1 - x0) * (x - x0) + y0) with (y0 + (y1 - y0) * t) by (unfold t; field; lra).
  nra.
Qed.

Lemma Forall_combine_snd {A B} (P : B -> Prop) (l : list A) (m : list B) :
  Forall P m -> Forall (fun p => P (snd p)) (combine l m).
Proof. intros H; revert l; induction H; intros [|? l']; simpl; try constructor; auto. Qed.

Lemma last_Forall {A} (P : A -> Prop) (l : list A) d : l <> [] -> Forall P l -> P (last l d).
Proof.
  intros Hne H. rewrite Forall_forall in H. apply H.
  rewrite (app_removelast_last d Hne) at 2. apply in_or_app. right; left; auto.
Qed.

(** any table, sorted or not: the result exists and lies between bounds of the table *)
Lemma np_interp_bounds x xp fp lo hi : xp <> [] -> List.length xp = List.length fp ->
  Forall (fun y => lo <= y <= hi) fp ->
  exists v, np_interp x xp fp = Ok v /\ lo <= v <= hi.
Proof.
  intros Hne Hl Hf. unfold np_interp.
  destruct (combine xp fp) as [|[x0 y0] rest] eqn:Ec.
  { destruct xp; [congruence|]. destruct fp; discriminate. }
  rewrite Hl, Nat.eqb_refl.
  pose proof (Forall_combine_snd _ xp fp Hf) as Hc. rewrite Ec in Hc. inversion Hc; subst. simpl in *.
  destruct Rlt_dec; [eauto|]. destruct Rlt_dec.
  - eexists; split; [reflexivity|]. apply (last_Forall (fun y => lo <= y <= hi)); auto.
    destruct fp; [destruct xp; [congruence|discriminate]|discriminate].
  - eexists; split; [reflexivity|]. apply interp_from_bounds; auto. lra.
Qed.

(** ** RI *)
Lemma np_any_spec l : np_any l = true <-> exists x, In x l /\ x <> 0.
Proof.
  unfold np_any. rewrite existsb_exists. split; intros [x [H1 H2]]; exists x; split; auto;
    destruct (Req_EM_T x 0); congruence.
Qed.

Lemma increasing_any l : increasing l -> (2 <= List.length l)%nat -> np_any l = true.
Proof.
  intros Hs Hl. apply np_any_spec. destruct l as [|a [|b l]]; simpl in Hl; try lia.
  apply StronglySorted_inv in Hs. destruct Hs as [_ Hf]. inversion Hf; subst.
  destruct (Req_dec a 0); [exists b|exists a]; simpl; split; auto; lra.
Qed.

Lemma choose_wav_some d w : w <> 0 -> choose_wav d (Some w) = w.
Proof. intros H. simpl. destruct (Req_EM_T w 0); congruence. Qed.

Lemma RI_table_interp wav n k wl name w : increasing wav -> (exists x, In x wav /\ x <> 0) ->
  List.length n = List.length wav -> List.length k = List.length wav -> w <> 0 ->
  exists re im, sc_complex (Scatterer (K_RI (RI_table wav n k)) wl name) (Some w) = Ok (Some (re, im)) /\
    interpolates wav n w re /\ interpolates wav k w im.
Proof.
  intros Hs Hany Hn Hk Hw.
  assert (Hne : wav <> []) by (destruct Hany as [x [Hx _]]; destruct wav; [easy|discriminate]).
  destruct (np_interp_spec w wav n) as [re [E1 I1]]; auto.
  destruct (np_interp_spec w wav k) as [im [E2 I2]]; auto.
  exists re, im. split; auto. unfold sc_complex; cbn [sc_kind sc_wavelength]. rewrite choose_wav_some by auto.
  unfold ri_complex. apply np_any_spec in Hany. rewrite Hany, E1. cbn [rbind]. rewrite E2. reflexivity.
Qed.

Lemma RI_table_bounds wav n k wl name w nlo nhi klo khi : (exists x, In x wav /\ x <> 0) ->
  List.length n = List.length wav -> List.length k = List.length wav ->
  Forall (fun y => nlo <= y <= nhi) n -> Forall (fun y => klo <= y <= khi) k ->
  exists re im, sc_complex (Scatterer (K_RI (RI_table wav n k)) wl name) w = Ok (Some (re, im)) /\
    nlo <= re <= nhi /\ klo <= im <= khi.
Proof.
  intros Hany Hn Hk F1 F2.
  assert (Hne : wav <> []) by (destruct Hany as [x [Hx _]]; destruct wav; [easy|discriminate]).
  destruct (np_interp_bounds (choose_wav wl w) wav n nlo nhi) as [re [E1 I1]]; auto.
  destruct (np_interp_bounds (choose_wav wl w) wav k klo khi) as [im [E2 I2]]; auto.
  exists re, im. split; auto. unfold sc_complex; cbn [sc_kind sc_wavelength].
  unfold ri_complex. apply np_any_spec in Hany. rewrite Hany, E1. cbn [rbind]. rewrite E2. reflexivity.
Qed.

Lemma interpolates_node xs ys i v : increasing xs -> (i < List.length xs)%nat -> List.length ys = List.length xs ->
  interpolates xs ys (nth i xs 0) v -> v = nth i ys 0.
Proof.
  intros Hs Hi Hl [A1 [A2 A3]].
  destruct (Nat.eq_dec (S i) (List.length xs)) as [E|E].
  - assert (Hi' : i = (List.length xs - 1)%nat) by lia.
    assert (L : forall (l : list R), l <> [] -> last l 0 = nth (List.length l - 1) l 0).
    { induction l as [|a [|b l] IH]; intros H; [congruence|reflexivity|].
      change (last (a :: b :: l) 0) with (last (b :: l) 0). rewrite IH by discriminate.
      simpl. rewrite Nat.sub_0_r. reflexivity. }
    rewrite A2.
    + rewrite L; [rewrite Hl, Hi'; auto|]. destruct ys; [simpl in *; lia|discriminate].
    + rewrite L, <- Hi'; [lra|]. destruct xs; [simpl in *; lia|discriminate].
  - assert (Hlt : nth i xs 0 < nth (S i) xs 0).
    { clear - Hs Hi E. revert i Hi E. induction Hs as [|a l Hs IH Hf]; intros i Hi E; [simpl in Hi; lia|].
      destruct i; simpl.
      - rewrite Forall_forall in Hf. apply Hf. apply nth_In. simpl in *. lia.
      - apply IH; simpl in *; lia. }
    rewrite (A3 i); [|lia|lra]. unfold Rdiv at 1.
    replace (nth i xs 0 - nth i xs 0) with 0 by ring. unfold Rdiv; ring.
Qed.

Lemma increasing_scale l c : 0 < c -> increasing l -> increasing (map (fun x => x * c) l).
Proof.
  intros Hc H. induction H; simpl; constructor; auto.
  rewrite Forall_forall in *. intros y Hy. apply in_map_iff in Hy. destruct Hy as [z [<- Hz]].
  apply Rmult_lt_compat_r; auto.
Qed.

Lemma table_lookup wu n k wl name i : increasing wu -> List.length n = List.length wu -> List.length k = List.length wu ->
  (i < List.length wu)%nat -> nth i wu 0 <> 0 ->
  sc_complex (Scatterer (K_RI (RI_table (map (fun x => x * 1000) wu) n k)) wl name)
     (Some (1000 * nth i wu 0)) = Ok (Some (nth i n 0, nth i k 0)).
Proof.
  intros Hs Hn Hk Hi Hw.
  set (ws := map (fun x => x * 1000) wu).
  assert (E : 1000 * nth i wu 0 = nth i ws 0).
  { unfold ws. transitivity (nth i (map (fun x => x * 1000) wu) (0 * 1000)).
    - rewrite (map_nth (fun x => x * 1000)). ring.
    - f_equal. ring. }
  assert (Hl : List.length ws = List.length wu) by apply map_length.
  destruct (RI_table_interp ws n k wl name (1000 * nth i wu 0)) as [re [im [H [I1 I2]]]];
    try (rewrite Hl; assumption).
  - apply increasing_scale; auto; lra.
  - exists (nth i ws 0). split; [apply nth_In; rewrite Hl; auto|]. rewrite <- E. lra.
  - lra.
  - rewrite H. rewrite E in I1, I2.
    assert (Hs' : increasing ws) by (apply increasing_scale; auto; lra).
    apply interpolates_node in I1, I2; auto; try lia. rewrite I1, I2. reflexivity.
Qed.

Lemma nth_update {A} (l : list A) i j f d : (i < List.length l)%nat ->
  nth j (update l i f) d = if Nat.eqb i j then f (nth j l d) else nth j l d.
Proof.
  revert i j; induction l as [|a l IH]; intros i j H; simpl in H; [lia|].
  destruct i, j; simpl; auto. apply IH; lia.
Qed.
Lemma update_length {A} (l : list A) i f : List.length (update l i f) = List.length l.
Proof. revert i; induction l; destruct i; simpl; auto. Qed.

(** construction from a file *)
Lemma squeeze_table w n rest : (2 <= List.length w)%nat -> squeeze (w :: n :: rest) = None.
Proof.
  intros H. unfold squeeze. cbn [forallb].
  destruct (Nat.leb (List.length w) 1) eqn:E; [apply Nat.leb_le in E; lia|]. reflexivity.
Qed.
Lemma RI_file_table h path w n rest wl name : (2 <= List.length w)%nat ->
  RI_init h (D_file path (w :: n :: rest)) wl name =
  (Ok (RIObj (A_table (List.length h) (List.length h + 1) (List.length h + 2)) wl name),
   app h [Arr (map (fun x => x * 1000) w); Arr n; Arr (match rest with [k] => k | _ => repeat 0 (List.length w) end)]).
Proof. intros H. unfold RI_init. rewrite squeeze_table by exact H. reflexivity. Qed.

(** a file of one row *)
Lemma RI_file_row h path w n rest wl name : Forall (fun c => List.length c = 1%nat) rest ->
  RI_init h (D_file path ([w] :: [n] :: rest)) wl name =
  (Ok (RIObj (A_row (w * 1000) n (match List.concat rest with [k] => k | _ => 0 end)) wl name), h).
Proof.
  intros H. unfold RI_init, squeeze. cbn [forallb List.length Nat.leb andb].
  assert (forallb (fun c => Nat.leb (List.length c) 1) rest = true) as ->.
  { apply forallb_forall. intros c I. rewrite Forall_forall in H. rewrite (H c I). reflexivity. }
  reflexivity.
Qed.
Lemma RI_file_row_unusable h path w n rest wl name v : Forall (fun c => List.length c = 1%nat) rest -> w <> 0 ->
  exists o h', RI_init h (D_file path ([w] :: [n] :: rest)) wl name = (Ok o, h') /\
  sc_complex (ri_view h' o) v = Raise ValueError.
Proof.
  intros H W. rewrite RI_file_row by exact H. do 2 eexists. split; [reflexivity|].
  unfold ri_view, sc_complex. cbn [ri_attr ri_wavelength ri_name sc_kind sc_wavelength].
  unfold ri_complex. destruct (Req_EM_T (w * 1000) 0) as [E|E]; [exfalso; apply W; lra|reflexivity].
Qed.

Lemma RI_file_lookup h path wu n k wl name i : increasing wu -> (2 <= List.length wu)%nat ->
  List.length n = List.length wu -> List.length k = List.length wu -> (i < List.length wu)%nat -> nth i wu 0 <> 0 ->
  exists o h', RI_init h (D_file path [wu; n; k]) wl name = (Ok o, h') /\
  sc_complex (ri_view h' o) (Some (1000 * nth i wu 0)) = Ok (Some (nth i n 0, nth i k 0)) /\
  (forall a, (a < List.length h)%nat -> nth a h' (Arr []) = nth a h (Arr [])).
Proof.
  intros. rewrite RI_file_table by assumption. do 2 eexists. split; [reflexivity|]. split.
  - unfold ri_view. cbn [ri_attr ri_wavelength ri_name].
    rewrite !app_nth2 by lia.
    replace (List.length h - List.length h)%nat with 0%nat by lia.
    replace (List.length h + 1 - List.length h)%nat with 1%nat by lia.
    replace (List.length h + 2 - List.length h)%nat with 2%nat by lia.
    cbn [nth cell_values]. apply table_lookup; auto.
  - intros a Ha. rewrite app_nth1; auto.
Qed.

Lemma RI_file_lookup2 h path wu n wl name i : increasing wu -> (2 <= List.length wu)%nat ->
  List.length n = List.length wu -> (i < List.length wu)%nat -> nth i wu 0 <> 0 ->
  exists o h', RI_init h (D_file path [wu; n]) wl name = (Ok o, h') /\
  sc_complex (ri_view h' o) (Some (1000 * nth i wu 0)) = Ok (Some (nth i n 0, 0)).
Proof.
  intros. rewrite RI_file_table by assumption. do 2 eexists. split; [reflexivity|].
  unfold ri_view. cbn [ri_attr ri_wavelength ri_name].
  rewrite !app_nth2 by lia.
  replace (List.length h - List.length h)%nat with 0%nat by lia.
  replace (List.length h + 1 - List.length h)%nat with 1%nat by lia.
  replace (List.length h + 2 - List.length h)%nat with 2%nat by lia.
  cbn [nth cell_values]. rewrite table_lookup; auto.
  - rewrite nth_repeat. reflexivity.
  - apply repeat_length.
Qed.

Lemma RI_triple_lookup h aw an ak wu n k wl name i : increasing wu ->
  List.length n = List.length wu -> List.length k = List.length wu -> (i < List.length wu)%nat -> nth i wu 0 <> 0 ->
  nth_error h aw = Some (Arr wu) -> nth_error h an = Some (Arr n) -> nth_error h ak = Some (Arr k) ->
  aw <> an -> aw <> ak ->
  exists o h', RI_init h (D_triple aw an ak) wl name = (Ok o, h') /\
  sc_complex (ri_view h' o) (Some (1000 * nth i wu 0)) = Ok (Some (nth i n 0, nth i k 0)).
Proof.
  intros Hs Hn Hk Hi Hw E1 E2 E3 N1 N2. do 2 eexists. split; [reflexivity|].
  assert (Hlen : (aw < List.length h)%nat) by (apply nth_error_Some; congruence).
  unfold ri_view. cbn [ri_attr ri_wavelength ri_name].
  rewrite !nth_update by auto. rewrite Nat.eqb_refl.
  destruct (Nat.eqb_spec aw an); [contradiction|]. destruct (Nat.eqb_spec aw ak); [contradiction|].
  rewrite (nth_error_nth _ _ (Arr []) E1), (nth_error_nth _ _ (Arr []) E2), (nth_error_nth _ _ (Arr []) E3).
  cbn [times1000 cell_values]. apply table_lookup; auto.
Qed.

(** what construction does to the caller's array *)
Lemma RI_triple_effect h aw an ak wl name : (aw < List.length h)%nat ->
  exists o, RI_init h (D_triple aw an ak) wl name = (Ok o, update h aw times1000) /\
  nth aw (update h aw times1000) (Arr []) = times1000 (nth aw h (Arr [])) /\
  (forall a, a <> aw -> nth a (update h aw times1000) (Arr []) = nth a h (Arr [])).
Proof.
  intros H. eexists. split; [reflexivity|]. split.
  - rewrite nth_update, Nat.eqb_refl; auto.
  - intros a Ha. rewrite nth_update by auto. destruct (Nat.eqb_spec aw a); congruence.
Qed.


Lemma length_concat_repeat {A} (l : list A) m : List.length (List.concat (repeat l m)) = (m * List.length l)%nat.
Proof. induction m; simpl; auto. rewrite app_length. lia. Qed.

(** a Python list as wavelengths makes the object unusable *)
Lemma RI_triple_list h aw an ak wu cn ck wl name w : (exists x, In x wu /\ x <> 0) ->
  nth_error h aw = Some (PyList wu) -> nth_error h an = Some cn -> nth_error h ak = Some ck ->
  List.length (cell_values cn) = List.length wu -> aw <> an ->
  exists o h', RI_init h (D_triple aw an ak) wl name = (Ok o, h') /\
  sc_complex (ri_view h' o) w = Raise ValueError.
Proof.
  intros [x [Hx Hx0]] E1 E2 E3 Hn N1. do 2 eexists. split; [reflexivity|].
  assert (Hlen : (aw < List.length h)%nat) by (apply nth_error_Some; congruence).
  unfold ri_view. cbn [ri_attr ri_wavelength ri_name].
  rewrite !nth_update by auto. rewrite Nat.eqb_refl.
  destruct (Nat.eqb_spec aw an); [contradiction|].
  rewrite (nth_error_nth _ _ (Arr []) E1), (nth_error_nth _ _ (Arr []) E2).
  unfold times1000. cbn [cell_values]. unfold sc_complex. cbn [sc_kind sc_wavelength].
  set (ll := List.concat (repeat wu 1000)).
  assert (Hin : In x ll).
  { unfold ll. apply in_concat. exists wu. split; auto. change 1000%nat with (S 999). left; auto. }
  assert (Hl : List.length ll = (1000 * List.length wu)%nat) by apply length_concat_repeat.
  assert (Hwu : (0 < List.length wu)%nat) by (destruct wu; [easy|simpl; lia]).
  unfold ri_complex. assert (np_any ll = true) as -> by (apply np_any_spec; eauto).
  match goal with |- rbind ?t _ = _ => assert (t = Raise ValueError) as -> end; [|reflexivity].
  unfold np_interp. destruct (combine ll (cell_values cn)) as [|[? ?] ?]; auto.
  rewrite Hl, Hn. destruct (Nat.eqb_spec (1000 * List.length wu) (List.length wu)); [lia|auto].
Qed.

(** ** default wavelength *)
Lemma default_unused kd wl1 wl2 nm1 nm2 w : w <> 0 ->
  sc_complex (Scatterer kd wl1 nm1) (Some w) = sc_complex (Scatterer kd wl2 nm2) (Some w).
Proof. intros H. unfold sc_complex. cbn [sc_kind sc_wavelength]. rewrite !choose_wav_some; auto. Qed.

Lemma default_used s : sc_wavelength s <> 0 ->
  sc_complex s None = sc_complex s (Some (sc_wavelength s)) /\
  sc_complex s (Some 0) = sc_complex s (Some (sc_wavelength s)).
Proof.
  intros H. unfold sc_complex. rewrite choose_wav_some by auto. unfold choose_wav.
  destruct (Req_EM_T 0 0); [|congruence]. auto.
Qed.

(** ** Cauchy *)
Lemma cauchy_formula A B Cc wl name w : w <> 0 ->
  sc_complex (Scatterer (K_Cauchy A B Cc) wl name) (Some w) =
  Ok (Some (A + B / (w / 1000) ^ 2 + Cc / (w / 1000) ^ 4, 0)).
Proof.
  intros H. unfold sc_complex. cbn [sc_kind sc_wavelength]. rewrite choose_wav_some by auto.
  unfold cauchy_complex, odiv.
  assert (w ^ 2 <> 0) by (apply pow_nonzero; auto). assert (w ^ 4 <> 0) by (apply pow_nonzero; auto).
  destruct (Req_EM_T (w ^ 2) 0); [contradiction|]. destruct (Req_EM_T (w ^ 4) 0); [contradiction|].
  cbn [obind]. do 2 f_equal. apply C_eq; simpl; [field; auto|auto].
Qed.

Lemma cauchy_decreasing A B Cc wl name w1 w2 : 0 < w1 < w2 -> 0 <= B -> 0 <= Cc -> 0 < B + Cc ->
  exists n1 n2, sc_complex (Scatterer (K_Cauchy A B Cc) wl name) (Some w1) = Ok (Some (n1, 0)) /\
    sc_complex (Scatterer (K_Cauchy A B Cc) wl name) (Some w2) = Ok (Some (n2, 0)) /\ n2 < n1.
Proof.
  intros Hw HB HC HBC. do 2 eexists. split; [apply cauchy_formula; lra|]. split; [apply cauchy_formula; lra|].
  set (a := w1 / 1000). set (b := w2 / 1000).
  assert (Hab : 0 < a < b) by (unfold a, b; lra). clearbody a b.
  assert (H2 : a ^ 2 < b ^ 2) by nra. assert (P2 : 0 < a ^ 2) by nra.
  assert (H4 : a ^ 4 < b ^ 4).
  { replace (a ^ 4) with (a ^ 2 * a ^ 2) by ring. replace (b ^ 4) with (b ^ 2 * b ^ 2) by ring. nra. }
  assert (P4 : 0 < a ^ 4) by (apply pow_lt; lra).
  assert (I2 : / b ^ 2 < / a ^ 2) by (apply Rinv_lt_contravar; nra).
  assert (I4 : / b ^ 4 < / a ^ 4) by (apply Rinv_lt_contravar; nra).
  unfold Rdiv. destruct (Rle_lt_or_eq_dec _ _ HB) as [HB'|HB'].
  - assert (B * / b ^ 2 < B * / a ^ 2) by (apply Rmult_lt_compat_l; auto).
    assert (Cc * / b ^ 4 <= Cc * / a ^ 4) by (apply Rmult_le_compat_l; lra). lra.
  - assert (Cc * / b ^ 4 < Cc * / a ^ 4) by (apply Rmult_lt_compat_l; lra). subst B. lra.
Qed.

Lemma cauchy_increasing A B wl name w1 w2 : 0 < w1 < w2 -> B < 0 ->
  exists n1 n2, sc_complex (Scatterer (K_Cauchy A B 0) wl name) (Some w1) = Ok (Some (n1, 0)) /\
    sc_complex (Scatterer (K_Cauchy A B 0) wl name) (Some w2) = Ok (Some (n2, 0)) /\ n1 < n2.
Proof.
  intros Hw HB. do 2 eexists. split; [apply cauchy_formula; lra|]. split; [apply cauchy_formula; lra|].
  set (a := w1 / 1000). set (b := w2 / 1000).
  assert (Hab : 0 < a < b) by (unfold a, b; lra). clearbody a b.
  assert (H2 : a ^ 2 < b ^ 2) by nra. assert (P2 : 0 < a ^ 2) by nra.
  assert (I2 : / b ^ 2 < / a ^ 2) by (apply Rinv_lt_contravar; nra).
  unfold Rdiv. nra.
Qed.

(** ** Sellmeier *)
Lemma sellmeier_eps Am En P Einf wl name w e : w <> 0 ->
  sellmeier_epsilon Am En P Einf w = Some (RtoC e) ->
  sc_complex (Scatterer (K_Sellmeier Am En P Einf) wl name) (Some w) =
  Ok (if Rle_dec 0 e then Some (RtoC (sqrt e)) else None).
Proof.
  intros H E. unfold sc_complex. cbn [sc_kind sc_wavelength]. rewrite choose_wav_some by auto.
  unfold sellmeier_epsilon, sellmeier_complex in *.
  destruct (sellmeier_real Am En P Einf w) as [r|]; [|discriminate]. cbn [omap obind] in *.
  assert (r = e) as -> by (injection E; auto).
  unfold osqrt. destruct (Rle_dec 0 e); reflexivity.
Qed.

Lemma sellmeier_formula Am En P Einf w : (w / 1000) ^ 2 <> En ^ 2 ->
  sellmeier_epsilon Am En P Einf w =
  Some (RtoC (Einf + Am * (w / 1000) ^ 2 / ((w / 1000) ^ 2 - En ^ 2) - P * (w / 1000) ^ 2)).
Proof.
  intros H. unfold sellmeier_epsilon, sellmeier_real, odiv.
  destruct (Req_EM_T ((w / 1000) ^ 2 - En ^ 2) 0); [lra|]. reflexivity.
Qed.

Lemma sellmeier_resonance Am En P Einf wl name w : w <> 0 -> (w / 1000) ^ 2 = En ^ 2 ->
  sc_complex (Scatterer (K_Sellmeier Am En P Einf) wl name) (Some w) = Ok None.
Proof.
  intros H E. unfold sc_complex. cbn [sc_kind sc_wavelength]. rewrite choose_wav_some by auto.
  unfold sellmeier_complex, sellmeier_real, odiv.
  destruct (Req_EM_T ((w / 1000) ^ 2 - En ^ 2) 0); [reflexivity|lra].
Qed.

Lemma sellmeier_decreasing Am En P Einf wl name w1 w2 n1 n2 : 0 < w1 < w2 -> 0 <= Am -> 0 <= P ->
  0 < P \/ (0 < Am /\ 0 < En) -> 0 <= En ->
  w2 / 1000 < En \/ En < w1 / 1000 ->
  sc_complex (Scatterer (K_Sellmeier Am En P Einf) wl name) (Some w1) = Ok (Some n1) ->
  sc_complex (Scatterer (K_Sellmeier Am En P Einf) wl name) (Some w2) = Ok (Some n2) ->
  Im n1 = 0 /\ Im n2 = 0 /\ Re n2 < Re n1.
Proof.
  intros Hw HA HP Hst HEn Hside E1 E2.
  set (a := w1 / 1000) in *. set (b := w2 / 1000) in *.
  assert (Hab : 0 < a < b) by (unfold a, b; lra).
  assert (Na : a ^ 2 <> En ^ 2) by (destruct Hside; nra).
  assert (Nb : b ^ 2 <> En ^ 2) by (destruct Hside; nra).
  pose proof (sellmeier_formula Am En P Einf w1 Na) as F1.
  pose proof (sellmeier_formula Am En P Einf w2 Nb) as F2.
  rewrite (sellmeier_eps _ _ _ _ _ _ _ _ (Rgt_not_eq _ _ (proj1 Hw)) F1) in E1.
  assert (w2 <> 0) as Hw2 by lra.
  rewrite (sellmeier_eps _ _ _ _ _ _ _ _ Hw2 F2) in E2. fold a b in E1, E2. clear F1 F2.
  set (e1 := Einf + Am * a ^ 2 / (a ^ 2 - En ^ 2) - P * a ^ 2) in *.
  set (e2 := Einf + Am * b ^ 2 / (b ^ 2 - En ^ 2) - P * b ^ 2) in *.
  destruct (Rle_dec 0 e1) as [P1|]; [|discriminate]. destruct (Rle_dec 0 e2) as [P2|]; [|discriminate].
  assert (n1 = RtoC (sqrt e1)) as -> by congruence. assert (n2 = RtoC (sqrt e2)) as -> by congruence.
  simpl. split; auto. split; auto. apply sqrt_lt_1; auto.
  unfold e1, e2. clearbody a b. clear - HA HP Hst HEn Hside Hab Na Nb.
  assert (Hsq : 0 < a ^ 2 < b ^ 2) by nra.
  assert (Hd : 0 < (a ^ 2 - En ^ 2) * (b ^ 2 - En ^ 2)).
  { destruct Hside; [|apply Rmult_lt_0_compat; nra].
    replace ((a ^ 2 - En ^ 2) * (b ^ 2 - En ^ 2)) with ((En ^ 2 - a ^ 2) * (En ^ 2 - b ^ 2)) by ring.
    apply Rmult_lt_0_compat; nra. }
  assert (Hq : Am * a ^ 2 / (a ^ 2 - En ^ 2) - Am * b ^ 2 / (b ^ 2 - En ^ 2) =
     Am * En ^ 2 * (b ^ 2 - a ^ 2) / ((a ^ 2 - En ^ 2) * (b ^ 2 - En ^ 2))) by (field; lra).
  assert (Hi : 0 < / ((a ^ 2 - En ^ 2) * (b ^ 2 - En ^ 2))) by (apply Rinv_0_lt_compat; auto).
  assert (HE2 : 0 <= En ^ 2) by nra.
  destruct Hst as [HPs|[HAs HEs]].
  - assert (0 <= Am * En ^ 2 * (b ^ 2 - a ^ 2) / ((a ^ 2 - En ^ 2) * (b ^ 2 - En ^ 2))).
    { apply Rmult_le_pos; [|lra]. apply Rmult_le_pos; [|lra]. apply Rmult_le_pos; auto. }
    nra.
  - assert (0 < Am * En ^ 2 * (b ^ 2 - a ^ 2) / ((a ^ 2 - En ^ 2) * (b ^ 2 - En ^ 2))).
    { apply Rmult_lt_0_compat; [|lra]. apply Rmult_lt_0_compat; [|lra]. apply Rmult_lt_0_compat; nra. }
    nra.
Qed.

(** ** oscillator constructors *)
Lemma make_osc_iff a b c :
  (make_oscillators a b c = Raise ValueError <->
   ~ (List.length (flatten a) = List.length (flatten b) /\ List.length (flatten b) = List.length (flatten c))) /\
  (forall e, make_oscillators a b c = Raise e -> e = ValueError).
Proof.
  unfold make_oscillators.
  destruct (Nat.eqb_spec (List.length (flatten a)) (List.length (flatten b)));
  destruct (Nat.eqb_spec (List.length (flatten b)) (List.length (flatten c))); simpl; split;
    try (split; [discriminate|tauto]); try discriminate; try (split; [tauto|auto]); congruence.
Qed.

Lemma combine3 (A B E : list R) : List.length A = List.length B -> List.length B = List.length E ->
  let os := combine (combine A B) E in
  map osc_A os = A /\ map osc_B os = B /\ map osc_E os = E.
Proof.
  revert B E. induction A as [|a A IH]; intros [|b B] [|e E] H1 H2; simpl in *; try discriminate; auto.
  destruct (IH B E ltac:(lia) ltac:(lia)) as [I1 [I2 I3]]. cbn zeta in *.
  rewrite I1, I2, I3. repeat split.
Qed.

Lemma osc_lengths a b c :
  (~ (List.length (flatten a) = List.length (flatten b) /\ List.length (flatten b) = List.length (flatten c)) ->
   (forall Einf wl nm, Lorentz a b c Einf wl nm = Raise ValueError) /\
   (forall h Einf wl nm, Gauss h a b c Einf wl nm = Raise ValueError) /\
   (forall Eg Einf wl nm, TaucLorentz a b c Eg Einf wl nm = Raise ValueError)) /\
  (List.length (flatten a) = List.length (flatten b) /\ List.length (flatten b) = List.length (flatten c) ->
   exists os, map osc_A os = flatten a /\ map osc_B os = flatten b /\ map osc_E os = flatten c /\
   (forall Einf wl nm, Lorentz a b c Einf wl nm = Ok (Scatterer (K_Lorentz os Einf) wl nm)) /\
   (forall h Einf wl nm, Gauss h a b c Einf wl nm = Ok (Scatterer (K_Gauss h os Einf) wl nm)) /\
   (forall Eg Einf wl nm, TaucLorentz a b c Eg Einf wl nm = Ok (Scatterer (K_TaucLorentz os Eg Einf) wl nm))).
Proof.
  split; intros H.
  - apply make_osc_iff in H. unfold Lorentz, Gauss, TaucLorentz. rewrite H. auto.
  - destruct H as [H1 H2]. exists (combine (combine (flatten a) (flatten b)) (flatten c)).
    destruct (combine3 _ _ _ H1 H2) as [I1 [I2 I3]]. repeat (split; [assumption|]).
    unfold Lorentz, Gauss, TaucLorentz, make_oscillators. rewrite H1, H2, !Nat.eqb_refl. auto.
Qed.
