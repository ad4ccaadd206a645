(** * Proofs: EP4 time series of maps *)

Require Import Reals ZArith Lra Lia List Bool String Sorting.Sorted Permutation.
From Verif Require Import Base M_disp M_model M_data Spec_data P_data P_struct M_ep4 Spec_ep4 P_ep4 P_ep4b P_ep4c P_ep4d P_ep4e
  M_instr Spec_instr P_exact Spec_exact.
Import ListNotations.
Open Scope list_scope.
Open Scope R_scope.

Definition rel (cols : list string) (r : lrow) (km : nat * meas) : Prop :=
  fst r = fst km /\ obs cols r (snd km) /\ at_pos cols r (snd km) /\ cell cols "Time" r = me_t (snd km).

Lemma rel_numbered cols rows ms : NoDup cols -> Forall2 (optics cols) rows ms -> Forall2 (place cols) rows ms ->
  Forall2 (moment cols) rows ms -> Forall2 (rel cols) (reset_index rows) (numbered ms).
Proof.
  intros ND F. unfold reset_index, numbered. generalize 0%nat.
  induction F as [|r m rows ms O F IH]; intros n P G; inversion P; inversion G; subst; cbn [List.length seq combine]; constructor.
  - split; [reflexivity|]. cbn [snd]. split; [apply optics_obs; assumption|]. split; [apply place_pos; assumption|].
    apply cell_field; assumption.
  - apply IH; assumption.
Qed.
Lemma rel_step cols lr ms t : Forall2 (rel cols) lr (numbered ms) -> Forall2 (rel cols) (step_rows cols lr t) (step_of t ms).
Proof.
  intros F. unfold step_rows, step_of. apply F2_filter; [|exact F]. intros r km (_ & _ & _ & E). unfold req_b. rewrite E. reflexivity.
Qed.
Lemma F2_snd {A B C} (P : A -> C -> Prop) (l : list A) (l' : list (B * C)) :
  Forall2 (fun a b => P a (snd b)) l l' -> Forall2 P l (map snd l').
Proof. induction 1; cbn [map]; constructor; assumption. Qed.
Lemma F2_snd_inv {A B C} (P : A -> C -> Prop) (l : list A) (l' : list (B * C)) :
  Forall2 P l (map snd l') -> Forall2 (fun a b => P a (snd b)) l l'.
Proof. revert l. induction l' as [|b l' IH]; intros l F; inversion F; subst; constructor; auto. Qed.
Lemma unconcat {A B} (st : list (A * B)) : forall cs, List.concat cs = map snd st ->
  exists bs, map (map snd) bs = cs /\ List.concat bs = st.
Proof.
  intros cs. revert st. induction cs as [|c cs IH]; intros st E; cbn [List.concat] in E.
  - destruct st; [|discriminate]. exists []. split; reflexivity.
  - assert (exists s1 s2, st = s1 ++ s2 /\ map snd s1 = c /\ map snd s2 = List.concat cs) as (s1 & s2 & -> & <- & E2).
    { clear IH. revert st E. induction c as [|x c IH]; intros st E; cbn [app] in E.
      - exists [], st. auto.
      - destruct st as [|y st]; [discriminate|]. cbn [map] in E. inversion E as [[E1 E2]].
        destruct (IH st E2) as (s1 & s2 & -> & <- & E3). exists (y :: s1), s2. auto. }
    destruct (IH s2 (eq_sym E2)) as (bs & <- & <-). exists (s1 :: bs). split; reflexivity.
Qed.
Lemma those_filter {A} (P : A -> Prop) f (l : list A) : (forall x, f x = true <-> P x) -> those P l (filter f l).
Proof.
  intros H. induction l as [|x l IH]; cbn [filter]; [constructor|]. destruct (f x) eqn:E.
  - apply those_yes; [apply H; exact E|exact IH].
  - apply those_no; [|exact IH]. intros X. apply H in X. congruence.
Qed.
Lemma not_scattered_const ms rows cols : Forall2 (at_pos cols) rows ms -> ~ scattered ms -> multi_location cols rows = false.
Proof.
  intros F N. apply multi_false. right; right.
  assert (forall r, In r rows -> exists m, In m ms /\ at_pos cols r m) as X.
  { clear N. induction F; intros r []; [subst; eexists; split; [left; reflexivity|eassumption]|].
    destruct (IHF r H0) as (m & Hm & P). exists m. split; [right|]; assumption. }
  split; intros x y Hx Hy; apply in_map_iff in Hx as (r & <- & Hr); apply in_map_iff in Hy as (r' & <- & Hr');
    destruct (X r Hr) as (m & Hm & P1 & P2), (X r' Hr') as (m' & Hm' & P1' & P2').
  - rewrite P1, P1'. destruct (Req_EM_T (me_x m) (me_x m')); [assumption|]. exfalso. apply N. exists m, m'. tauto.
  - rewrite P2, P2'. destruct (Req_EM_T (me_y m) (me_y m')); [assumption|]. exfalso. apply N. exists m, m'. tauto.
Qed.
Lemma scattered_dec ms : scattered ms \/ ~ scattered ms.
Proof.
  assert (forall m0 l, (exists m, In m l /\ (me_x m0 <> me_x m \/ me_y m0 <> me_y m)) \/
    forall m, In m l -> me_x m0 = me_x m /\ me_y m0 = me_y m) as X.
  { intros m0. induction l as [|m l IH]; [right; intros ? []|].
    destruct (Req_EM_T (me_x m0) (me_x m)); [|left; exists m; split; [left; reflexivity|tauto]].
    destruct (Req_EM_T (me_y m0) (me_y m)); [|left; exists m; split; [left; reflexivity|tauto]].
    destruct IH as [(z & Hz & D)|IH]; [left; exists z; split; [right|]; assumption|].
    right. intros z [<-|Hz]; auto. }
  destruct ms as [|m0 l]; [right; intros (? & ? & [] & _)|].
  destruct (X m0 l) as [(m & Hm & D)|H].
  - left. exists m0, m. split; [left; reflexivity|]. split; [right; exact Hm|exact D].
  - right. assert (forall z, In z (m0 :: l) -> me_x m0 = me_x z /\ me_y m0 = me_y z) as Y by (intros z [<-|Hz]; auto).
    intros (a & b & Ha & Hb & D). destruct (Y a Ha), (Y b Hb). destruct D as [D|D]; apply D; congruence.
Qed.

Definition made (g : group) (s : summary) : Prop := summarised g s /\ sm_time s = None.

Lemma outs_made cols n bs : forall bsN, Forall2 (Forall2 (rel cols)) bs bsN -> Forall (fun b => b <> []) bs -> forall final areas,
  bsN = areas ++ [final] ->
  exists l, Forall2 made l (outs cols n bs) /\
    let kept := filter (fun km => Nat.ltb (fst km) n) final in
    (kept = [] -> l = map area areas) /\ (kept <> [] -> l = map area (areas ++ [kept])).
Proof.
  assert (forall b bN, Forall2 (rel cols) b bN -> b <> [] -> made (area bN) (area_summary cols b)) as ONE.
  { intros b bN F N. destruct (area_summary_spec cols b (map snd bN)) as (A & P); [| |exact N|].
    - apply F2_snd. eapply F2_impl; [|exact F]. intros ? ? H. apply H.
    - apply F2_snd. eapply F2_impl; [|exact F]. intros ? ? H. apply H.
    - split; [|reflexivity]. split; [exact A|]. split; [discriminate|]. intros _. exact P. }
  intros bsN F. induction F as [|b bN bs bsN Fb F IH]; intros NE final areas E; [destruct areas; discriminate|].
  inversion NE as [|? ? Nb NE']; subst.
  destruct F as [|b' b'N bs bsN Fb' F].
  - assert (areas = [] /\ bN = final) as (-> & <-).
    { destruct areas as [|? [|]]; cbn in E; inversion E; auto. }
    cbn [outs app]. assert (Forall2 (rel cols) (truncated n b) (filter (fun km => Nat.ltb (fst km) n) bN)) as FT.
    { apply F2_filter; [|exact Fb]. intros r km (-> & _). reflexivity. }
    destruct (truncated n b) as [|q qs] eqn:ET.
    + exists []. split; [constructor|]. cbn zeta. inversion FT. split; [reflexivity|congruence].
    + exists [area (filter (fun km => Nat.ltb (fst km) n) bN)]. split.
      * constructor; [|constructor]. apply ONE; [exact FT|discriminate].
      * cbn zeta. inversion FT. split; [discriminate|reflexivity].
  - destruct areas as [|a areas]; cbn [app] in E; [discriminate|]. inversion E as [[E1 E2]]. subst a.
    destruct (IH NE' final areas E2) as (l & H & K1 & K2).
    exists (area bN :: l). split.
    + change (outs cols n (b :: b' :: bs)) with (area_summary cols b :: outs cols n (b' :: bs)).
      constructor; [apply ONE; assumption|exact H].
    + cbn zeta in *. split; intros K; [rewrite K1 by exact K|rewrite K2 by exact K]; reflexivity.
Qed.

Lemma step_yields cols lr ms t : NoDup cols -> four_columns cols -> In "X_pos"%string cols -> In "Y_pos"%string cols ->
  increasing lr -> Forall2 (rel cols) lr (numbered ms) ->
  exists y l, load_EP4 cols (step_rows cols lr t) = Ok l /\ yields (step_of t ms) y /\ Forall2 made y l.
Proof.
  intros ND Q HX HY S F. pose proof (rel_step cols lr ms t F) as R.
  set (rows := step_rows cols lr t) in *. set (st := step_of t ms) in *.
  assert (Forall2 (at_pos cols) rows (map snd st)) as P by (apply F2_snd; eapply F2_impl; [|exact R]; intros ? ? H; apply H).
  assert (Forall2 (obs cols) rows (map snd st)) as O by (apply F2_snd; eapply F2_impl; [|exact R]; intros ? ? H; apply H).
  destruct (scattered_dec (map snd st)) as [Y|N].
  - rewrite load_areas; [|exact Q|eapply multi_scattered; eassumption|apply step_increasing; exact S].
    assert (rows <> []) as NE.
    { intros X. rewrite X in P. apply F2_length in P. destruct Y as (z & _ & Hz & _). destruct (map snd st); [destruct Hz|discriminate]. }
    destruct (cut_blocks0 cols rows (map snd st) P NE) as (cs & F2 & EC & BC).
    destruct (unconcat st cs EC) as (bsN & <- & EN).
    pose proof (cut_concat cols rows None None) as ECC. rewrite cut_first_none in ECC. cbn [app] in ECC.
    assert (Forall2 (Forall2 (rel cols)) (snd (cut cols None None rows)) bsN) as RR.
    { apply F2_concat_split with (P := fun r km => at_pos cols r (snd km)).
      - clear - F2. revert F2. generalize (snd (cut cols None None rows)). induction bsN as [|b bsN IH]; intros l F; inversion F; subst; constructor.
        + apply F2_snd_inv. assumption.
        + apply IH. assumption.
      - rewrite ECC, EN. exact R. }
    assert (bsN <> []) as NB by (intros ->; inversion BC).
    destruct (exists_last NB) as (areas & final & EB).
    destruct (outs_made cols (List.length rows) _ bsN RR (cut_nonempty cols rows None None) final areas EB) as (l & H & K1 & K2).
    exists l. eexists. split; [reflexivity|]. split; [|exact H]. right. split; [exact Y|].
    exists areas, final, (filter (fun km => Nat.ltb (fst km) (List.length rows)) final).
    rewrite <- EB. split; [symmetry; exact EN|]. split; [exact BC|]. rewrite (F2_length _ _ _ R) in *.
    split; [apply those_filter; intros; apply Nat.ltb_lt|]. split; assumption.
  - destruct (load_single cols rows (map snd st) Q (not_scattered_const _ _ _ P N) O) as (s & E & A & EP & ET).
    exists [(false, map snd st)], [s]. split; [exact E|]. split; [left; split; [exact N|reflexivity]|].
    constructor; [|constructor]. split; [|exact ET]. split; [exact A|]. split; [intros _; exact EP|discriminate].
Qed.

(** ** the loop over the moments *)
Lemma made_label g s u : made g s -> summarised g (with_time (Some u) s).
Proof. intros ((A & B & D) & _). split; [exact A|]. split; assumption. Qed.
Lemma loop_labels cols lr : forall ts ys ls,
  Forall2 (fun t l => load_EP4 cols (step_rows cols lr t) = Ok l) ts ls -> Forall2 (Forall2 made) ys ls ->
  Forall (fun y => (List.length y <= 1)%nat) ys ->
  forall pre u g s, summarised g s -> exists v out ss,
    labelled ((u, [g]) :: combine ts ys) ((g, v) :: out) /\
    time_loop cols lr ts (pre ++ [with_time (Some u) s]) = Ok (pre ++ with_time (Some v) s :: ss) /\
    Forall2 (fun o s => summarised (fst o) s /\ sm_time s = Some (Some (snd o))) out ss.
Proof.
  intros ts ys ls F. revert ys. induction F as [|t l ts ls E F IH]; intros ys M L pre u g s G; inversion M as [|y ? ys' ? My M']; subst.
  - exists u, [], []. cbn [combine time_loop]. split; [constructor|]. split; [reflexivity|constructor].
  - inversion L as [|? ? Ly L']; subst. cbn [combine time_loop]. fold (step_rows cols lr t). rewrite E. cbn [rbind].
    destruct My as [|g' s' y l G' My].
    + rewrite app_nil_r, label_last_app. cbn [rbind].
      change (with_time (Some t) (with_time (Some u) s)) with (with_time (Some t) s).
      destruct (IH ys' M' L' pre t g s G) as (v & out & ss & LA & EL & H). exists v, out, ss.
      split; [constructor; exact LA|]. split; assumption.
    + destruct My; [|cbn in Ly; lia].
      replace ((pre ++ [with_time (Some u) s]) ++ [s']) with ((pre ++ [with_time (Some u) s]) ++ [s']) by reflexivity.
      rewrite label_last_app. cbn [rbind].
      assert (summarised g' s') as GS by apply G'.
      destruct (IH ys' M' L' (pre ++ [with_time (Some u) s]) t g' s' GS) as (v & out & ss & LA & EL & H).
      exists u, ((g', v) :: out), (with_time (Some v) s' :: ss).
      split; [constructor; exact LA|]. split; [rewrite EL, <- app_assoc; reflexivity|].
      constructor; [|exact H]. split; [exact GS|reflexivity].
Qed.
Lemma F2_ex {A B C} (P : A -> B -> C -> Prop) (l : list A) : (forall a, exists b c, P a b c) ->
  exists bs cs, Forall2 (fun a bc => P a (fst bc) (snd bc)) l (combine bs cs) /\ List.length bs = List.length l /\ List.length cs = List.length l.
Proof.
  intros H. induction l as [|a l (bs & cs & F & L1 & L2)]; [exists [], []; repeat split; constructor|].
  destruct (H a) as (b & c & Pa). exists (b :: bs), (c :: cs). split; [constructor; assumption|]. cbn. lia.
Qed.
Lemma F2_fst {A B C} (P : A -> B -> Prop) (l : list A) : forall (bs : list B) (cs : list C), List.length bs = List.length cs ->
  Forall2 (fun a bc => P a (fst bc)) l (combine bs cs) -> Forall2 P l bs.
Proof.
  induction l as [|a l IH]; intros [|b bs] [|c cs] E F; try discriminate; inversion F; subst; constructor; auto.
  apply (IH bs cs); [cbn in E; lia|assumption].
Qed.
Lemma F2_snd2 {A B C} (P : A -> C -> Prop) (l : list A) : forall (bs : list B) (cs : list C), List.length bs = List.length cs ->
  Forall2 (fun a bc => P a (snd bc)) l (combine bs cs) -> Forall2 P l cs.
Proof.
  induction l as [|a l IH]; intros [|b bs] [|c cs] E F; try discriminate; inversion F; subst; constructor; auto.
  apply (IH bs cs); [cbn in E; lia|assumption].
Qed.
Lemma F2_mid {A B C} (P : B -> C -> Prop) (l : list A) : forall (bs : list B) (cs : list C), List.length bs = List.length l -> List.length cs = List.length l ->
  Forall2 (fun _ bc => P (fst bc) (snd bc)) l (combine bs cs) -> Forall2 P bs cs.
Proof.
  induction l as [|a l IH]; intros [|b bs] [|c cs] E E' F; try discriminate; inversion F; subst; constructor; auto.
Qed.
Lemma lengths_dec {A} (ys : list (list A)) :
  Exists (fun y => (2 <= List.length y)%nat) ys \/ Forall (fun y => (List.length y <= 1)%nat) ys.
Proof.
  induction ys as [|y ys IH]; [right; constructor|]. destruct (Nat.le_gt_cases 2 (List.length y)); [left; left; assumption|].
  destruct IH as [IH|IH]; [left; right; exact IH|right; constructor; [lia|exact IH]].
Qed.

Definition series_result pr fname t refl (ms : list meas) ts ys : Prop :=
  (Exists (fun y => (2 <= List.length y)%nat) ys /\ open_EP4file pr fname t refl = Raise KeyError) \/
  (exists out r ss, labelled (combine ts ys) out /\ open_EP4file pr fname t refl = Ok r /\ delivered r refl ss /\
     Forall2 (fun o s => summarised (fst o) s /\ sm_time s = Some (Some (snd o))) out ss).
Theorem open_series pr fname t refl rows ms :
  rectangular t -> complete (tb_rows t) rows ->
  Forall2 (optics (tb_cols t)) rows ms -> Forall2 (place (tb_cols t)) rows ms ->
  Forall2 (moment (tb_cols t)) rows ms -> ~ no_change (tb_cols t) rows "Time" ->
  exists ts ys, in_order (map me_t ms) ts /\ Forall2 (fun u y => yields (step_of u ms) y) ts ys /\
    series_result pr fname t refl ms ts ys.
Proof.
  intros (ND & L) CO F P G T. unfold series_result. rewrite (open_rows _ _ _ _ _ CO).
  rewrite time_series by assumption.
  assert (four_columns (tb_cols t) /\ In "X_pos"%string (tb_cols t) /\ In "Y_pos"%string (tb_cols t)) as (Q & HX & HY).
  { destruct F as [|r m rows ms (A & B & C & D) _].
    - exfalso. apply T. right. intros ? ? ? ? [].
    - inversion P as [|? ? ? ? (PX & PY) _]; subst. split; [|split; eapply field_in; eassumption].
      repeat split; eapply field_in; eassumption. }
  set (cols := tb_cols t) in *. set (lr := reset_index rows) in *.
  pose proof (rel_numbered cols rows ms ND F P G) as RN. fold lr in RN.
  assert (Forall2 (fun r m => cell cols "Time" r = me_t m) lr ms) as G'.
  { eapply F2_reset; [|exact G]. intros. apply cell_field; assumption. }
  assert (increasing lr) as S by apply reset_increasing.
  assert (map (cell cols "Time") lr = map me_t ms) as EM by (eapply F2_map; [|exact G']; auto).
  rewrite EM.
  destruct (F2_ex (fun u y l => load_EP4 cols (step_rows cols lr u) = Ok l /\ yields (step_of u ms) y /\ Forall2 made y l)
    (drop_duplicates (map me_t ms))) as (ys & ls & FF & L1 & L2).
  { intros u. exact (step_yields cols lr ms u ND Q HX HY S RN). }
  assert (List.length ys = List.length ls) as LL by congruence.
  assert (Forall2 (fun u l => load_EP4 cols (step_rows cols lr u) = Ok l) (drop_duplicates (map me_t ms)) ls) as F1.
  { apply (F2_snd2 _ _ ys ls LL). eapply F2_impl; [|exact FF]. intros ? ? H. apply H. }
  assert (Forall2 (fun u y => yields (step_of u ms) y) (drop_duplicates (map me_t ms)) ys) as F2.
  { apply (F2_fst _ _ ys ls LL). eapply F2_impl; [|exact FF]. intros ? ? H. apply H. }
  assert (Forall2 (Forall2 made) ys ls) as F3.
  { apply (F2_mid _ (drop_duplicates (map me_t ms)) ys ls L1 L2). eapply F2_impl; [|exact FF]. intros ? ? H. apply H. }
  exists (drop_duplicates (map me_t ms)), ys. split; [apply drop_dup_order|]. split; [exact F2|].
  (* the first moment *)
  destruct rows as [|r0 rest]; [exfalso; apply T; right; intros ? ? ? ? []|].
  inversion F as [|? m0 ? mrest O0 Fr]; subst ms. clear EM.
  inversion G as [|? ? ? ? M0 _]; clear G.
  assert (cell cols "Time" (0%nat, r0) = me_t m0) as EC by (apply cell_field; assumption).
  destruct (first_step cols (0%nat, r0) (combine (seq 1 (List.length rest)) rest) Q S eq_refl) as (s & l1 & E1).
  change ((0%nat, r0) :: combine (seq 1 (List.length rest)) rest) with lr in E1. rewrite EC in E1.
  cbn [map drop_duplicates] in F1, F2, F3, L1, L2 |- *. set (ts := filter _ _) in *.
  destruct ys as [|y0 ys]; [discriminate|]. destruct ls as [|sl sls]; [discriminate|].
  inversion F1 as [|? ? ? ? El F1']. inversion F3 as [|? ? ? ? Fm F3']. subst.
  assert (sl = s :: l1) as -> by congruence.
  destruct (lengths_dec (y0 :: ys)) as [X|X].
  - left. split; [exact X|]. cbn [time_loop]. fold (step_rows cols lr (me_t m0)). rewrite E1. cbn [rbind app].
    destruct (label_last_total (me_t m0) (s :: l1)) as (pre & z & EZ & EZL); [discriminate|].
    rewrite EZL. cbn [rbind].
    destruct (loop_stuck cols lr Q S ts (pre ++ [with_time (Some (me_t m0)) z])) as (out' & -> & H).
    { destruct pre; discriminate. }
    cbn [rbind]. apply finish_bad.
    assert (stuck out') as (p & w & q & -> & _ & EU).
    { apply H. inversion X as [? ? X1|? ? X1]; subst.
      - left. inversion Fm as [|g ? y' ? MG Fm']; subst. destruct Fm' as [|g2 s2 y2 l2 _ _]; [cbn in X1; lia|].
        apply (stuck_label (me_t m0) (s :: s2 :: l2)); [|exact EZL].
        exists [], s, (s2 :: l2). split; [reflexivity|]. split; [discriminate|]. apply MG.
      - right. clear - X1 F1' F3'. revert ys X1 F3'. induction F1' as [|u l ts ls E F1' IH]; intros ys X1 F3'; inversion F3'; subst; [inversion X1|].
        inversion X1 as [? ? X2|? ? X2]; subst.
        + match goal with H : Forall2 made _ l |- _ => destruct H as [|? a ? ? _ H2]; [cbn in X2; lia|]; destruct H2 as [|? b ? l2 _ _]; [cbn in X2; lia|] end.
          exists u, a, b, l2. split; [left; reflexivity|exact E].
        + destruct (IH _ X2) as (t' & a & b & l' & Ht & E'); [assumption|]. exists t', a, b, l'. split; [right; exact Ht|exact E']. }
    apply Exists_exists. exists w. split; [apply in_or_app; right; left; reflexivity|exact EU].
  - right. inversion X as [|? ? X1 X']; subst. inversion Fm as [|g ? y' ? MG Fm']; subst.
    destruct Fm'; [|cbn in X1; lia].
    assert (summarised g s) as GS by apply MG.
    destruct (loop_labels cols lr ts ys sls F1' F3' X' [] (me_t m0) g s GS) as (v & out & ss & LA & EL & H).
    cbn [time_loop]. fold (step_rows cols lr (me_t m0)). rewrite E1. cbn [rbind app label_last].
    cbn [app] in EL. rewrite EL. cbn [rbind].
    destruct (finish_ok pr fname refl (with_time (Some v) s :: ss)) as (r & -> & D).
    { constructor; [discriminate|]. clear - H. induction H as [|? ? ? ? (_ & E)]; constructor; [congruence|assumption]. }
    exists ((g, v) :: out), r, (with_time (Some v) s :: ss). split; [exact LA|]. split; [reflexivity|]. split; [exact D|].
    constructor; [|exact H]. split; [exact GS|reflexivity].
Qed.

(** ** the description determines the result *)
Lemma unconcat_unique {A B} (bs : list (list (A * B))) : forall bs', map (map snd) bs = map (map snd) bs' ->
  List.concat bs = List.concat bs' -> bs = bs'.
Proof.
  induction bs as [|b bs IH]; intros [|b' bs'] E C; try discriminate; [reflexivity|]. cbn [map List.concat] in *.
  inversion E as [[E1 E2]].
  assert (b = b' /\ List.concat bs = List.concat bs') as (-> & C').
  { assert (List.length b = List.length b') as L by (rewrite <- (map_length snd b), E1; apply map_length).
    clear E E1 E2 IH. revert b' C L. induction b as [|x b IH]; intros [|x' b'] C L; try discriminate; [auto|].
    cbn [app] in C. inversion C as [[C1 C2]]. destruct (IH b' C2) as (-> & ->); [cbn in L; lia|]. auto. }
  f_equal. apply IH; assumption.
Qed.
Lemma yields_unique st l l' : yields st l -> yields st l' -> l = l'.
Proof.
  intros [(N & ->)|(Y & ar & fi & k & E & B & T & K1 & K2)] [(N' & ->)|(Y' & ar' & fi' & k' & E' & B' & T' & K1' & K2')]; try contradiction; [reflexivity|].
  assert (ar ++ [fi] = ar' ++ [fi']) as X.
  { apply unconcat_unique; [|congruence]. apply blocks_unique; [exact B|exact B'|].
    rewrite <- !concat_map. congruence. }
  apply app_inj_tail in X as (-> & ->). assert (k = k') as <- by (eapply those_unique; eassumption).
  destruct k as [|x k]; [rewrite K1, K1' by reflexivity; reflexivity|rewrite K2, K2' by discriminate; reflexivity].
Qed.
Lemma labelled_unique l out : labelled l out -> forall out', labelled l out' -> out = out'.
Proof.
  induction 1; intros out' H'; inversion H'; subst; auto. f_equal. auto.
Qed.
Lemma labelled_single l out : labelled l out -> Forall (fun x => (List.length (snd x) <= 1)%nat) l.
Proof.
  induction 1; repeat constructor; cbn [snd List.length]; try lia; inversion IHlabelled; subst; cbn in *; assumption.
Qed.

(** ** members and labels *)
Lemma labelled_where l out : labelled l out -> forall g v, In (g, v) out ->
  exists pre t us post, l = pre ++ (t, [g]) :: map (fun u => (u, [])) us ++ post /\ v = last us t.
Proof.
  induction 1 as [t g|t g u l out H IH|t g u g' l out H IH]; intros g0 v Hin.
  - destruct Hin as [E|[]]. inversion E; subst. exists [], v, [], []. split; reflexivity.
  - destruct (IH g0 v Hin) as (pre & t1 & us & post & E & ->). destruct pre as [|p pre].
    + cbn [app] in E. inversion E; subst. exists [], t, (t1 :: us), post. split; [reflexivity|].
      destruct us as [|z us]; [reflexivity|]. rewrite (last_default z us t1 t). reflexivity.
    + cbn [app] in E. inversion E; subst. exists ((t, [g]) :: (u, []) :: pre), t1, us, post. split; reflexivity.
  - destruct Hin as [E|Hin].
    + inversion E; subst. exists [], v, [], ((u, [g']) :: l). split; reflexivity.
    + destruct (IH g0 v Hin) as (pre & t1 & us & post & E & ->). exists ((t, [g]) :: pre), t1, us, post.
      cbn [app]. rewrite <- E. split; reflexivity.
Qed.
Lemma last_in {A} (us : list A) t : In (last us t) (t :: us).
Proof.
  revert t. induction us as [|u us IH]; intros t; [left; reflexivity|]. right.
  destruct us as [|u2 us]; [left; reflexivity|]. change (last (u :: u2 :: us) t) with (last (u2 :: us) t).
  rewrite (last_default u2 us t u). exact (IH u).
Qed.
Lemma those_in {A} (P : A -> Prop) l r x : those P l r -> In x r -> In x l /\ P x.
Proof. induction 1; [intros []| |]; intros H1; [destruct H1 as [<-|H1]; [split; [left; reflexivity|assumption]|]|]; destruct IHthose; auto; split; auto; right; auto. Qed.
Lemma blocks_nonempty bs : blocks bs -> Forall (fun b => b <> []) bs.
Proof. induction 1; repeat constructor; try discriminate. inversion IHblocks; assumption. Qed.
Lemma step_in t ms m : In m (map snd (step_of t ms)) -> In m ms /\ me_t m = t.
Proof.
  intros H. apply in_map_iff in H as ((k & m') & <- & H). unfold step_of in H. apply filter_In in H as (H & E). cbn [snd] in *.
  destruct (Req_EM_T (me_t m') t); [|discriminate]. split; [|assumption]. unfold numbered in H. apply in_combine_r in H. exact H.
Qed.
Lemma yields_members t ms l g : yields (step_of t ms) l -> step_of t ms <> [] -> In g l ->
  snd g <> [] /\ Forall (fun m => In m ms /\ me_t m = t) (snd g).
Proof.
  intros Y NE Hg. assert (snd g <> [] /\ forall m, In m (snd g) -> In m (map snd (step_of t ms))) as (A & B).
  { destruct Y as [(_ & ->)|(_ & ar & fi & k & E & B & T & K1 & K2)].
    - destruct Hg as [<-|[]]. cbn [snd]. split; [|auto]. destruct (step_of t ms); [tauto|discriminate].
    - assert (Forall (fun b => map (@snd nat meas) b <> []) ar) as FN.
      { apply blocks_nonempty in B. rewrite map_app in B. apply Forall_app in B as (B & _).
        rewrite Forall_forall in *. intros x Hx. apply (in_map (map snd)) in Hx. apply B in Hx. exact Hx. }
      rewrite E. rewrite concat_app.
      assert (forall b, In b ar -> map snd b <> [] /\ forall m, In m (map snd b) -> In m (map snd (List.concat ar ++ List.concat [fi]))) as BA.
      { intros b Hb. rewrite Forall_forall in FN. split; [apply FN; exact Hb|]. intros m Hm. rewrite map_app. apply in_or_app. left.
        rewrite concat_map. apply in_concat. exists (map snd b). split; [apply in_map; exact Hb|exact Hm]. }
      destruct k as [|x k].
      + rewrite K1 in Hg by reflexivity. apply in_map_iff in Hg as (b & <- & Hb). exact (BA b Hb).
      + rewrite K2 in Hg by discriminate. rewrite map_app in Hg. apply in_app_or in Hg as [Hg|[<-|[]]].
        * apply in_map_iff in Hg as (b & <- & Hb). exact (BA b Hb).
        * cbn [area snd]. split; [discriminate|]. intros m Hm. apply in_map_iff in Hm as (q & <- & Hq).
          apply (those_in _ _ _ _ T) in Hq as (Hq & _). apply in_map. apply in_or_app. right. cbn. rewrite app_nil_r. exact Hq. }
  split; [exact A|]. apply Forall_forall. intros m Hm. apply step_in. apply B. exact Hm.
Qed.
Lemma step_nonempty t ms : In t (map me_t ms) -> step_of t ms <> [].
Proof.
  intros H E. apply in_map_iff in H as (m & <- & Hm).
  assert (exists k, In (k, m) (numbered ms)) as (k & Hk).
  { unfold numbered. clear E. generalize 0%nat. induction ms as [|a ms IH]; intros n; [destruct Hm|]. cbn [List.length seq combine].
    destruct Hm as [->|Hm]; [eexists; left; reflexivity|]. destruct (IH Hm (S n)) as (k & Hk). exists k. right. exact Hk. }
  assert (In (k, m) (step_of (me_t m) ms)) as X.
  { unfold step_of. apply filter_In. split; [exact Hk|]. cbn [snd]. destruct (Req_EM_T (me_t m) (me_t m)); [reflexivity|tauto]. }
  rewrite E in X. destruct X.
Qed.
Lemma combine_split {A B} (ts : list A) : forall (ys : list B) pre t y post, combine ts ys = pre ++ (t, y) :: post ->
  List.length ts = List.length ys ->
  exists t1 t2 y1 y2, ts = t1 ++ t :: t2 /\ ys = y1 ++ y :: y2 /\ combine t2 y2 = post /\ List.length t1 = List.length y1 /\ List.length t2 = List.length y2.
Proof.
  induction ts as [|t0 ts IH]; intros [|y0 ys] pre t y post E L; try discriminate; [destruct pre; discriminate|].
  cbn [combine] in E. destruct pre as [|p pre]; cbn [app] in E; inversion E; subst.
  - exists [], ts, [], ys. repeat split. cbn in L. lia.
  - destruct (IH ys pre t y post H1) as (t1 & t2 & y1 & y2 & -> & -> & <- & L1 & L2); [cbn in L; lia|].
    exists (t0 :: t1), t2, (y0 :: y1), y2. repeat split; cbn; lia.
Qed.
Lemma combine_prefix {A B} (us : list A) (b : B) : forall ts ys post, combine ts ys = map (fun u => (u, b)) us ++ post ->
  forall u, In u us -> In u ts.
Proof.
  induction us as [|u0 us IH]; intros ts ys post E u Hu; [destruct Hu|]. destruct ts as [|t ts]; [discriminate|].
  destruct ys as [|y ys]; [discriminate|]. cbn in E. inversion E; subst. destruct Hu as [<-|Hu]; [left; reflexivity|right; eapply IH; eassumption].
Qed.
Theorem series_members pr fname t refl rows ms r :
  rectangular t -> complete (tb_rows t) rows ->
  Forall2 (optics (tb_cols t)) rows ms -> Forall2 (place (tb_cols t)) rows ms ->
  Forall2 (moment (tb_cols t)) rows ms -> ~ no_change (tb_cols t) rows "Time" ->
  open_EP4file pr fname t refl = Ok r ->
  exists ts ss, in_order (map me_t ms) ts /\ delivered r refl ss /\
    Forall (fun s => exists g u v before after, ts = before ++ u :: after /\ In v (u :: after) /\
      sm_time s = Some (Some v) /\ averaged g s /\ g <> [] /\ Forall (fun m => In m ms /\ me_t m = u) g) ss.
Proof.
  intros RE CO F P G T E. destruct (open_series pr fname t refl rows ms RE CO F P G T) as (ts & ys & IO & FY & [(_ & E')|(out & r' & ss & LA & E' & D & FS)]).
  { rewrite E in E'. discriminate. }
  assert (r' = r) as -> by congruence. exists ts, ss. split; [exact IO|]. split; [exact D|].
  apply Forall_forall. intros s Hs.
  assert (exists o, In o out /\ summarised (fst o) s /\ sm_time s = Some (Some (snd o))) as ((g & v) & Ho & (A & _) & ET).
  { clear - FS Hs. induction FS; [destruct Hs|]. destruct Hs as [<-|Hs]; [exists x; split; [left; reflexivity|assumption]|].
    destruct (IHFS Hs) as (o & Ho & K). exists o. split; [right|]; assumption. }
  destruct (labelled_where _ _ LA g v Ho) as (pre & u & us & post & EC & EV).
  destruct (combine_split ts ys pre u [g] _ EC (F2_length _ _ _ FY)) as (t1 & t2 & y1 & y2 & E1 & E2 & E3 & L1 & L2).
  assert (yields (step_of u ms) [g]) as YG.
  { rewrite E1, E2 in FY. clear - FY L1. revert y1 FY L1. induction t1 as [|a t1 IH]; intros [|b y1] FY L1; try discriminate; cbn [app] in FY; inversion FY; subst; [assumption|].
    eapply IH; [eassumption|]. cbn in L1. lia. }
  assert (In u (map me_t ms)) as HU.
  { destruct IO as (_ & IN & _). apply IN. rewrite E1. apply in_or_app. right. left. reflexivity. }
  destruct (yields_members u ms [g] g YG (step_nonempty u ms HU)) as (NE & FM); [left; reflexivity|].
  exists (snd g), u, v, t1, t2. split; [exact E1|]. split.
  { rewrite EV. destruct (last_in us u) as [<-|H]; [left; reflexivity|right]. apply (combine_prefix us [] t2 y2 post E3). exact H. }
  split; [exact ET|]. split; [exact A|]. split; assumption.
Qed.

(** ** errors *)
Lemma finish_error pr fname refl ss e : finish pr fname refl ss = Raise e -> e = KeyError.
Proof.
  unfold finish. destruct (mapR (EP4_dataset pr fname refl) ss) as [ds|e'] eqn:E; cbn [rbind].
  - destruct ds as [|? [|]]; discriminate.
  - intros [= <-]. revert e' E. induction ss as [|s ss IH]; intros e' E; cbn [mapR] in E; [discriminate|].
    unfold EP4_dataset at 1, EP4_name in E. destruct (sm_time s); cbn [rmap rbind] in E; [|inversion E; reflexivity].
    destruct (mapR (EP4_dataset pr fname refl) ss); cbn [rmap rbind] in E; [discriminate|]. inversion E; subst. apply IH. reflexivity.
Qed.
Theorem open_errors pr fname t refl e : open_EP4file pr fname t refl = Raise e -> e = KeyError.
Proof.
  destruct (complete_exists (tb_rows t)) as (rows & CO).
  intros H. assert (four_columns (tb_cols t) \/ ~ four_columns (tb_cols t)) as [Q|Q].
  { unfold four_columns. destruct (in_dec string_dec "#Lambda"%string (tb_cols t)), (in_dec string_dec "AOI"%string (tb_cols t)),
      (in_dec string_dec "Psi"%string (tb_cols t)), (in_dec string_dec "Delta"%string (tb_cols t)); tauto. }
  2:{ rewrite (open_missing pr fname t refl Q) in H. congruence. }
  rewrite (open_rows _ _ _ _ _ CO) in H. set (cols := tb_cols t) in *. set (lr := reset_index rows) in *.
  assert (increasing lr) as S by apply reset_increasing.
  destruct (_ && _)%bool.
  - destruct rows as [|r0 rest]; [discriminate H|].
    destruct (first_step cols (0%nat, r0) (combine (seq 1 (List.length rest)) rest) Q S eq_refl) as (s & l1 & E1).
    change ((0%nat, r0) :: combine (seq 1 (List.length rest)) rest) with lr in E1.
    assert (exists ts, drop_duplicates (map (cell cols "Time") lr) = cell cols "Time" (0%nat, r0) :: ts) as (ts & ED) by (eexists; reflexivity).
    rewrite ED in H. cbn [time_loop] in H. fold (step_rows cols lr (cell cols "Time" (0%nat, r0))) in H. rewrite E1 in H. cbn [rbind app] in H.
    destruct (label_last_total (cell cols "Time" (0%nat, r0)) (s :: l1)) as (pre & z & EZ & EZL); [discriminate|].
    rewrite EZL in H. cbn [rbind] in H.
    destruct (loop_stuck cols lr Q S ts (pre ++ [with_time (Some (cell cols "Time" (0%nat, r0))) z])) as (out' & EO & _).
    { destruct pre; discriminate. }
    rewrite EO in H. cbn [rbind] in H. exact (finish_error _ _ _ _ _ H).
  - destruct (load_total cols lr Q S) as (l & EL & _). rewrite EL in H. cbn [rmap rbind] in H. exact (finish_error _ _ _ _ _ H).
Qed.
