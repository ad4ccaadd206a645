(** * Examples for the exact description of DataSE.load and open_EP4file *)

Require Import Reals ZArith Lra Lia List Bool String Ascii.
From Verif Require Import Base M_disp M_model M_data Spec_data P_struct P_data M_ep4 M_instr Spec_ep4 Spec_instr P_ep4 P_ep4e
  Spec_exact P_exact P_exact2.
Import ListNotations.
Open Scope list_scope.
Open Scope R_scope.

Lemma times_unique (l ts ts' : list R) : in_order l ts -> in_order l ts' -> ts = ts'.
Proof.
  cut (forall ts2 ts1 ts2', in_order l (ts1 ++ ts2) -> in_order l (ts1 ++ ts2') -> ts2 = ts2').
  { intros H. exact (H ts [] ts'). }
  assert (forall ts1 (t : R) ts2, NoDup (ts1 ++ t :: ts2) -> ~ In t ts1) as ND.
  { intros ts1 t ts2 N H. apply NoDup_remove_2 in N. apply N, in_or_app. tauto. }
  induction ts2 as [|t ts2 IH]; intros ts1 [|t' ts2'] (N & A & B) (N' & A' & B'); [reflexivity| | |].
  - exfalso. apply (ND ts1 t' ts2' N'). rewrite app_nil_r in A. apply A, A'. apply in_or_app. right. left. reflexivity.
  - exfalso. apply (ND ts1 t ts2 N). rewrite app_nil_r in A'. apply A', A. apply in_or_app. right. left. reflexivity.
  - assert (t = t') as <-.
    { destruct (B ts1 t ts2 eq_refl) as (l1 & l2 & E & H). destruct (B' ts1 t' ts2' eq_refl) as (l1' & l2' & E' & H').
      assert (nth_error l (List.length l1) = Some t) as Q by (rewrite E, nth_error_app2, Nat.sub_diag by lia; reflexivity).
      assert (nth_error l (List.length l1') = Some t') as Q' by (rewrite E', nth_error_app2, Nat.sub_diag by lia; reflexivity).
      destruct (Nat.lt_trichotomy (List.length l1) (List.length l1')) as [L|[L|L]].
      - exfalso. apply (ND ts1 t ts2 N). apply H'. rewrite E', nth_error_app1 in Q by exact L. eapply nth_error_In; exact Q.
      - congruence.
      - exfalso. apply (ND ts1 t' ts2' N'). apply H. rewrite E, nth_error_app1 in Q' by exact L. eapply nth_error_In; exact Q'. }
    f_equal. apply (IH (ts1 ++ [t])); rewrite <- app_assoc; cbn [app]; split; auto.
Qed.

(** a file with a header, a comment, an empty line and a line with a comment behind the numbers *)
Definition text2 : list string :=
  [header_line; row1 "1"; "# remark"; ""; (row1 "2" ++ "# noisy")%string; row1 "3"]%string.
Lemma text2_header : header digit tab text2 [header_line] (tl text2).
Proof.
  split; [reflexivity|]. split; [repeat constructor; intros (v & H); discriminate H|]. split; [cbn; lia|].
  right; right. exists (row1 "1"), (tl (tl text2)). split; [reflexivity|]. exists (Some (INR 1)). reflexivity.
Qed.
Lemma row1_four n : In n [1; 2; 3]%nat ->
  four_numbers digit tab (row1 (String (ascii_of_nat (48 + n)) EmptyString)) (pt1 n).
Proof.
  intros H. exists (let f := String (ascii_of_nat (48 + n)) EmptyString in [f; f; f; f]).
  destruct H as [<-|[<-|[<-|[]]]]; (split; [split; [discriminate|]; split; [|reflexivity]|]);
    repeat constructor; try discriminate.
Qed.
Lemma text2_table : table_of digit tab (tl text2) (map pt1 [1; 2; 3]%nat).
Proof.
  exists [row1 "1"; ""; ""; row1 "2"; row1 "3"]%string, [row1 "1"; row1 "2"; row1 "3"]%string.
  split; [|split].
  - assert (forall s, uncommented (strip_comment s) (strip_comment (strip_comment s))) as X by (intros; apply strip_uncommented).
    constructor; [exact (strip_uncommented (row1 "1"))|]. constructor; [exact (strip_uncommented "# remark")|].
    constructor; [exact (strip_uncommented "")|]. constructor; [exact (strip_uncommented (row1 "2" ++ "# noisy"))|].
    constructor; [exact (strip_uncommented (row1 "3"))|]. constructor.
  - apply those_yes; [discriminate|]. apply those_no; [tauto|]. apply those_no; [tauto|].
    apply those_yes; [discriminate|]. apply those_yes; [discriminate|]. constructor.
  - constructor; [apply (row1_four 1); cbn; tauto|]. constructor; [apply (row1_four 2); cbn; tauto|].
    constructor; [apply (row1_four 3); cbn; tauto|]. constructor.
Qed.

(** two moments; at the second one two areas are measured *)
Definition lost1 : meas := Meas 633 50 44 114 5 0 2.
Definition ms_lost : list meas := [Meas 633 50 30 100 0 0 1; Meas 700 50 31 101 0 0 1; Meas 633 50 40 110 0 0 2; lost1].
Lemma lost_time : ~ no_change cols6 (map meas_row ms_lost) "Time".
Proof.
  rewrite ep4_no_change_time. intros H. assert (1 = 2) as E; [|lra].
  apply (H (Meas 633 50 30 100 0 0 1) lost1); [left; reflexivity|right; right; right; left; reflexivity].
Qed.
Lemma lost_order : in_order (map me_t ms_lost) [1; 2].
Proof.
  assert (drop_duplicates (map me_t ms_lost) = [1; 2]) as <-; [|apply drop_dup_order].
  cbn [map ms_lost me_t lost1 drop_duplicates filter]. unfold req_b.
  destruct (Req_EM_T 2 2); [|lra]. cbn [negb filter]. destruct (Req_EM_T 1 2); [lra|]. cbn [negb filter].
  destruct (Req_EM_T 1 1); [|lra]. cbn [negb filter]. destruct (Req_EM_T 1 2); [lra|]. reflexivity.
Qed.
Definition g1 : group := (false, [Meas 633 50 30 100 0 0 1; Meas 700 50 31 101 0 0 1]).
Definition g2 : group := (true, [Meas 633 50 40 110 0 0 2]).
Lemma lost_step1 : yields (step_of 1 ms_lost) [g1].
Proof.
  left. assert (step_of 1 ms_lost = [(0%nat, Meas 633 50 30 100 0 0 1); (1%nat, Meas 700 50 31 101 0 0 1)]) as ->.
  { unfold step_of, numbered. cbn [ms_lost lost1 List.length seq combine filter snd me_t].
    destruct (Req_EM_T 1 1); [|lra]. destruct (Req_EM_T 2 1); [lra|]. reflexivity. }
  split; [|reflexivity]. intros (a & b & Ha & Hb & D). cbn [map snd] in *.
  destruct Ha as [<-|[<-|[]]], Hb as [<-|[<-|[]]]; cbn [me_x me_y] in D; destruct D as [D|D]; apply D; reflexivity.
Qed.
Lemma lost_step2 : yields (step_of 2 ms_lost) [g2].
Proof.
  right. assert (step_of 2 ms_lost = [(2%nat, Meas 633 50 40 110 0 0 2); (3%nat, lost1)]) as ->.
  { unfold step_of, numbered. cbn [ms_lost lost1 List.length seq combine filter snd me_t].
    destruct (Req_EM_T 1 2); [lra|]. destruct (Req_EM_T 2 2); [|lra]. reflexivity. }
  split.
  - exists (Meas 633 50 40 110 0 0 2), lost1. cbn [map snd In]. split; [tauto|]. split; [tauto|]. left. cbn [me_x lost1]. lra.
  - exists [[(2%nat, Meas 633 50 40 110 0 0 2)]], [(3%nat, lost1)], []. split; [reflexivity|]. split.
    + cbn [app map snd]. constructor; [constructor| |constructor; constructor]. apply far_of. cbn [me_x lost1].
      unfold Rabs. repeat destruct Rcase_abs; lra.
    + split; [apply those_no; [cbn; lia|constructor]|]. split; [reflexivity|tauto].
Qed.
Lemma lost_labels : labelled [(1, [g1]); (2, [g2])] [(g1, 1); (g2, 2)].
Proof. constructor. constructor. Qed.

(** the second area of the second moment is in none of the datasets *)
Lemma area_lost pr fname : exists s1 s2 d1 d2,
  open_EP4file pr fname (ep4_table ms_lost) false = Ok (Many [d1; d2]) /\ snd (fst d1) = s1 /\ snd (fst d2) = s2 /\
  averaged (snd g1) s1 /\ averaged (snd g2) s2 /\ sm_time s1 = Some (Some 1) /\ sm_time s2 = Some (Some 2).
Proof.
  destruct (ep4_fields ms_lost) as (F & P & G).
  destruct (open_series pr fname (ep4_table ms_lost) false (map meas_row ms_lost) ms_lost (ep4_rect _) (ep4_complete _) F P G lost_time)
    as (ts & ys & IO & FY & H).
  assert (ts = [1; 2]) as ->.
  { apply (times_unique (map me_t ms_lost)); [exact IO|exact lost_order]. }
  assert (ys = [[g1]; [g2]]) as ->.
  { inversion FY as [|? y1 ? ys1 Y1 FY1]; subst. inversion FY1 as [|? y2 ? ys2 Y2 FY2]; subst. inversion FY2; subst.
    rewrite (yields_unique _ _ _ Y1 lost_step1), (yields_unique _ _ _ Y2 lost_step2). reflexivity. }
  destruct H as [(X & _)|(out & r & ss & LA & E & (ds & FD & ER) & FS)].
  - exfalso. inversion X as [? ? K|? ? K]; subst; [cbn in K; lia|]. inversion K as [? ? K'|? ? K']; subst; [cbn in K'; lia|inversion K'].
  - cbn [combine] in LA. rewrite (labelled_unique _ _ LA _ lost_labels) in FS. clear LA out.
    inversion FS as [|? s1 ? ss1 (A1 & T1) FS1]; subst. inversion FS1 as [|? s2 ? ss2 (A2 & T2) FS2]; subst. inversion FS2; subst.
    inversion FD as [|? d1 ? ds1 (S1 & _) FD1]; subst. inversion FD1 as [|? d2 ? ds2 (S2 & _) FD2]; subst. inversion FD2; subst.
    eexists _, _, d1, d2. split; [exact E|]. split; [reflexivity|]. split; [reflexivity|].
    cbn [fst snd] in *. split; [apply A1|]. split; [apply A2|]. split; assumption.
Qed.
Lemma area_missing pr fname : exists s1 s2 d1 d2,
  open_EP4file pr fname (ep4_table ms_lost) false = Ok (Many [d1; d2]) /\ snd (fst d1) = s1 /\ snd (fst d2) = s2 /\
  In lost1 ms_lost /\ averaged [Meas 633 50 30 100 0 0 1; Meas 700 50 31 101 0 0 1] s1 /\
  averaged [Meas 633 50 40 110 0 0 2] s2 /\ sm_time s1 = Some (Some 1) /\ sm_time s2 = Some (Some 2).
Proof.
  destruct (area_lost pr fname) as (s1 & s2 & d1 & d2 & E & E1 & E2 & A1 & A2 & T1 & T2). exists s1, s2, d1, d2.
  split; [exact E|]. split; [exact E1|]. split; [exact E2|]. split; [right; right; right; left; reflexivity|]. auto.
Qed.
Lemma lost_example : rectangular (ep4_table ms_lost) /\ complete (tb_rows (ep4_table ms_lost)) (map meas_row ms_lost) /\
  Forall2 (optics cols6) (map meas_row ms_lost) ms_lost /\ Forall2 (place cols6) (map meas_row ms_lost) ms_lost /\
  Forall2 (moment cols6) (map meas_row ms_lost) ms_lost /\ ~ no_change cols6 (map meas_row ms_lost) "Time" /\
  in_order (map me_t ms_lost) [1; 2] /\ yields (step_of 1 ms_lost) [g1] /\ yields (step_of 2 ms_lost) [g2] /\
  labelled [(1, [g1]); (2, [g2])] [(g1, 1); (g2, 2)].
Proof.
  destruct (ep4_fields ms_lost) as (F & P & G). split; [apply ep4_rect|]. split; [apply ep4_complete|].
  split; [exact F|]. split; [exact P|]. split; [exact G|]. split; [exact lost_time|]. split; [exact lost_order|].
  split; [exact lost_step1|]. split; [exact lost_step2|exact lost_labels].
Qed.
Lemma series_determined ms ts ts' ys ys' out out' :
  in_order (map me_t ms) ts -> in_order (map me_t ms) ts' ->
  Forall2 (fun u y => yields (step_of u ms) y) ts ys -> Forall2 (fun u y => yields (step_of u ms) y) ts' ys' ->
  labelled (combine ts ys) out -> labelled (combine ts' ys') out' -> ts = ts' /\ ys = ys' /\ out = out'.
Proof.
  intros H H' F F' L L'. assert (ts = ts') as <- by (eapply times_unique; eassumption).
  assert (ys = ys') as <-.
  { clear - F F'. revert ys' F'. induction F; intros ys' F'; inversion F'; subst; [reflexivity|]. f_equal; [eapply yields_unique; eassumption|auto]. }
  split; [reflexivity|]. split; [reflexivity|]. eapply labelled_unique; eassumption.
Qed.
