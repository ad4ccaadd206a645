(** * Examples of lifetimes of datasets *)

Require Import Reals List Bool String Ascii Lia Arith Lra.
From Verif Require Import Base M_disp M_data Spec_data P_data M_life Spec_life P_life P_life2.
Import ListNotations.
Open Scope list_scope.
Open Scope R_scope.

Definition two (a b : R) : list num := [Some a; Some b].
(** four arrays and a dataset made of them; delta of the second point is 270 *)
Definition made (r : bool) (kwds : list (string * mask)) : list op :=
  [L_array (two 500 600); L_array (two 65 65); L_array (two 30 40); L_array (two 90 270);
   L_new (L_arrays 0 1 2 3) tab r kwds].
Definition further : list op :=
  [L_write 3 1 (Some 0); L_new (L_copy 0) tab false []; L_mask 1 (MBool [true; false]);
   L_new (L_arrays 0 1 2 3) tab true []; L_columns 1 []; L_save 0].

Lemma mask_keyword pf : let s := acts pf empty_life (made false [("mask"%string, MBool [true; false])]) in
  get_data (lf_heap s) (set_at s 0) = Ok (A1 (two 500 600), A1 (two 65 65), A1 (two 30 40), A1 (two 90 270)) /\
  map en_metadata (lf_sets s) = [[("mask"%string, MBool [true; false])]].
Proof. split; reflexivity. Qed.

Lemma half_assigned pf : let s := acts pf empty_life (made false []) in
  let three := [Some 1; Some 2; Some 3] in
  let o := L_columns 0 [Ok three; Ok three; Ok three] in
  fst (act pf s o) = Raise IndexError /\
  (exists pts, holds (lf_heap s) (set_at s 0) pts) /\
  let s1 := snd (act pf s o) in
  (forall pts, ~ holds (lf_heap s1) (set_at s1 0) pts) /\ get_data (lf_heap s1) (set_at s1 0) = Raise IndexError.
Proof.
  cbv zeta. split; [reflexivity|]. split.
  - exists [(Some 500, Some 65, Some 30, Some 90); (Some 600, Some 65, Some 40, Some 270)]. repeat split; reflexivity.
  - split; [|reflexivity]. intros pts (A & _ & _ & D). cbn in A, D. injection A as A. injection D as D.
    apply (f_equal (@List.length num)) in A. apply (f_equal (@List.length num)) in D. rewrite map_length in A, D. cbn in A, D. lia.
Qed.

Definition assign : op := L_columns 0 [Ok (two 400 450); Ok (two 70 70); Ok (two 10 20); Ok (two 80 200)].
Lemma own_example pf : let s := acts pf empty_life (made false []) in
  fst (act pf s assign) = Ok tt /\ own_columns s 0 assign /\
  Forall (fun o => ~ about 0 o /\ ~ folding_copy o) further /\
  get_data (lf_heap (snd (act pf s assign))) (set_at (snd (act pf s assign)) 0) =
    Ok (A1 (two 400 450), A1 (two 70 70), A1 (two 10 20), A1 (two 80 200)).
Proof.
  cbv zeta. split; [reflexivity|]. split; [reflexivity|]. split; [|reflexivity].
  unfold further. repeat (apply Forall_cons; [split; cbn [about folding_copy]; intros H; (discriminate H || contradiction)|]).
  apply Forall_nil.
Qed.

(** without the proviso: a folding copy of the dataset *)
Lemma folding_copy_spoils pf : let s := acts pf empty_life (made false []) in let s1 := snd (act pf s assign) in
  let s2 := acts pf s1 [L_new (L_copy 0) tab true []] in
  get_delta (lf_heap s1) (set_at s1 0) = Ok (A1 (two 80 200)) /\
  get_delta (lf_heap s2) (set_at s2 0) = Ok (A1 (two 80 160)).
Proof.
  cbv zeta. split; [reflexivity|].
  transitivity (Ok (A1 [fold_delta (Some 80); fold_delta (Some 200)])); [reflexivity|].
  unfold fold_delta, two. destruct Rlt_dec; [lra|]. destruct Rlt_dec; [|lra]. repeat f_equal. lra.
Qed.

Lemma table_example pf : equal_throughout pf empty_life
   (made true [] ++ [assign; L_load 0 (ByName []); L_mask 0 MNone; L_write 3 1 (Some 0); L_new (L_copy 0) tab false []]).
Proof.
  unfold made, assign. cbn [app].
  do 4 (split; [exact I|]). split.
  - intros w a p x W A P X. cbn in W, A, P, X. injection W as <-. injection A as <-. injection P as <-. injection X as <-. cbn. auto.
  - split; [do 5 eexists; split; [reflexivity|repeat split]|]. do 4 (split; [exact I|]). exact I.
Qed.
Lemma update_id {A} (l : list A) i (f : A -> A) : (forall x, nth_error l i = Some x -> f x = x) -> update l i f = l.
Proof.
  revert i. induction l as [|x l IH]; intros [|i] H; cbn; auto.
  - rewrite (H x eq_refl). reflexivity.
  - rewrite IH; auto.
Qed.
Theorem others_atomic pf s o e : (forall d cols, o <> L_columns d cols) ->
  fst (act pf s o) = Raise e -> snd (act pf s o) = s.
Proof.
  intros N R.
  assert (M : forall d, (forall y, fst (method pf (lf_heap s) y o) = Raise e -> snd (method pf (lf_heap s) y o) = (y, lf_heap s)) ->
    act pf s o = on_set s d (fun y => method pf (lf_heap s) y o) -> snd (act pf s o) = s).
  { intros d H E. rewrite E in R |- *. unfold on_set in *. destruct (nth_error (lf_sets s) d) as [x|] eqn:Ex; [|reflexivity].
    specialize (H (en_data x)). destruct (method pf (lf_heap s) (en_data x) o) as [r [d' h']]. cbn [fst snd] in *.
    specialize (H R). injection H as -> ->. rewrite update_id; [destruct s; reflexivity|].
    intros y Ey. rewrite Ex in Ey. injection Ey as <-. destruct x; reflexivity. }
  destruct o; try discriminate.
  - cbn [act] in *. destruct (nth_error (lf_user s) a); [|reflexivity]. destruct Nat.ltb; [discriminate|reflexivity].
  - cbn [act] in *. destruct source_of; [|reflexivity]. destruct new_dataset as [[? ?]|]; [discriminate|reflexivity].
  - apply (M d); [discriminate|reflexivity].
  - destruct (N d cols eq_refl).
  - apply (M d); [|reflexivity]. intros y. cbn [method]. destruct load as [x|]; [discriminate|reflexivity].
  - apply (M d); [|reflexivity]. intros y. cbn [method]. destruct refresh as [[x|] ?]; [discriminate|reflexivity].
  - apply (M d); [discriminate|reflexivity].
Qed.
Lemma load_fails pf : fst (act pf (acts pf empty_life (made false [])) (L_load 0 (ByName []))) = Raise ValueError.
Proof.
  change (act pf (acts pf empty_life (made false [])) (L_load 0 (ByName []))) with
    (on_set (acts pf empty_life (made false [])) 0
      (fun y => or_keep y (lf_heap (acts pf empty_life (made false []))) (load pf (lf_heap (acts pf empty_life (made false []))) y (ByName [])))).
  unfold on_set. destruct (nth_error (lf_sets (acts pf empty_life (made false []))) 0) as [x|] eqn:E; [|discriminate].
  unfold load. destruct (detect_header pf (ds_delim (en_data x)) 100 []) as [k r].
  unfold loadtxt. rewrite skipn_nil. reflexivity.
Qed.
