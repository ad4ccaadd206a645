(** * Copies of a dataset follow its file *)

Require Import Reals List Bool String Ascii Lia.
From Verif Require Import Base M_disp M_data Spec_data P_data.
Import ListNotations.
Open Scope list_scope.
Open Scope R_scope.

Definition stored (h : heap) (d : dataset) := (arr h (ds_wav d), arr h (ds_aoi d), arr h (ds_psi d), arr h (ds_delta d)).

Lemma set_columns_stored h d w a p x m d1 h1 : set_columns h d w a p x m = (d1, h1) -> stored h1 d1 = (w, a, p, x).
Proof.
  unfold set_columns, alloc. intros E. injection E as <- <-. unfold stored, arr. cbn [ds_wav ds_aoi ds_psi ds_delta].
  f_equal; [f_equal; [f_equal|]|]; repeat (rewrite app_nth1 by (rewrite ?app_length; simpl; lia)); rewrite app_nth2 by (rewrite ?app_length; simpl; lia);
    match goal with |- nth ?k _ _ = _ => replace k with 0%nat by (rewrite ?app_length; simpl; lia) end; reflexivity.
Qed.

Lemma copy_refreshes pf h d refl d' h' content : new_dataset pf h (ds_delim d) (FromDataSE d) refl = Ok (d', h') -> ds_file d <> None ->
  (forall e, fst (refresh pf OpenRead h' d' content) = Raise e <-> fst (refresh pf OpenRead h' d content) = Raise e) /\
  (forall d1 h1 d2 h2, fst (refresh pf OpenRead h' d' content) = Ok (d1, h1) -> fst (refresh pf OpenRead h' d content) = Ok (d2, h2) ->
     stored h1 d1 = stored h2 d2).
Proof.
  intros N F. unfold new_dataset in N. cbn [take_source rbind] in N. injection N as <- <-.
  unfold refresh. cbn [ds_file]. destruct (ds_file d) as [name|]; [|congruence]. cbn [fst]. unfold load. cbn [ds_delim ds_mask].
  destruct (detect_header pf (ds_delim d) 100 content) as [skip rest].
  destruct (loadtxt pf (ds_delim d) skip rest) as [rows|e0]; cbn [rbind]; [|split; [tauto|discriminate]].
  destruct (unpack4 rows) as [[[[w a] p] x]|e0]; cbn [rbind]; [|split; [tauto|discriminate]].
  split; [intros e; split; discriminate|]. intros d1 h1 d2 h2 E1 E2.
  apply (f_equal (fun r => match r with Ok v => v | _ => (d1, h1) end)) in E1. apply (f_equal (fun r => match r with Ok v => v | _ => (d2, h2) end)) in E2.
  rewrite (set_columns_stored _ _ _ _ _ _ _ _ _ E1), (set_columns_stored _ _ _ _ _ _ _ _ _ E2). reflexivity.
Qed.

Lemma copy_example : exists pf h d d' h' content r, new_dataset pf h (ds_delim d) (FromDataSE d) false = Ok (d', h') /\ ds_file d <> None /\
  fst (refresh pf OpenRead h' d content) = Ok r.
Proof.
  destruct refresh_unfolds as (pf & name & content & d & h & d2 & h2 & _ & _ & G & E & _ & _ & G2).
  exists pf, h, d. do 2 eexists. exists content, (d2, h2). split; [reflexivity|]. split.
  - intros F. unfold refresh in E. rewrite F in E. injection E as <- <-. rewrite G in G2. discriminate.
  - exact (f_equal fst E).
Qed.
