(** * Proofs: what statements on datasets change *)

Require Import Reals List Bool String Ascii Lia Arith.
From Verif Require Import Base M_disp M_data Spec_data M_life Spec_life P_data P_life P_life2 Spec_effect2.
Import ListNotations.
Open Scope list_scope.

Lemma usable_exists cols : exists k, usable cols k.
Proof.
  assert (H : forall i, (exists c, nth_error cols i = Some (Ok c)) \/ (nth_error cols i = None \/ exists e, nth_error cols i = Some (Raise e))).
  { intros i. destruct (nth_error cols i) as [[c|e]|]; eauto. }
  unfold usable.
  destruct (H 0%nat) as [H0|H0]; [|exists 0%nat; split; [lia|]; split; [intros; lia|auto]].
  destruct (H 1%nat) as [H1|H1]; [|exists 1%nat; split; [lia|]; split; [intros i Hi; replace i with 0%nat by lia; auto|auto]].
  destruct (H 2%nat) as [H2|H2]; [|exists 2%nat; split; [lia|]; split; [intros i Hi; assert (i = 0 \/ i = 1)%nat as [->| ->] by lia; auto|auto]].
  destruct (H 3%nat) as [H3|H3]; [|exists 3%nat; split; [lia|]; split; [intros i Hi; assert (i = 0 \/ i = 1 \/ i = 2)%nat as [->|[->| ->]] by lia; auto|auto]].
  exists 4%nat. split; [lia|]. split; [|auto].
  intros i Hi. assert (i = 0 \/ i = 1 \/ i = 2 \/ i = 3)%nat as [->|[->|[->| ->]]] by lia; auto.
Qed.

Lemma column_ok cols i c : nth_error cols i = Some (Ok c) -> column cols i = Ok c.
Proof. intros H. unfold column. rewrite H. reflexivity. Qed.
Lemma column_bad cols k : (nth_error cols k = None \/ exists e, nth_error cols k = Some (Raise e)) ->
  exists e, column cols k = Raise e /\ (nth_error cols k = None -> e = IndexError) /\ (forall e', nth_error cols k = Some (Raise e') -> e = e').
Proof.
  intros [H|[e H]]; unfold column; rewrite H; eexists; (split; [reflexivity|]); split; intros; congruence.
Qed.

(** the tuple setter alone *)
Lemma arr_last2 h l t : arr ((h ++ [l]) ++ t) (List.length h) = l.
Proof. rewrite <- app_assoc. unfold arr. rewrite app_nth2, Nat.sub_diag by lia. reflexivity. Qed.
Lemma tuple_effect h d cols k : within h d -> usable cols k ->
  let r := set_data_tuple h d cols in let d' := fst (snd r) in let h' := snd (snd r) in
  (k = 4%nat -> fst r = Ok tt /\ ds_mask d' = MBool (map (fun _ => true) (arr h' (ds_wav d')))) /\
  (k <> 4%nat -> ds_mask d' = ds_mask d /\
     (nth_error cols k = None -> fst r = Raise IndexError) /\ (forall e, nth_error cols k = Some (Raise e) -> fst r = Raise e)) /\
  same_rest d d' /\ keeps h h' /\
  (forall i c, (i < k)%nat -> nth_error cols i = Some (Ok c) -> arr h' (address d' i) = c) /\
  (forall i, (k <= i < 4)%nat -> arr h' (address d' i) = arr h (address d i)).
Proof.
  intros (V0 & V1 & V2 & V3) (K4 & G & B).
  assert (Q : forall i, (i < 4)%nat -> (i < k)%nat \/ i = k \/ (k < i)%nat) by (intros; lia).
  assert (B' : k <> 4%nat -> exists e, column cols k = Raise e /\ (nth_error cols k = None -> e = IndexError) /\ (forall e', nth_error cols k = Some (Raise e') -> e = e')).
  { intros N. apply column_bad. destruct B as [B|B]; [contradiction|exact B]. }
  unfold valid in *.
  assert (K : (k = 0 \/ k = 1 \/ k = 2 \/ k = 3 \/ k = 4)%nat) by lia.
  destruct K as [->|[->|[->|[->| ->]]]].
  - destruct (B' ltac:(lia)) as (e & E & B1 & B2). unfold set_data_tuple. rewrite E. cbn [fst snd].
    split; [lia|]. split.
    { intros _. split; [reflexivity|]. split; [intros Z; rewrite (B1 Z); reflexivity|intros e' Z; rewrite (B2 e' Z); reflexivity]. }
    split; [repeat split|]. split; [intros x Hx; reflexivity|]. split; [intros; lia|]. intros i Hi. reflexivity.
  - destruct (G 0%nat ltac:(lia)) as (w & W). pose proof (column_ok _ _ _ W) as CW.
    destruct (B' ltac:(lia)) as (e & E & B1 & B2). unfold set_data_tuple. rewrite CW. cbn [alloc]. rewrite E. cbn [fst snd].
    split; [lia|]. split.
    { intros _. split; [reflexivity|]. split; [intros Z; rewrite (B1 Z); reflexivity|intros e' Z; rewrite (B2 e' Z); reflexivity]. }
    split; [repeat split|]. split; [intros x Hx; apply arr_app; exact Hx|]. split.
    + intros i c Hi Hc. replace i with 0%nat in * by lia. assert (c = w) by congruence. subst c. cbn. apply arr_last.
    + intros i Hi. assert (i = 1 \/ i = 2 \/ i = 3)%nat as [->|[->| ->]] by lia; cbn; apply arr_app; auto.
  - destruct (G 0%nat ltac:(lia)) as (w & W). pose proof (column_ok _ _ _ W) as CW.
    destruct (G 1%nat ltac:(lia)) as (a & A). pose proof (column_ok _ _ _ A) as CA.
    destruct (B' ltac:(lia)) as (e & E & B1 & B2). unfold set_data_tuple. rewrite CW. cbn [alloc]. rewrite CA. cbn [alloc]. rewrite E. cbn [fst snd].
    split; [lia|]. split.
    { intros _. split; [reflexivity|]. split; [intros Z; rewrite (B1 Z); reflexivity|intros e' Z; rewrite (B2 e' Z); reflexivity]. }
    split; [repeat split|]. split; [intros x Hx; unfold valid in *; rewrite !arr_app by (unfold valid; rewrite ?app_length; cbn; lia); reflexivity|]. split.
    + intros i c Hi Hc. assert (i = 0 \/ i = 1)%nat as [->| ->] by lia; cbn.
      * assert (c = w) by congruence. subst c. apply arr_last2.
      * assert (c = a) by congruence. subst c. apply arr_last.
    + intros i Hi. assert (i = 2 \/ i = 3)%nat as [->| ->] by lia; cbn; rewrite !arr_app by (unfold valid; rewrite ?app_length; cbn; lia); auto.
  - destruct (G 0%nat ltac:(lia)) as (w & W). pose proof (column_ok _ _ _ W) as CW.
    destruct (G 1%nat ltac:(lia)) as (a & A). pose proof (column_ok _ _ _ A) as CA.
    destruct (G 2%nat ltac:(lia)) as (p & P). pose proof (column_ok _ _ _ P) as CP.
    destruct (B' ltac:(lia)) as (e & E & B1 & B2). unfold set_data_tuple. rewrite CW. cbn [alloc]. rewrite CA. cbn [alloc]. rewrite CP. cbn [alloc]. rewrite E. cbn [fst snd].
    split; [lia|]. split.
    { intros _. split; [reflexivity|]. split; [intros Z; rewrite (B1 Z); reflexivity|intros e' Z; rewrite (B2 e' Z); reflexivity]. }
    split; [repeat split|]. split; [intros x Hx; unfold valid in *; rewrite !arr_app by (unfold valid; rewrite ?app_length; cbn; lia); reflexivity|]. split.
    + intros i c Hi Hc. assert (i = 0 \/ i = 1 \/ i = 2)%nat as [->|[->| ->]] by lia; cbn.
      * assert (c = w) by congruence. subst c. rewrite <- app_assoc. apply arr_last2.
      * assert (c = a) by congruence. subst c. apply arr_last2.
      * assert (c = p) by congruence. subst c. apply arr_last.
    + intros i Hi. replace i with 3%nat by lia. cbn. rewrite !arr_app by (unfold valid; rewrite ?app_length; cbn; lia); auto.
  - destruct (G 0%nat ltac:(lia)) as (w & W). pose proof (column_ok _ _ _ W) as CW.
    destruct (G 1%nat ltac:(lia)) as (a & A). pose proof (column_ok _ _ _ A) as CA.
    destruct (G 2%nat ltac:(lia)) as (p & P). pose proof (column_ok _ _ _ P) as CP.
    destruct (G 3%nat ltac:(lia)) as (x & X). pose proof (column_ok _ _ _ X) as CX.
    unfold set_data_tuple. rewrite CW. cbn [alloc]. rewrite CA. cbn [alloc]. rewrite CP. cbn [alloc]. rewrite CX. cbn [fst snd alloc].
    assert (Z0 : arr ((((h ++ [w]) ++ [a]) ++ [p]) ++ [x]) (List.length h) = w) by (rewrite <- !(app_assoc (h ++ [w])); apply arr_last2).
    split.
    { intros _. split; [reflexivity|]. cbn [remask readdress ds_mask ds_wav]. rewrite Z0. reflexivity. }
    split; [lia|]. split; [repeat split|]. split; [intros y Hy; unfold valid in *; rewrite !arr_app by (unfold valid; rewrite ?app_length; cbn; lia); reflexivity|]. split.
    + intros i c Hi Hc. assert (i = 0 \/ i = 1 \/ i = 2 \/ i = 3)%nat as [->|[->|[->| ->]]] by lia; cbn [address nth remask readdress ds_wav ds_aoi ds_psi ds_delta].
      * assert (c = w) by congruence. subst c. exact Z0.
      * assert (c = a) by congruence. subst c. rewrite <- app_assoc. apply arr_last2.
      * assert (c = p) by congruence. subst c. apply arr_last2.
      * assert (c = x) by congruence. subst c. apply arr_last.
    + intros i Hi. lia.
Qed.

Lemma address_valid h d i : within h d -> valid h (address d i).
Proof. intros (A & B & C & D). unfold address. do 4 (destruct i as [|i]; [auto|]). destruct i; auto. Qed.
Lemma placed_within s j e : placed s -> nth_error (lf_sets s) j = Some e -> within (lf_heap s) (en_data e).
Proof. intros [_ F] H. eapply Forall_forall in F; [|eapply nth_error_In; exact H]. exact F. Qed.

Theorem assigns pf l d e cols k : let s := acts pf empty_life l in nth_error (lf_sets s) d = Some e -> usable cols k ->
  let r := act pf s (L_columns d cols) in let s' := snd r in
  (k = 4%nat -> fst r = Ok tt) /\
  (k <> 4%nat -> (nth_error cols k = None -> fst r = Raise IndexError) /\ forall x, nth_error cols k = Some (Raise x) -> fst r = Raise x) /\
  others_same d s s' /\
  exists e', nth_error (lf_sets s') d = Some e' /\ same_flags e e' /\
    (forall i c, (i < k)%nat -> nth_error cols i = Some (Ok c) -> column_of s' e' i = c) /\
    (forall i, (k <= i < 4)%nat -> column_of s' e' i = column_of s e i) /\
    (k <> 4%nat -> ds_mask (en_data e') = ds_mask (en_data e)) /\
    (k = 4%nat -> ds_mask (en_data e') = MBool (map (fun _ => true) (column_of s' e' 0))).
Proof.
  intros s HE U r s'. assert (PL : placed s) by (apply placed_acts, placed_empty).
  pose proof (placed_within _ _ _ PL HE) as WI.
  pose proof (tuple_effect (lf_heap s) (en_data e) cols k WI U) as (T1 & T2 & T3 & T4 & T5 & T6).
  unfold s', r, act, on_set in *. rewrite HE in *. set (q := set_data_tuple (lf_heap s) (en_data e) cols) in *. destruct q as [o [d' h']]. cbn [fst snd lf_sets lf_heap] in *.
  split; [intros K; apply (T1 K)|]. split; [intros K; apply (T2 K)|]. split.
  - split; [apply update_length|]. intros j e0 N H0. cbn [lf_sets]. split; [rewrite nth_error_update_ne; auto|].
    intros i. unfold column_of. cbn [lf_heap]. apply T4. apply address_valid. eapply placed_within; eauto.
  - exists (put_data e d'). split; [rewrite nth_error_update, HE; reflexivity|].
    split; [destruct T3 as (X1 & X2 & X3 & X4); repeat split; assumption|].
    unfold column_of. cbn [lf_heap put_data en_data]. split; [exact T5|]. split; [exact T6|].
    split; [intros K; apply (T2 K)|]. intros K. apply (T1 K).
Qed.

Theorem masks pf s d e m : nth_error (lf_sets s) d = Some e ->
  let r := act pf s (L_mask d m) in let s' := snd r in
  fst r = Ok tt /\ others_same d s s' /\
  exists e', nth_error (lf_sets s') d = Some e' /\ same_flags e e' /\ ds_mask (en_data e') = m /\
    forall i, column_of s' e' i = column_of s e i.
Proof.
  intros HE. cbv zeta. unfold act, on_set. rewrite HE. cbn [fst snd lf_sets]. split; [reflexivity|]. split.
  - split; [apply update_length|]. intros j e0 N H0. cbn [lf_sets]. split; [rewrite nth_error_update_ne; auto|reflexivity].
  - eexists. split; [rewrite nth_error_update, HE; reflexivity|]. repeat split.
Qed.

(** a dataset made from another one: metadata are taken over, the columns are the same arrays *)
Theorem copies pf s j e delim r kwds : nth_error (lf_sets s) j = Some e ->
  let q := act pf s (L_new (L_copy j) delim r kwds) in let s' := snd q in
  fst q = Ok tt /\ exists e', lf_sets s' = lf_sets s ++ [e'] /\ en_metadata e' = en_metadata e /\
    (forall i, address (en_data e') i = address (en_data e) i) /\ ds_file (en_data e') = ds_file (en_data e) /\
    ds_flipped (en_data e') = r /\ ds_delim (en_data e') = delim.
Proof.
  intros HE. cbv zeta. unfold act. cbn [source_of metadata_of]. rewrite HE. cbn [option_map new_dataset take_source rbind fst snd lf_sets].
  split; [reflexivity|]. eexists. split; [reflexivity|]. cbn. repeat split.
Qed.

(** a dataset made from arrays uses them: writing to one of them changes the dataset *)
Theorem shares pf l w a p x delim kwds aw aa ap ax i v : let s := acts pf empty_life l in
  nth_error (lf_user s) w = Some aw -> nth_error (lf_user s) a = Some aa ->
  nth_error (lf_user s) p = Some ap -> nth_error (lf_user s) x = Some ax ->
  (i < List.length (arr (lf_heap s) ap))%nat ->
  let s1 := snd (act pf s (L_new (L_arrays w a p x) delim false kwds)) in
  let s2 := snd (act pf s1 (L_write p i v)) in
  exists e, lf_sets s1 = lf_sets s ++ [e] /\ lf_sets s2 = lf_sets s1 /\ en_metadata e = kwds /\
    (forall k, column_of s1 e k = arr (lf_heap s) (nth k [aw; aa; ap; ax] aw)) /\
    nth_error (column_of s2 e 2) i = Some v /\
    (forall j, j <> i -> nth_error (column_of s2 e 2) j = nth_error (column_of s1 e 2) j).
Proof.
  intros s H1 H2 H3 H4 HI s1 s2. assert (PL : placed s) by (apply placed_acts, placed_empty).
  assert (VP : valid (lf_heap s) ap) by (destruct PL as [F _]; eapply Forall_forall in F; [exact F|eapply nth_error_In; eauto]).
  unfold s2, s1, act. cbn [source_of metadata_of]. rewrite H1, H2, H3, H4. cbn [new_dataset take_source rbind snd lf_sets lf_user lf_heap].
  rewrite H3. assert (L : Nat.ltb i (List.length (arr (lf_heap s) ap)) = true) by (apply Nat.ltb_lt; exact HI).
  rewrite L. cbn [snd lf_sets lf_heap]. eexists. split; [reflexivity|]. split; [reflexivity|]. split; [reflexivity|].
  split; [intros k; unfold column_of, address; cbn [lf_heap en_data ds_wav ds_aoi ds_psi ds_delta]; reflexivity|].
  unfold column_of, address. cbn [lf_heap en_data ds_wav ds_aoi ds_psi ds_delta nth].
  assert (U : arr (update (lf_heap s) ap (fun c => update c i (fun _ => v))) ap = update (arr (lf_heap s) ap) i (fun _ => v)).
  { rewrite arr_update, Nat.eqb_refl. assert (E : Nat.ltb ap (List.length (lf_heap s)) = true) by (apply Nat.ltb_lt; exact VP). rewrite E. reflexivity. }
  rewrite U. split.
  - rewrite nth_error_update. destruct (nth_error (arr (lf_heap s) ap) i) eqn:E; [reflexivity|]. apply nth_error_None in E. lia.
  - intros j N. apply nth_error_update_ne. auto.
Qed.
