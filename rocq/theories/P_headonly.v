(** * Proofs: a Horiba file whose table has column names but no rows *)

Require Import Reals ZArith Lia List Bool String Ascii.
From Verif Require Import Base M_data Spec_data P_data P_struct M_ep4 Spec_ep4 P_ep4 P_ep4b M_instr Spec_instr P_instr P_instr2 P_instr3 P_instr4 Spec_accept P_accept.
Import ListNotations.
Open Scope list_scope.
Open Scope R_scope.

Lemma nonblank_filter raw contents : nonblank raw contents -> filter nonempty (map strip raw) = contents.
Proof.
  intros (all & F & T). rewrite (strip_map _ _ F). clear F raw. induction T as [|x l r N T IH|x l r N T IH]; [reflexivity| |].
  - cbn [filter]. destruct x as [|c x]; [exfalso; apply N; reflexivity|]. cbn [nonempty]. rewrite IH. reflexivity.
  - cbn [filter]. destruct x as [|c x]; [exact IH|]. exfalso. apply N. discriminate.
Qed.

Lemma read_rows pf j pre hd rest n names header contents xs :
  j = (List.length pre - 1)%nat -> (0 < List.length pre)%nat -> trimmed hd header -> header <> EmptyString ->
  nonblank rest contents -> fields " " header names -> NoDup names ->
  In "nm"%string names -> In "Psi"%string names -> In "Delta"%string names ->
  Forall2 (data_row pf names) (firstn n contents) xs ->
  read_horiba pf (j + 1) n (pre ++ hd :: rest) = Ok xs.
Proof.
  intros -> P Th Ne Nb Fh Nn I1 I2 I3 Fr. unfold read_horiba.
  replace (List.length pre - 1 + 1)%nat with (List.length pre) by lia.
  rewrite skipn_app, skipn_all, Nat.sub_diag. cbn [skipn app].
  cbn [map filter]. rewrite (strip_trimmed _ _ Th).
  destruct header as [|ch header]; [exfalso; apply Ne; reflexivity|]. cbn [nonempty].
  rewrite (nonblank_filter _ _ Nb). rewrite (split_fields _ _ _ Fh).
  destruct (In_nth_error _ _ I1) as (a & Ea). destruct (In_nth_error _ _ I2) as (b & Eb). destruct (In_nth_error _ _ I3) as (c & Ec).
  rewrite (index_first _ _ _ Nn Ea), (index_first _ _ _ Nn Eb), (index_first _ _ _ Nn Ec).
  apply (proj2 (mapR_Forall2 _ _ _)). eapply F2_impl; [|exact Fr].
  intros l x (fs & vs & Fl & Ll & Fv & (a' & Ha & Va) & (b' & Hb & Vb) & (c' & Hc & Vc)). cbn beta zeta.
  assert (forall n m name, nth_error names n = Some name -> nth_error names m = Some name -> n = m) as U.
  { intros n' m' name Hn Hm. apply (proj1 (NoDup_nth_error names) Nn); [|congruence]. apply nth_error_Some. congruence. }
  rewrite (U _ _ _ Ha Ea) in Va. rewrite (U _ _ _ Hb Eb) in Vb. rewrite (U _ _ _ Hc Ec) in Vc.
  rewrite (split_fields _ _ _ Fl), Ll, Nat.eqb_refl, (parse_ok _ _ _ Fv).
  f_equal. destruct x as ((x1, x2), x3). cbn [fst snd] in *.
  assert (forall n v, nth_error vs n = Some v -> nth n vs None = v) as V by (intros n' v Hn; apply nth_error_nth; exact Hn).
  exact (f_equal2 pair (f_equal2 pair (V _ _ Va) (V _ _ Vb)) (V _ _ Vc)).
Qed.

Lemma open_head_only pf lines secs ns refl lo hi header names angle a :
  horiba 0 lines secs ns -> NoDup (map sec_label secs) -> In (Section "DATA" [header] true) secs ->
  fields " " header names -> NoDup names ->
  In "nm"%string names -> In "Psi"%string names -> In "Delta"%string names ->
  In (Section "INCIDENCE ANGLE" [angle] true) secs -> pf (substring 0 5 angle) = Some a ->
  exists before hd after, lines = before ++ hd :: after /\ trimmed hd header /\ (0 < List.length before)%nat /\
    forall contents xs, nonblank after contents -> Forall2 (data_row pf names) (firstn (String.length header - 1) contents) xs ->
    exists x sel, open_HORIBAfile pf true lines refl lo hi = Ok (map (fun s => (sec_label s, filed s)) secs, x) /\
      those (fun r => between lo hi (fst (fst r))) xs sel /\
      stores x refl (map (fun r => (fst (fst r), a, snd (fst r), snd r)) sel).
Proof.
  intros H N I Fh Nn I1 I2 I3 Ia Pa. destruct (In_nth_error _ _ I) as (k & Ek).
  pose proof (horiba_counts _ _ _ _ H) as L.
  destruct (nth_error ns k) as [j|] eqn:Ej.
  2: { exfalso. apply nth_error_None in Ej. assert (k < List.length secs)%nat by (apply nth_error_Some; congruence). lia. }
  destruct (horiba_place _ _ _ _ H _ _ _ Ek Ej) as (pre & body & post & El & Ejj & P & F & Ne). cbn [sec_lines] in F, Ne.
  inversion F as [|hd h l l' Th F']; subst. inversion F'; subst. clear F F'.
  exists pre, hd, post. split; [reflexivity|]. split; [exact Th|]. split; [exact P|].
  intros contents xs Nb Fr.
  assert (header <> EmptyString) as Hne by (intros ->; apply Ne; left; reflexivity).
  unfold open_HORIBAfile. rewrite (loop_sections _ _ _ _ H [] []) by auto. cbn [app].
  rewrite (get_in "DATA" (List.length pre - 1)%nat).
  2: { rewrite combine_keys by (rewrite map_length; exact L). exact N. }
  2: { apply combine_nth_in with k; [rewrite nth_error_map, Ek; reflexivity|]. rewrite Ej. reflexivity. }
  cbn [rbind]. fold (md_of secs).
  rewrite (get_in "DATA" (ELine header)).
  2: { rewrite md_keys. exact N. }
  2: { unfold md_of. apply in_map_iff. eexists. split; [|exact I]. reflexivity. }
  cbn [rbind entry_len].
  assert (Nat.eqb (String.length header) 0 = false) as ->.
  { destruct header; [exfalso; apply Hne; reflexivity|reflexivity]. }
  cbn [negb].
  change (pre ++ [hd] ++ post) with (pre ++ hd :: post).
  rewrite (read_rows pf (List.length pre - 1)%nat pre hd post _ names header contents xs) by auto.
  cbn [rbind].
  rewrite (get_in "INCIDENCE ANGLE" (ELine angle)).
  2: { rewrite md_keys. exact N. }
  2: { unfold md_of. apply in_map_iff. eexists. split; [|exact Ia]. reflexivity. }
  cbn [rbind entry_float]. rewrite Pa. cbn [rbind]. cbv zeta. eexists _, _. split; [reflexivity|]. split; [apply filter_those|].
  unfold stores. cbn [ld_wav ld_aoi ld_psi ld_delta ld_reflect]. rewrite !map_map. repeat split; reflexivity.
Qed.

Definition ex_head : list string :=
  map nl ["# INCIDENCE ANGLE:"; "70.00 deg"; ""; "# DATA:"; "nm Psi Delta"; ""; "400 20 100"]%string.
Definition ex_head_secs : list section :=
  [Section "INCIDENCE ANGLE" ["70.00 deg"%string] true; Section "DATA" ["nm Psi Delta"%string] true].
Lemma ex_head_file : horiba 0 ex_head ex_head_secs [0; 3]%nat.
Proof.
  apply (horiba_section 0 (nl "# INCIDENCE ANGLE:") "INCIDENCE ANGLE" [nl "70.00 deg"] ["70.00 deg"%string] (nl "")); [ttl|trims|intros [H|[]]; discriminate|trim|].
  apply (horiba_section 3 (nl "# DATA:") "DATA" [nl "nm Psi Delta"] ["nm Psi Delta"%string] (nl "")); [ttl|trims|intros [H|[]]; discriminate|trim|].
  apply horiba_junk with "400 20 100"%string; [trim|intros s E; discriminate|]. constructor.
Qed.
Lemma ex_head_reads : exists x, open_HORIBAfile ex_pf true ex_head false None None = Ok x /\
  stores (snd x) false [(Some 400, Some 70, Some 20, Some 100)].
Proof.
  destruct ex_horiba_rows as (_ & Fh & Fr & Pa).
  destruct (open_head_only ex_pf ex_head ex_head_secs _ false None None "nm Psi Delta" ["nm"; "Psi"; "Delta"]%string "70.00 deg" (Some 70) ex_head_file)
    as (b & hd & af & El & Th & _ & G); auto.
  - repeat constructor; simpl; intros H; decompose [or] H; auto; discriminate.
  - simpl; auto.
  - repeat constructor; simpl; intros H; decompose [or] H; auto; discriminate.
  - simpl; auto.
  - simpl; auto.
  - simpl; auto.
  - simpl; auto.
  - assert (nonblank af ["400 20 100"%string]) as Nb.
    { assert (forall u v t, ex_head = u ++ t :: v -> strip t = "nm Psi Delta"%string -> v = map nl [""; "400 20 100"]%string) as K.
      { intros u v t Eu Et. unfold ex_head in Eu. cbn [map] in Eu.
        destruct u as [|u1 [|u2 [|u3 [|u4 [|u5 [|u6 [|u7 [|u8 u]]]]]]]]; cbn [app] in Eu; inversion Eu; subst; try discriminate; reflexivity. }
      pose proof (K _ _ _ El (strip_trimmed _ _ Th)) as ->. exists [""; "400 20 100"]%string. split.
      - trims.
      - apply those_no; [intros E; apply E; reflexivity|]. apply those_yes; [discriminate|]. constructor. }
    destruct (G _ [(Some 400, Some 20, Some 100)] Nb) as (x & sel & Ex & T & S).
    + cbn [String.length Nat.sub firstn]. inversion Fr; subst. constructor; [assumption|constructor].
    + eexists. split; [exact Ex|]. cbn [snd].
      inversion T as [|? ? ? Px T'|? ? ? Px T']; subst.
      * inversion T'; subst. exact S.
      * exfalso. apply Px. exists 400. repeat split.
Qed.
Lemma ex_head_invents : exists pf lines secs ns x pt,
  horiba 0 lines secs ns /\ NoDup (map sec_label secs) /\ In (Section "DATA" ["nm Psi Delta"%string] true) secs /\
  open_HORIBAfile pf true lines false None None = Ok x /\ stores (snd x) false [pt].
Proof.
  destruct ex_head_reads as (x & Ex & S). exists ex_pf, ex_head, ex_head_secs, [0; 3]%nat, x, (Some 400, Some 70, Some 20, Some 100).
  split; [exact ex_head_file|]. split; [repeat constructor; simpl; intros H; decompose [or] H; auto; discriminate|].
  split; [simpl; auto|]. split; assumption.
Qed.

(** mask None: an extra axis, but the same number of points *)
Lemma none_mask_len h d pts : holds h d pts -> ds_mask d = MNone -> ds_len h d = Ok (List.length pts).
Proof.
  intros (H1 & _) Hm. unfold ds_len, get_wavelength. rewrite Hm, (arr_nth _ _ _ H1).
  destruct pts as [|x pts]; [reflexivity|]. cbn [map masked rmap np_size List.concat].
  rewrite app_nil_r. cbn [List.length]. rewrite map_length. reflexivity.
Qed.
