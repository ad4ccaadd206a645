(** * Lemmas: nested sequences *)

Require Import Reals List String.
From Verif Require Import Base M_ema M_disp Spec_disp P_disp Spec_nested.
Import ListNotations.
Open Scope list_scope.

Lemma elements_flatten a xs : elements a xs -> flatten a = xs.
Proof.
  induction 1 as [x| |a l xs ys H1 IH1 H2 IH2]; [reflexivity|reflexivity|].
  cbn [flatten flat_map] in *. rewrite IH1, IH2. reflexivity.
Qed.

Fixpoint size (a : pyarg) : nat := match a with Num _ => 1%nat | Seq l => S (fold_right (fun b n => size b + n)%nat 0%nat l) end.

Lemma flatten_elements_n n : forall a, (size a <= n)%nat -> elements a (flatten a).
Proof.
  induction n as [|n IH]; intros [x|l] H; [constructor|cbn in H; inversion H|constructor|].
  cbn [size] in H. apply le_S_n in H. induction l as [|b l IHl]; [constructor|].
  cbn [fold_right] in H. change (flatten (Seq (b :: l))) with (flatten b ++ flatten (Seq l))%list. constructor.
  - apply IH. eapply Nat.le_trans; [apply Nat.le_add_r|exact H].
  - apply IHl. eapply Nat.le_trans; [|exact H]. rewrite Nat.add_comm. apply Nat.le_add_r.
Qed.
Lemma flatten_elements a : elements a (flatten a).
Proof. exact (flatten_elements_n _ a (le_n _)). Qed.

Theorem elements_one a : exists xs, elements a xs /\ forall ys, elements a ys -> ys = xs.
Proof. exists (flatten a). split; [apply flatten_elements|]. intros ys H. symmetry. apply elements_flatten; auto. Qed.

Theorem nested_lengths a b c xa xb xc : elements a xa -> elements b xb -> elements c xc ->
  (~ (List.length xa = List.length xb /\ List.length xb = List.length xc) ->
   (forall Einf wl nm, Lorentz a b c Einf wl nm = Raise ValueError) /\
   (forall h Einf wl nm, Gauss h a b c Einf wl nm = Raise ValueError) /\
   (forall Eg Einf wl nm, TaucLorentz a b c Eg Einf wl nm = Raise ValueError)) /\
  (List.length xa = List.length xb /\ List.length xb = List.length xc ->
   exists os, map osc_A os = xa /\ map osc_B os = xb /\ map osc_E os = xc /\
   (forall Einf wl nm, Lorentz a b c Einf wl nm = Ok (Scatterer (K_Lorentz os Einf) wl nm)) /\
   (forall h Einf wl nm, Gauss h a b c Einf wl nm = Ok (Scatterer (K_Gauss h os Einf) wl nm)) /\
   (forall Eg Einf wl nm, TaucLorentz a b c Eg Einf wl nm = Ok (Scatterer (K_TaucLorentz os Eg Einf) wl nm))).
Proof.
  intros A B D. apply elements_flatten in A. apply elements_flatten in B. apply elements_flatten in D.
  subst. apply osc_lengths.
Qed.
