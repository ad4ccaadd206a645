(** * Continuity of the reflection amplitudes in the layer thicknesses *)

Require Import Reals.
From Coquelicot Require Import Rcomplements Complex.
Require Import List Bool Arith ZArith Lra Lia Psatz.
From Verif Require Import Base Cplx M_tmm Spec_optics P_tmm P_tmm2 P_tmm3 P_tmm4.
Import ListNotations.
Open Scope R_scope.
Open Scope C_scope.

Definition ccont (f : R -> C) (x : R) : Prop :=
  continuity_pt (fun y => Re (f y)) x /\ continuity_pt (fun y => Im (f y)) x.

Lemma cp_ext (f g : R -> R) x : (forall y, f y = g y) -> continuity_pt f x -> continuity_pt g x.
Proof.
  intros H K eps He. destruct (K eps He) as (al & Ha & L). exists al. split; [exact Ha|].
  intros y Hy. rewrite <- !H. apply L. exact Hy.
Qed.

Lemma ccont_ext f g x : (forall y, f y = g y) -> ccont f x -> ccont g x.
Proof. intros H [A B]. split; [eapply cp_ext; [|exact A]|eapply cp_ext; [|exact B]]; intros; simpl; rewrite H; auto. Qed.

Lemma ccont_const c x : ccont (fun _ => c) x.
Proof. split; apply continuity_pt_const; intros ? ?; reflexivity. Qed.

Lemma ccont_plus (f g : R -> C) x : ccont f x -> ccont g x -> ccont (fun y => f y + g y) x.
Proof.
  intros [A B] [A' B']. split.
  - eapply cp_ext; [|apply (continuity_pt_plus _ _ _ A A')]. reflexivity.
  - eapply cp_ext; [|apply (continuity_pt_plus _ _ _ B B')]. reflexivity.
Qed.

Lemma ccont_opp (f : R -> C) x : ccont f x -> ccont (fun y => - f y) x.
Proof.
  intros [A B]. split.
  - eapply cp_ext; [|apply (continuity_pt_opp _ _ A)]. reflexivity.
  - eapply cp_ext; [|apply (continuity_pt_opp _ _ B)]. reflexivity.
Qed.

Lemma ccont_mult (f g : R -> C) x : ccont f x -> ccont g x -> ccont (fun y => f y * g y) x.
Proof.
  intros [A B] [A' B']. split.
  - eapply cp_ext; [|apply (continuity_pt_minus _ _ _ (continuity_pt_mult _ _ _ A A') (continuity_pt_mult _ _ _ B B'))].
    reflexivity.
  - eapply cp_ext; [|apply (continuity_pt_plus _ _ _ (continuity_pt_mult _ _ _ A B') (continuity_pt_mult _ _ _ B A'))].
    reflexivity.
Qed.

Lemma Cmod2_nz (z : C) : z <> 0 -> (Re z * Re z + Im z * Im z <> 0)%R.
Proof.
  intros H E. apply H. pose proof (Rle_0_sqr (Re z)) as A. pose proof (Rle_0_sqr (Im z)) as B. unfold Rsqr in *.
  apply C_eq; cbn [RtoC Re Im fst snd]; apply Rmult_integral_contrapositive_currified || idtac; nra.
Qed.

Lemma ccont_inv (f : R -> C) x : f x <> 0 -> ccont f x -> ccont (fun y => / f y) x.
Proof.
  intros H [A B].
  assert (N : continuity_pt (fun y => (Re (f y) * Re (f y) + Im (f y) * Im (f y))%R) x).
  { apply continuity_pt_plus; apply continuity_pt_mult; auto. }
  pose proof (Cmod2_nz _ H) as NZ. split.
  - eapply cp_ext; [|apply (continuity_pt_div _ _ _ A N NZ)].
    intros y. unfold Cinv, div_fct, Re, Im. cbn [fst snd]. f_equal. ring.
  - eapply cp_ext; [|apply (continuity_pt_div _ _ _ (continuity_pt_opp _ _ B) N NZ)].
    intros y. unfold Cinv, div_fct, opp_fct, Re, Im. cbn [fst snd]. f_equal. ring.
Qed.

Lemma ccont_div (f g : R -> C) x : g x <> 0 -> ccont f x -> ccont g x -> ccont (fun y => f y / g y) x.
Proof. intros H A B. apply (ccont_mult f (fun y => / g y)); auto. apply ccont_inv; auto. Qed.

Lemma ccont_RtoC f x : continuity_pt f x -> ccont (fun y => RtoC (f y)) x.
Proof. intros H. split; [exact H|apply continuity_pt_const; intros ? ?; reflexivity]. Qed.

Lemma ccont_cexp f x : ccont f x -> ccont (fun y => cexp (f y)) x.
Proof.
  intros [A B].
  assert (E : continuity_pt (fun y => exp (Re (f y))) x).
  { apply (continuity_pt_comp _ exp _ A). apply derivable_continuous_pt, derivable_pt_exp. }
  assert (CO : continuity_pt (fun y => cos (Im (f y))) x).
  { apply (continuity_pt_comp _ cos _ B). apply continuity_cos. }
  assert (SI : continuity_pt (fun y => sin (Im (f y))) x).
  { apply (continuity_pt_comp _ sin _ B). apply continuity_sin. }
  split.
  - eapply cp_ext; [|apply (continuity_pt_mult _ _ _ E CO)]. reflexivity.
  - eapply cp_ext; [|apply (continuity_pt_mult _ _ _ E SI)]. reflexivity.
Qed.

Lemma cp_Rmin_const f x c : continuity_pt f x -> continuity_pt (fun y => Rmin (f y) c) x.
Proof.
  intros H.
  apply cp_ext with (fun y => (/ 2 * (f y + c - Rabs (f y - c)))%R).
  - intros y. unfold Rmin, Rabs. destruct (Rcase_abs (f y - c)), (Rle_dec (f y) c); lra.
  - apply continuity_pt_mult; [apply continuity_pt_const; intros ? ?; reflexivity|].
    apply continuity_pt_minus.
    + apply continuity_pt_plus; auto. apply continuity_pt_const; intros ? ?; reflexivity.
    + apply (continuity_pt_comp (fun y => (f y - c)%R) Rabs).
      * apply continuity_pt_minus; auto. apply continuity_pt_const; intros ? ?; reflexivity.
      * apply Rcontinuity_abs.
Qed.

Lemma ccont_clip f x : ccont f x -> ccont (fun y => clip35 (f y)) x.
Proof. intros [A B]. split; [exact A|]. apply cp_Rmin_const. exact B. Qed.

Lemma ccont_nz (f : R -> C) x : ccont f x -> f x <> 0 -> exists eta, (0 < eta)%R /\
  forall y, (Rabs (y - x) < eta)%R -> f y <> 0.
Proof.
  intros [A B] NZ.
  assert (N : continuity_pt (fun y => (Re (f y) * Re (f y) + Im (f y) * Im (f y))%R) x).
  { apply continuity_pt_plus; apply continuity_pt_mult; auto. }
  pose proof (Cmod2_nz _ NZ) as NZ2.
  destruct (continuous_neq_0 _ x N NZ2) as [eps HE].
  exists eps. split; [apply cond_pos|]. intros y Hy E. apply (HE (y - x)%R Hy).
  replace (x + (y - x))%R with y by ring. rewrite E. simpl. ring.
Qed.

(** ** matrices *)
Definition mcont (M : R -> mat) (x : R) : Prop :=
  ccont (fun y => m00 (M y)) x /\ ccont (fun y => m01 (M y)) x /\
  ccont (fun y => m10 (M y)) x /\ ccont (fun y => m11 (M y)) x.

Lemma mcont_const M x : mcont (fun _ => M) x.
Proof. repeat split; apply ccont_const. Qed.

Lemma mcont_mul M N x : mcont M x -> mcont N x -> mcont (fun y => mmul (M y) (N y)) x.
Proof.
  intros (A0 & A1 & A2 & A3) (B0 & B1 & B2 & B3).
  assert (E : forall y, mmul (M y) (N y) =
    (m00 (M y) * m00 (N y) + m01 (M y) * m10 (N y), m00 (M y) * m01 (N y) + m01 (M y) * m11 (N y),
     m10 (M y) * m00 (N y) + m11 (M y) * m10 (N y), m10 (M y) * m01 (N y) + m11 (M y) * m11 (N y))).
  { intros y. destruct (M y) as [[[? ?] ?] ?], (N y) as [[[? ?] ?] ?]. reflexivity. }
  split; [|split; [|split]]; (eapply ccont_ext; [intros y; rewrite E; cbn [m00 m01 m10 m11]; reflexivity|]);
    apply ccont_plus; apply ccont_mult; auto.
Qed.

(** a stack with thicknesses depending on a parameter: index, cosine, phase *)
Definition family := list (C * C * (R -> C)).
Definition at_ (F : family) (y : R) : list medium :=
  map (fun x => mkMedium (fst (fst x)) (snd (fst x)) (snd x y)) F.

Lemma tm_cont p F x : Forall (fun l => ccont (snd l) x) F -> forall i c ph,
  ccont ph x ->
  mcont (fun y => tm p (mkMedium i c (ph y)) (at_ F y)) x.
Proof.
  induction 1 as [|[[i' c'] ph'] F H HF IH]; intros i c ph Hp.
  - exact (mcont_const (RtoC 1, RtoC 0, RtoC 0, RtoC 1) x).
  - destruct F as [|[[i'' c''] ph''] F].
    + exact (mcont_const (imat p (mkMedium i c 0) (mkMedium i' c' 0)) x).
    + assert (E : forall y, tm p (mkMedium i c (ph y)) (at_ ((i', c', ph') :: (i'', c'', ph'') :: F) y) =
        mmul (imat p (mkMedium i c 0) (mkMedium i' c' 0)) (mmul (pmat (ph' y))
          (tm p (mkMedium i' c' (ph' y)) (at_ ((i'', c'', ph'') :: F) y)))) by reflexivity.
      assert (K : mcont (fun y => mmul (imat p (mkMedium i c 0) (mkMedium i' c' 0)) (mmul (pmat (ph' y))
          (tm p (mkMedium i' c' (ph' y)) (at_ ((i'', c'', ph'') :: F) y)))) x).
      { apply mcont_mul; [apply mcont_const|]. apply mcont_mul; [|apply IH; auto].
        cbn [snd] in H. split; [|split; [|split]]; cbn [pmat m00 m01 m10 m11]; try apply ccont_const.
        - apply ccont_cexp, ccont_opp, ccont_mult; auto. apply ccont_const.
        - apply ccont_cexp, ccont_mult; auto. apply ccont_const. }
      exact K.
Qed.
