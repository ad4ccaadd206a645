(** * Differentiability of the reflection amplitudes *)

Require Import Reals.
From Coquelicot Require Import Coquelicot.
Require Import List Bool Arith ZArith Lra Lia Psatz.
From Verif Require Import Base Cplx M_tmm Spec_optics P_tmm P_tmm2 P_tmm3 P_tmm4 P_psidelta P_psidelta2 P_cont Spec_diff.
Import ListNotations.
Open Scope R_scope.
Open Scope C_scope.

Lemma cdiff_loc (f g : R -> C) x : locally x (fun y => f y = g y) -> cdiff f x -> cdiff g x.
Proof.
  intros H [A B]. split.
  - apply (ex_derive_ext_loc (fun y => Re (f y))); [|exact A]. apply filter_imp with (2 := H). intros y ->. reflexivity.
  - apply (ex_derive_ext_loc (fun y => Im (f y))); [|exact B]. apply filter_imp with (2 := H). intros y ->. reflexivity.
Qed.
Lemma cdiff_ext (f g : R -> C) x : (forall y, f y = g y) -> cdiff f x -> cdiff g x.
Proof. intros H. apply cdiff_loc, filter_forall, H. Qed.
Lemma diff_cont (f : R -> R) x : ex_derive f x -> continuity_pt f x.
Proof. intros H. apply continuity_pt_filterlim. apply (ex_derive_continuous f x H). Qed.
Lemma cdiff_ccont f x : cdiff f x -> ccont f x.
Proof. intros [A B]. split; apply diff_cont; auto. Qed.

Lemma cdiff_const c x : cdiff (fun _ => c) x.
Proof. split; apply ex_derive_const. Qed.
Lemma cdiff_plus (f g : R -> C) x : cdiff f x -> cdiff g x -> cdiff (fun y => f y + g y) x.
Proof. intros [A B] [A' B']. split; apply (ex_derive_plus (V := R_NormedModule)); auto. Qed.
Lemma cdiff_opp (f : R -> C) x : cdiff f x -> cdiff (fun y => - f y) x.
Proof. intros [A B]. split; apply (ex_derive_opp (V := R_NormedModule)); auto. Qed.
Lemma cdiff_minus (f g : R -> C) x : cdiff f x -> cdiff g x -> cdiff (fun y => f y - g y) x.
Proof. intros A B. apply cdiff_plus; auto. apply cdiff_opp; auto. Qed.
Lemma cdiff_mult (f g : R -> C) x : cdiff f x -> cdiff g x -> cdiff (fun y => f y * g y) x.
Proof.
  intros [A B] [A' B']. split.
  - apply (ex_derive_minus (V := R_NormedModule)); apply ex_derive_mult; auto.
  - apply (ex_derive_plus (V := R_NormedModule)); apply ex_derive_mult; auto.
Qed.
Lemma norm2_diff (f : R -> C) x : cdiff f x -> ex_derive (fun y => (Re (f y) * Re (f y) + Im (f y) * Im (f y))%R) x.
Proof. intros [A B]. apply (ex_derive_plus (V := R_NormedModule)); apply ex_derive_mult; auto. Qed.
Lemma cdiff_inv (f : R -> C) x : f x <> 0 -> cdiff f x -> cdiff (fun y => / f y) x.
Proof.
  intros H D. pose proof (norm2_diff f x D) as N. destruct D as [A B]. pose proof (Cmod2_nz _ H) as NZ. split.
  - apply ex_derive_ext with (fun y => (Re (f y) / (Re (f y) * Re (f y) + Im (f y) * Im (f y)))%R).
    + intros y. unfold Cinv, Re, Im. cbn [fst snd]. f_equal. ring.
    + apply ex_derive_div; auto.
  - apply ex_derive_ext with (fun y => (- Im (f y) / (Re (f y) * Re (f y) + Im (f y) * Im (f y)))%R).
    + intros y. unfold Cinv, Re, Im. cbn [fst snd]. f_equal. ring.
    + apply ex_derive_div; auto. apply (ex_derive_opp (V := R_NormedModule)). exact B.
Qed.
Lemma cdiff_div (f g : R -> C) x : g x <> 0 -> cdiff f x -> cdiff g x -> cdiff (fun y => f y / g y) x.
Proof. intros H A B. apply cdiff_mult; auto. apply cdiff_inv; auto. Qed.
Lemma cdiff_RtoC (f : R -> R) x : ex_derive f x -> cdiff (fun y => RtoC (f y)) x.
Proof. intros H. split; [exact H|]. apply (ex_derive_ext (fun _ => 0%R)); [reflexivity|apply ex_derive_const]. Qed.

Lemma diff_comp (g f : R -> R) x : ex_derive g (f x) -> ex_derive f x -> ex_derive (fun y => g (f y)) x.
Proof. intros A B. apply (ex_derive_comp (V := R_NormedModule) g f x); auto. Qed.
Lemma diff_exp x : ex_derive exp x. Proof. eexists. apply is_derive_exp. Qed.
Lemma diff_cos x : ex_derive cos x. Proof. eexists. apply is_derive_cos. Qed.
Lemma diff_sin x : ex_derive sin x. Proof. eexists. apply is_derive_sin. Qed.
Lemma diff_sqrt x : (0 < x)%R -> ex_derive sqrt x. Proof. intros H. auto_derive. exact H. Qed.
Lemma diff_atan x : ex_derive atan x. Proof. auto_derive. exact I. Qed.

Lemma cdiff_cexp f x : cdiff f x -> cdiff (fun y => cexp (f y)) x.
Proof.
  intros [A B]. assert (E : ex_derive (fun y => exp (Re (f y))) x) by (apply (diff_comp exp); auto; apply diff_exp). split.
  - apply ex_derive_mult; [exact E|]. apply (diff_comp cos (fun y => Im (f y))); auto. apply diff_cos.
  - apply ex_derive_mult; [exact E|]. apply (diff_comp sin (fun y => Im (f y))); auto. apply diff_sin.
Qed.

Lemma cmod_diff (f : R -> C) x : f x <> 0 -> cdiff f x -> ex_derive (fun y => Cmod (f y)) x.
Proof.
  intros H D. apply ex_derive_ext with (fun y => sqrt (Re (f y) * Re (f y) + Im (f y) * Im (f y))).
  - intros y. unfold Cmod. f_equal. unfold Re, Im. ring.
  - apply (diff_comp sqrt); [|apply norm2_diff; auto]. apply diff_sqrt. pose proof (Cmod2_nz _ H). nra.
Qed.

(** ** neighbourhoods *)
Lemma cont_locally (f : R -> R) x (P : R -> Prop) : continuity_pt f x -> locally (f x) P -> locally x (fun y => P (f y)).
Proof. intros H L. apply continuity_pt_filterlim in H. apply (H P L). Qed.
Lemma pos_near (f : R -> R) x : continuity_pt f x -> (0 < f x)%R -> locally x (fun y => (0 < f y)%R).
Proof. intros H L. apply (cont_locally f x (fun v => (0 < v)%R)); auto. apply (open_gt 0). exact L. Qed.
Lemma ne_near (f : R -> R) x c : continuity_pt f x -> f x <> c -> locally x (fun y => f y <> c).
Proof. intros H L. apply (cont_locally f x (fun v => v <> c)); auto. apply (open_neq c). exact L. Qed.
Lemma nz_near (f : R -> C) x : ccont f x -> f x <> 0 -> locally x (fun y => f y <> 0).
Proof.
  intros H N. destruct (ccont_nz f x H N) as (eta & E & K). exists (mkposreal eta E). intros y B. apply K. exact B.
Qed.

(** ** square root and the cosine *)
Lemma cdiff_csqrt (f : R -> C) x : (0 < Cmod (f x) + Re (f x))%R -> cdiff f x -> cdiff (fun y => csqrt (f y)) x.
Proof.
  intros H D. assert (N : f x <> 0). { intros E. rewrite E in H. rewrite Cmod_0 in H. simpl in H. lra. }
  pose proof (cmod_diff f x N D) as M. destruct D as [A B].
  assert (G : ex_derive (fun y => ((Cmod (f y) + Re (f y)) / 2)%R) x).
  { apply ex_derive_div; [|apply ex_derive_const|lra]. apply (ex_derive_plus (V := R_NormedModule)); auto. }
  assert (S : ex_derive (fun y => sqrt ((Cmod (f y) + Re (f y)) / 2)) x) by (apply (diff_comp sqrt); auto; apply diff_sqrt; lra).
  split; [exact S|].
  apply ex_derive_ext_loc with (fun y => (Im (f y) / (2 * sqrt ((Cmod (f y) + Re (f y)) / 2)))%R).
  - assert (P : locally x (fun y => (0 < (Cmod (f y) + Re (f y)) / 2)%R)) by (apply (pos_near (fun y => ((Cmod (f y) + Re (f y)) / 2)%R)); [apply diff_cont; exact G|lra]).
    apply filter_imp with (2 := P). intros y Hy. pose proof (csqrt_sq (f y)) as E. apply (f_equal Im) in E.
    assert (Sp : (0 < sqrt ((Cmod (f y) + Re (f y)) / 2))%R) by (apply sqrt_lt_R0; exact Hy).
    change (sqrt ((Cmod (f y) + Re (f y)) / 2)) with (Re (csqrt (f y))) in *. set (c := csqrt (f y)) in *. rewrite <- E. destruct c as [c1 c2]. cbn [Re Im fst snd Cmult] in *. match goal with |- ?a = ?b => change (@eq R a b) end. field. lra.
  - apply ex_derive_div; auto.
    + apply ex_derive_mult; [apply ex_derive_const|exact S].
    + assert (0 < sqrt ((Cmod (f x) + Re (f x)) / 2))%R by (apply sqrt_lt_R0; lra). lra.
Qed.

Definition off_cut (z : C) : Prop := (0 < Cmod (1 - z * z)%C + Re (1 - z * z)%C)%R.
Lemma off_cut_of (z : C) : ~ (Im z = 0%R /\ (1 <= Rabs (Re z))%R) -> off_cut z.
Proof.
  intros H. unfold off_cut. set (u := 1 - z * z). pose proof (Cmod_ge_0 u) as P. pose proof (Cmod_Re_le2 u) as Q'.
  destruct (Rle_lt_or_eq_dec _ _ Q') as [L|E]; [lra|]. exfalso. apply H.
  assert (I0 : Im u = 0%R). { pose proof (Cmod_sq u) as S. rewrite <- E in S. nra. }
  assert (R0 : (Re u <= 0)%R) by lra.
  unfold u in I0, R0. destruct z as [a b]. cbn [Re Im fst snd Cminus Cplus Copp Cmult RtoC] in *.
  assert (AB : (a * b = 0)%R) by lra. apply Rmult_integral in AB. destruct AB as [E1|E1]; subst; [nra|]. split; [reflexivity|].
  assert (1 <= a * a)%R by lra. rewrite <- sqrt_1, <- sqrt_Rsqr_abs. apply sqrt_le_1_alt. unfold Rsqr. lra.
Qed.
Lemma off_cut_cos (z : C) : off_cut z -> ccos (carcsin z) = csqrt (1 - z * z).
Proof.
  intros H. apply ccos_carcsin. destruct (Req_dec (Im z) 0) as [E|E]; [right|left; exact E].
  unfold off_cut in H. destruct z as [a b]. cbn [Re Im fst snd] in E. subst b.
  replace (1 - (a, 0%R) * (a, 0%R))%C with (RtoC (1 - a * a)) in H by (apply C_eq; cbn; ring).
  rewrite Cmod_R in H. cbn [Re fst RtoC] in H |- *. unfold Rabs in H. destruct (Rcase_abs (1 - a * a)); nra.
Qed.
Lemma cdiff_cos (sn : R -> C) x : sine_ok sn x -> cdiff sn x -> cdiff (fun y => ccos (carcsin (sn y))) x.
Proof.
  intros [H|H] D.
  - apply cdiff_loc with (fun _ => ccos (carcsin (sn x))); [|apply cdiff_const]. apply filter_imp with (2 := H). intros y E. rewrite E. reflexivity.
  - pose proof (off_cut_of _ H) as O. assert (U : cdiff (fun y => 1 - sn y * sn y) x) by (apply cdiff_minus; [apply cdiff_const|apply cdiff_mult; auto]).
    apply cdiff_loc with (fun y => csqrt (1 - sn y * sn y)).
    + assert (N : 1 - sn x * sn x <> 0). { intros E. unfold off_cut in O. rewrite E, Cmod_0 in O. cbn in O. lra. }
      assert (P : locally x (fun y => (0 < Cmod (1 - sn y * sn y)%C + Re (1 - sn y * sn y)%C)%R)).
      { apply (pos_near (fun y => (Cmod (1 - sn y * sn y)%C + Re (1 - sn y * sn y)%C)%R)); [|exact O]. apply diff_cont.
        apply (ex_derive_plus (V := R_NormedModule)); [apply (cmod_diff (fun y => 1 - sn y * sn y)); auto|apply U]. }
      apply filter_imp with (2 := P). intros y Hy. symmetry. apply off_cut_cos. exact Hy.
    + apply (cdiff_csqrt (fun y => 1 - sn y * sn y)); auto.
Qed.

Lemma cdiff_clip (f : R -> C) x : Im (f x) <> 35%R -> cdiff f x -> cdiff (fun y => clip35 (f y)) x.
Proof.
  intros H [A B]. split; [exact A|]. pose proof (diff_cont _ _ B) as K. unfold clip35. cbn [Im snd].
  destruct (Rlt_dec (Im (f x)) 35) as [L|L].
  - apply ex_derive_ext_loc with (fun y => Im (f y)); [|exact B].
    assert (P : locally x (fun y => (0 < 35 - Im (f y))%R)). { apply (pos_near (fun y => (35 - Im (f y))%R)); [|lra]. apply continuity_pt_minus; [apply continuity_pt_const; intros ? ?; reflexivity|exact K]. }
    apply filter_imp with (2 := P). intros y Hy. change (Im (Re (f y), Rmin (Im (f y)) 35)) with (Rmin (Im (f y)) 35). rewrite Rmin_left; lra.
  - apply ex_derive_ext_loc with (fun _ => 35%R); [|apply ex_derive_const].
    assert (P : locally x (fun y => (0 < Im (f y) - 35)%R)). { apply (pos_near (fun y => (Im (f y) - 35)%R)); [|lra]. apply continuity_pt_minus; [exact K|apply continuity_pt_const; intros ? ?; reflexivity]. }
    apply filter_imp with (2 := P). intros y Hy. change (Im (Re (f y), Rmin (Im (f y)) 35)) with (Rmin (Im (f y)) 35). rewrite Rmin_right; lra.
Qed.

(** ** matrices *)
Definition mdiff (M : R -> mat) (x : R) : Prop :=
  cdiff (fun y => m00 (M y)) x /\ cdiff (fun y => m01 (M y)) x /\ cdiff (fun y => m10 (M y)) x /\ cdiff (fun y => m11 (M y)) x.
Lemma mdiff_const M x : mdiff (fun _ => M) x.
Proof. split; [|split; [|split]]; apply cdiff_const. Qed.
Lemma mdiff_mul M N x : mdiff M x -> mdiff N x -> mdiff (fun y => mmul (M y) (N y)) x.
Proof.
  intros (A0 & A1 & A2 & A3) (B0 & B1 & B2 & B3).
  assert (E : forall y, mmul (M y) (N y) =
    (m00 (M y) * m00 (N y) + m01 (M y) * m10 (N y), m00 (M y) * m01 (N y) + m01 (M y) * m11 (N y),
     m10 (M y) * m00 (N y) + m11 (M y) * m10 (N y), m10 (M y) * m01 (N y) + m11 (M y) * m11 (N y))).
  { intros y. destruct (M y) as [[[? ?] ?] ?], (N y) as [[[? ?] ?] ?]. reflexivity. }
  split; [|split; [|split]]; (eapply cdiff_ext; [intros y; rewrite E; cbn [m00 m01 m10 m11]; reflexivity|]); apply cdiff_plus; apply cdiff_mult; auto.
Qed.

(** a medium that depends on a parameter *)
Record medium_of := MediumOf { idx_of : R -> C; cos_of : R -> C; phase_of : R -> C }.
Definition now (m : medium_of) (y : R) : medium := mkMedium (idx_of m y) (cos_of m y) (phase_of m y).
Definition smooth (m : medium_of) (x : R) : Prop := cdiff (idx_of m) x /\ cdiff (cos_of m) x /\ cdiff (phase_of m) x.

Lemma imat_diff p m m' x : smooth m x -> smooth m' x -> regular (now m x) -> mdiff (fun y => imat p (now m y) (now m' y)) x.
Proof.
  intros (A & B & _) (A' & B' & _) H. unfold regular in H. cbn [now idx cosine] in H.
  assert (N : 2 * (idx_of m x * cos_of m x) <> 0) by (apply Cmult_neq_0; [apply C2_neq_0|exact H]).
  assert (D : cdiff (fun y => 2 * (idx_of m y * cos_of m y)) x) by (apply cdiff_mult; [apply cdiff_const|apply cdiff_mult; auto]).
  assert (Q : cdiff (fun y => ia p (now m y) (now m' y)) x /\ cdiff (fun y => ib p (now m y) (now m' y)) x).
  { assert (P1 : cdiff (fun y => idx_of m y * cos_of m y) x) by (apply cdiff_mult; auto).
    assert (P2 : cdiff (fun y => idx_of m' y * cos_of m' y) x) by (apply cdiff_mult; auto).
    assert (P3 : cdiff (fun y => idx_of m' y * cos_of m y) x) by (apply cdiff_mult; auto).
    assert (P4 : cdiff (fun y => idx_of m y * cos_of m' y) x) by (apply cdiff_mult; auto).
    split; destruct p; unfold ia, ib; cbn [now idx cosine].
    - exact (cdiff_div _ _ x N (cdiff_plus _ _ x P1 P2) D).
    - exact (cdiff_div _ _ x N (cdiff_plus _ _ x P3 P4) D).
    - exact (cdiff_div _ _ x N (cdiff_minus _ _ x P1 P2) D).
    - exact (cdiff_div _ _ x N (cdiff_minus _ _ x P3 P4) D). }
  destruct Q. split; [|split; [|split]]; cbn [imat m00 m01 m10 m11]; assumption.
Qed.
Lemma tm_diff p (F : list medium_of) x : Forall (fun m => smooth m x) F -> forall m, smooth m x ->
  good p (now m x) (map (fun m => now m x) F) -> mdiff (fun y => tm p (now m y) (map (fun m => now m y) F)) x.
Proof.
  induction 1 as [|m' F H HF IH]; intros m Hm G; [exact (mdiff_const (RtoC 1, RtoC 0, RtoC 0, RtoC 1) x)|].
  cbn [map good] in G. destruct G as (G1 & G2 & G3). pose proof (imat_diff p m m' x Hm H G1) as DI.
  destruct F as [|m'' F]; [exact DI|].
  assert (K : mdiff (fun y => mmul (imat p (now m y) (now m' y)) (mmul (pmat (phase_of m' y)) (tm p (now m' y) (map (fun m => now m y) (m'' :: F))))) x); [|exact K].
  apply mdiff_mul; [exact DI|]. apply mdiff_mul; [|apply IH; auto]. destruct H as (_ & _ & P).
  assert (P1 : cdiff (fun y => Ci * phase_of m' y) x) by exact (cdiff_mult (fun _ => Ci) _ x (cdiff_const Ci x) P).
  split; [exact (cdiff_cexp _ x (cdiff_opp _ x P1))|]. split; [exact (cdiff_const 0 x)|]. split; [exact (cdiff_const 0 x)|]. exact (cdiff_cexp _ x P1).
Qed.
Lemma good_near p (F : list medium_of) x : Forall (fun m => smooth m x) F -> forall m, smooth m x ->
  good p (now m x) (map (fun m => now m x) F) -> locally x (fun y => good p (now m y) (map (fun m => now m y) F)).
Proof.
  induction 1 as [|m' F H HF IH]; intros m Hm G; [apply filter_forall; exact (fun _ => I)|].
  cbn [map good] in *. destruct G as (G1 & G2 & G3). apply filter_and; [|apply filter_and; [|apply IH; auto]].
  - apply (nz_near (fun y => idx_of m y * cos_of m y)); [|exact G1]. apply cdiff_ccont, cdiff_mult; apply Hm.
  - destruct Hm as (A & B & _), H as (A' & B' & _). destruct p; cbn [fden now idx cosine] in *.
    + apply (nz_near (fun y => idx_of m y * cos_of m y + idx_of m' y * cos_of m' y)); [|exact G2]. apply cdiff_ccont, cdiff_plus; apply cdiff_mult; auto.
    + apply (nz_near (fun y => idx_of m' y * cos_of m y + idx_of m y * cos_of m' y)); [|exact G2]. apply cdiff_ccont, cdiff_plus; apply cdiff_mult; auto.
Qed.

(** ** the amplitudes *)
Lemma raw_phase_Im (s n : C) w d : w <> 0%R -> Im (raw_phase s w n d) = (2 * PI * Im (n * code_cos s n)%C * d / w)%R.
Proof.
  intros W. unfold raw_phase. set (c := code_cos s n). rewrite <- (Cmult_assoc (2 * PI) n c). set (q := (n * c)%C). clearbody q. clear s n c.
  assert (E : / RtoC w = RtoC (/ w)) by (symmetry; apply RtoC_inv; exact W). unfold Cdiv. rewrite E. clear E. rewrite <- RtoC_mult.
  unfold Rdiv. generalize (2 * PI)%R (/ w)%R. intros u v. destruct q as [q1 q2]. cbn [Im snd Cmult RtoC fst]. ring.
Qed.
Lemma amp_diff p (n0 : R -> C) (F : films) (nB : R -> C) dA dB th w x r t :
  cdiff n0 x -> cdiff nB x -> sine_ok (fun y => n0 y * RtoC (sin th) / nB y) x ->
  Forall (fun l => cdiff (fst (fst l)) x /\ ex_derive (snd (fst l)) x /\ sine_ok (fun y => n0 y * RtoC (sin th) / fst (fst l) y) x /\
    not_at_cut_off (n0 x * RtoC (sin th)) (fst (fst l) x) (snd (fst l) x / 10) w) F ->
  amp p (tmm_point (ns (n0 x) (nm (film_of F x)) (nB x)) (ds dA (nm (film_of F x)) dB) true th w) = Some (r, t) ->
  exists (rf tf : R -> C), rf x = r /\ cdiff rf x /\
    locally x (fun y => amp p (tmm_point (ns (n0 y) (nm (film_of F y)) (nB y)) (ds dA (nm (film_of F y)) dB) true th w) = Some (rf y, tf y)).
Proof.
  intros D0 DB SB HF H. apply tmm_point_iff in H. destruct H as (NZ & L & G & M & Er & Et).
  set (s := fun y => n0 y * RtoC (sin th)) in *.
  assert (Ds : cdiff s x) by exact (cdiff_mult n0 (fun _ => RtoC (sin th)) x D0 (cdiff_const _ x)).
  set (layer_m := fun l : (R -> C) * (R -> R) * R => MediumOf (fst (fst l)) (fun y => code_cos (s y) (fst (fst l) y)) (fun y => clip35 (raw_phase (s y) w (fst (fst l) y) (snd (fst l) y / 10)))).
  set (end_m := fun n : R -> C => MediumOf n (fun y => code_cos (s y) (n y)) (fun _ => RtoC 0)).
  set (FF := map layer_m F ++ [end_m nB]).
  assert (ER : forall y, code_rest (s y) w true (nm (film_of F y)) (nB y) = map (fun m => now m y) FF).
  { intros y. unfold code_rest, FF, nm, film_of. rewrite map_app, !map_map. reflexivity. }
  destruct NZ as (N0 & NF & NB).
  assert (EndOk : forall n : R -> C, cdiff n x -> n x <> 0 -> sine_ok (fun y => s y / n y) x -> smooth (end_m n) x).
  { intros n Dn Nn Sn. split; [exact Dn|]. split; [|exact (cdiff_const 0 x)]. exact (cdiff_cos (fun y => s y / n y) x Sn (cdiff_div s n x Nn Ds Dn)). }
  assert (Front : smooth (end_m n0) x).
  { split; [exact D0|]. split; [|exact (cdiff_const 0 x)]. apply cdiff_loc with (fun _ => RtoC (Rabs (cos th))); [|exact (cdiff_const _ x)].
    apply filter_imp with (2 := nz_near n0 x (cdiff_ccont _ _ D0) N0). intros y Hy. symmetry. exact (code_cos_front (n0 y) th Hy). }
  unfold nm, film_of in NF. rewrite map_map, Forall_map in NF. cbn [fst] in NF.
  assert (Inner : Forall (fun m => smooth m x) FF).
  { apply Forall_app. split; [|constructor; [apply EndOk; auto|constructor]]. apply Forall_map.
    assert (W : F = [] \/ w <> 0%R) by (destruct F as [|l0 F0]; [left; reflexivity|right; apply L; discriminate]). destruct W as [W|W]; [rewrite W; constructor|].
    apply (Forall_impl (P := fun l => (cdiff (fst (fst l)) x /\ ex_derive (snd (fst l)) x /\ sine_ok (fun y => s y / fst (fst l) y) x /\
       not_at_cut_off (s x) (fst (fst l) x) (snd (fst l) x / 10) w) /\ fst (fst l) x <> 0)); [|clear - HF NF; induction F as [|l F IH]; [constructor|inversion HF; inversion NF; subst; constructor; auto]].
    intros [[n d] rgh] ((Dn & Dd & Sn & Cn) & Nn). cbn [fst snd] in *. destruct (EndOk n Dn Nn Sn) as (_ & DC & _). cbn [end_m cos_of] in DC.
    split; [exact Dn|]. split; [exact DC|]. cbn [layer_m phase_of]. apply (cdiff_clip (fun y => raw_phase (s y) w (n y) (d y / 10))).
    - set (q := n x * code_cos (s x) (n x)). assert (Q : q * q = n x * n x - s x * s x).
      { unfold q. transitivity (n x * n x * (code_cos (s x) (n x) * code_cos (s x) (n x))); [ring|]. rewrite code_cos_sq. field. exact Nn. }
      specialize (Cn q Q). replace (Im (raw_phase (s x) w (n x) (d x / 10))) with (2 * PI * Im q * (d x / 10) / w)%R; [exact Cn|].
      unfold q. symmetry. apply raw_phase_Im. exact W.
    - assert (D1 : cdiff (fun y => 2 * PI * n y * code_cos (s y) (n y)) x) by exact (cdiff_mult _ _ x (cdiff_mult _ _ x (cdiff_const (2 * PI) x) Dn) DC).
      assert (D2 : cdiff (fun y => 2 * PI * n y * code_cos (s y) (n y) / w) x) by exact (cdiff_mult _ _ x D1 (cdiff_const (/ RtoC w) x)).
      assert (D3 : ex_derive (fun y => d y / 10)%R x) by (apply ex_derive_div; [exact Dd|apply ex_derive_const|lra]).
      exact (cdiff_mult _ _ x D2 (cdiff_RtoC _ x D3)). }
  set (T := fun y => tm p (now (end_m n0) y) (map (fun m => now m y) FF)).
  assert (TX : forall y, tm p (code_end (s y) (n0 y)) (code_rest (s y) w true (nm (film_of F y)) (nB y)) = T y) by (intros y; unfold T; rewrite ER; reflexivity).
  assert (GX : good p (now (end_m n0) x) (map (fun m => now m x) FF)) by (rewrite <- ER; exact G).
  destruct (tm_diff p FF x Inner (end_m n0) Front GX) as (T0 & _ & T2 & _). fold T in T0, T2.
  fold (s x) in M, Er, Et. rewrite TX in M, Er, Et.
  exists (fun y => m10 (T y) / m00 (T y)), (fun y => 1 / m00 (T y)). split; [auto|]. split; [apply cdiff_div; auto|].
  assert (NN : locally x (fun y => all_nonzero (n0 y) (nm (film_of F y)) (nB y))).
  { apply filter_and; [exact (nz_near n0 x (cdiff_ccont _ _ D0) N0)|]. apply filter_and; [|exact (nz_near nB x (cdiff_ccont _ _ DB) NB)].
    clear - HF NF. unfold nm, film_of. apply filter_imp with (P := fun y => Forall (fun l : (R -> C) * (R -> R) * R => fst (fst l) y <> RtoC 0) F); [intros y Hy; rewrite map_map; apply Forall_map; exact Hy|].
    induction F as [|l F IH]; [apply filter_forall; constructor|]. inversion HF as [|? ? A HF']; inversion NF as [|? ? B NF']; subst.
    apply filter_imp with (P := fun y => fst (fst l) y <> RtoC 0 /\ Forall (fun l : (R -> C) * (R -> R) * R => fst (fst l) y <> RtoC 0) F); [intros y [? ?]; constructor; auto|].
    apply filter_and; [exact (nz_near (fst (fst l)) x (cdiff_ccont _ _ (proj1 A)) B)|auto]. }
  pose proof (good_near p FF x Inner (end_m n0) Front GX) as GN. pose proof (nz_near _ x (cdiff_ccont _ _ T0) M) as MN.
  apply filter_imp with (2 := filter_and _ _ NN (filter_and _ _ GN MN)). intros y (Y1 & Y2 & Y3).
  apply tmm_point_iff. fold (s y). rewrite TX. split; [exact Y1|].
  split; [intros X; apply L; intros E; apply X; apply (f_equal (@List.length _)) in E; unfold nm, film_of in *; rewrite !map_length in E; destruct F; [reflexivity|discriminate]|].
  rewrite ER. split; [exact Y2|]. split; [exact Y3|]. auto.
Qed.
