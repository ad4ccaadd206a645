(** * Mixing of media in double precision: the statements in terms of the parts *)

Require Import Reals ZArith Bool Lra Lia Psatz.
From Coquelicot Require Import Complex.
From Flocq Require Import Core.
From Flocq.IEEE754 Require Import BinarySingleNaN.
From Verif Require Import M_float Spec_float P_float P_float2 M_float2 Spec_float2 P_float3 P_float4 M_float3 P_float6 P_float7 P_float8.
Open Scope R_scope.

Lemma axis_pair x y : finite x -> finite y /\ val y = 0 -> axis (x, y) (val x).
Proof. intros F [G Z]. repeat split; assumption. Qed.

Lemma transparent csqrt (nA kA nB kB vf : f64) : finite nA -> finite nB -> finite vf ->
  finite kA /\ val kA = 0 -> finite kB /\ val kB = 0 -> moderate (val nA) -> moderate (val nB) -> moderate (val vf) ->
  0 <= val vf <= 1 ->
  exists n k, fl_linear csqrt (nA, kA) (nB, kB) vf = (n, k) /\ finite n /\ finite k /\ val k = 0 /\
  let exact := sqrt ((1 - val vf) * val nA ^ 2 + val vf * val nB ^ 2) in
  Rabs (val n - exact) <= 11 * u * exact.
Proof.
  intros FA FB Fv TA TB MA MB Mv R.
  destruct (linear_float (nA, kA) (nB, kB) vf _ _ (axis_pair _ _ FA TA) (axis_pair _ _ FB TB) Fv MA MB Mv R csqrt) as (n & (F & G & V & Z) & E).
  destruct (fl_linear csqrt (nA, kA) (nB, kB) vf) as [x y]. cbn [fst snd] in *. exists x, y. split; [reflexivity|].
  split; [exact F|split; [exact G|split; [exact Z|]]]. cbv zeta. rewrite V. unfold mixed in E.
  replace ((1 - val vf) * val nA ^ 2 + val vf * val nB ^ 2) with ((1 - val vf) * (val nA * val nA) + val vf * (val nB * val nB)) by ring.
  exact E.
Qed.

Lemma ends csqrt (nA kA nB kB vf : f64) : finite nA -> finite nB -> finite vf ->
  finite kA /\ val kA = 0 -> finite kB /\ val kB = 0 -> moderate (val nA) -> moderate (val nB) ->
  exists n k, fl_linear csqrt (nA, kA) (nB, kB) vf = (n, k) /\
  (val vf = 0 -> finite n /\ finite k /\ val n = Rabs (val nA) /\ val k = 0) /\
  (val vf = 1 -> finite n /\ finite k /\ val n = Rabs (val nB) /\ val k = 0).
Proof.
  intros FA FB Fv TA TB MA MB.
  pose proof (linear_dry csqrt (nA, kA) (nB, kB) vf _ _ (axis_pair _ _ FA TA) (axis_pair _ _ FB TB) Fv MA MB) as D.
  pose proof (linear_full csqrt (nA, kA) (nB, kB) vf _ _ (axis_pair _ _ FA TA) (axis_pair _ _ FB TB) Fv MA MB) as W.
  destruct (fl_linear csqrt (nA, kA) (nB, kB) vf) as [x y]. exists x, y. split; [reflexivity|]. split; [exact D|exact W].
Qed.

Lemma root_of_square x : finite x -> moderate (val x) -> finite (fsqrt (fmul x x)) /\ val (fsqrt (fmul x x)) = Rabs (val x).
Proof.
  intros F M. destruct (fmul_val x x F F) as [V G].
  { apply sized_abs; [lia|]. apply (sized_mono 200); [lia|]. now apply mod_square. }
  assert (P : 0 <= val (fmul x x)) by (rewrite V; apply rnd_pos; nra).
  destruct (fsqrt_val _ G P) as [H E]. split; [exact H|]. rewrite E, V. apply root_square; [apply val_fmt|exact M].
Qed.

Lemma dielectric (nA kA nB kB vf : f64) : finite nA -> finite kA -> finite nB -> finite kB -> finite vf ->
  moderate (val nA) -> moderate (val kA) -> moderate (val nB) -> moderate (val kB) -> moderate (val vf) -> 0 <= val vf <= 1 ->
  exists re im, fl_linear_epsilon (nA, kA) (nB, kB) vf = (re, im) /\ finite re /\ finite im /\
  let A := (val nA, val kA) : C in let B := (val nB, val kB) : C in
  let exact := (RtoC (1 - val vf) * (A * A) + RtoC (val vf) * (B * B))%C in
  let scale := (1 - val vf) * Cmod A ^ 2 + val vf * Cmod B ^ 2 in
  Rabs (val re - Re exact) <= 11 * u * scale /\ Rabs (val im - Im exact) <= 11 * u * scale.
Proof.
  intros F1 F2 F3 F4 Fv M1 M2 M3 M4 Mv R.
  pose proof (epsilon_float (nA, kA) (nB, kB) vf F1 F2 F3 F4 Fv M1 M2 M3 M4 Mv R) as H. cbv zeta in H.
  destruct (fl_linear_epsilon (nA, kA) (nB, kB) vf) as [re im]. cbn [fst snd] in H. destruct H as (G1 & G2 & H1 & H2).
  exists re, im. split; [reflexivity|]. split; [exact G1|split; [exact G2|]]. cbv zeta.
  assert (Q : forall x y, Cmod (x, y) ^ 2 = sqmod x y).
  { intros x y. unfold Cmod. cbn [fst snd]. rewrite pow2_sqrt by (apply Rplus_le_le_0_compat; apply pow2_ge_0). unfold sqmod. ring. }
  rewrite !Q. unfold Re, Im, Cplus, Cmult, RtoC. cbn [fst snd]. split.
  - eapply Rle_trans; [|exact H1]. apply Req_le. f_equal. ring.
  - eapply Rle_trans; [|exact H2]. apply Req_le. f_equal. ring.
Qed.

(** ** Maxwell-Garnett *)
Definition third : f64 := fdiv (fZ 1) (fZ 3).
Lemma maxwell_case cs : is_zero (snd (fl_maxwell cs (fZ 3, fzero) (fZ 5, fzero) fzero third)) = true /\
  Bltb (fst (fl_maxwell cs (fZ 3, fzero) (fZ 5, fzero) fzero third)) (fZ 3) = true /\
  is_finite (fst (fl_maxwell cs (fZ 3, fzero) (fZ 5, fzero) fzero third)) = true.
Proof. repeat split; vm_compute; reflexivity. Qed.

Lemma maxwell_ends : exists (nA nB vf dp : f64),
  finite nA /\ finite nB /\ val nA = 3 /\ val nB = 5 /\ val vf = 0 /\ dp = fdiv (fZ 1) (fZ 3) /\
  forall csqrt, exists n k, fl_maxwell csqrt (nA, fzero) (nB, fzero) vf dp = (n, k) /\
    finite n /\ finite k /\ val k = 0 /\ val n < 3.
Proof.
  destruct (finite_Z 3 ltac:(lia)) as [F3 V3]. destruct (finite_Z 5 ltac:(lia)) as [F5 V5].
  exists (fZ 3), (fZ 5), fzero, third. repeat (split; [assumption || reflexivity|]).
  intros cs. destruct (maxwell_case cs) as (Z & L & F).
  destruct (fl_maxwell cs (fZ 3, fzero) (fZ 5, fzero) fzero third) as [n k]. cbn [fst snd] in *.
  exists n, k. split; [reflexivity|]. split; [exact F|]. destruct (is_zero_of k Z) as [G W]. split; [exact G|split; [exact W|]].
  rewrite Bltb_correct in L by assumption. revert L. case Rlt_bool_spec; [intros L _|discriminate].
  change (B2R n) with (val n) in L. change (B2R (fZ 3)) with (val (fZ 3)) in L. rewrite V3 in L. exact L.
Qed.

Lemma bruggeman_case cs : is_zero (snd (fl_bruggeman cs (fZ 3, fzero) (fZ 3, fzero) fzero third)) = true /\
  Bltb (fst (fl_bruggeman cs (fZ 3, fzero) (fZ 3, fzero) fzero third)) (fZ 3) = true /\
  is_finite (fst (fl_bruggeman cs (fZ 3, fzero) (fZ 3, fzero) fzero third)) = true.
Proof. repeat split; vm_compute; reflexivity. Qed.
Lemma bruggeman_ends : exists (nA vf dp : f64),
  finite nA /\ val nA = 3 /\ val vf = 0 /\ dp = fdiv (fZ 1) (fZ 3) /\
  forall csqrt, exists n k, fl_bruggeman csqrt (nA, fzero) (nA, fzero) vf dp = (n, k) /\
    finite n /\ finite k /\ val k = 0 /\ val n < 3.
Proof.
  destruct (finite_Z 3 ltac:(lia)) as [F3 V3].
  exists (fZ 3), fzero, third. repeat (split; [assumption || reflexivity|]).
  intros cs. destruct (bruggeman_case cs) as (Z & L & F).
  destruct (fl_bruggeman cs (fZ 3, fzero) (fZ 3, fzero) fzero third) as [n k]. cbn [fst snd] in *.
  exists n, k. split; [reflexivity|]. split; [exact F|]. destruct (is_zero_of k Z) as [G W]. split; [exact G|split; [exact W|]].
  rewrite Bltb_correct in L by assumption. revert L. case Rlt_bool_spec; [intros L _|discriminate].
  change (B2R n) with (val n) in L. change (B2R (fZ 3)) with (val (fZ 3)) in L. rewrite V3 in L. exact L.
Qed.
