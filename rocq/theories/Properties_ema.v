(** * Properties of effective media (structureSE.py 858-934).
    Arguments of [overall_ri]: index of A (host), index of B (inclusion), volume fraction
    of B, name of the rule, depolarisation factor. *)

Require Import Reals String Lra.
From Coquelicot Require Import Complex.
From Verif Require Import Base Cplx M_ema Spec_ema P_ema.
Open Scope string_scope.
Open Scope R_scope.
Open Scope C_scope.

(** ** C31 *)
Theorem C31_linear_volume_average : forall (A B : C) (vf d : R),
  exists n, overall_ri A B vf "linear" d = Ok n /\ right_half n /\
            volume_average (A * A) (B * B) vf (n * n).
Proof. exact linear_full. Qed.
Print Assumptions C31_linear_volume_average.

Theorem C31_linear_limits : forall (A B : C) (d : R),
  (right_half A -> overall_ri A B 0 "linear" d = Ok A) /\
  (right_half B -> overall_ri A B 1 "linear" d = Ok B).
Proof. exact linear_limits. Qed.
Print Assumptions C31_linear_limits.

Example C31_ex : right_half (3 / 20, 33 / 10)%R /\ right_half (RtoC (4 / 3)).
Proof. split; left; simpl; lra. Qed.

(** ** C32: the square of the result is the one and only solution of the relation *)
Theorem C32_maxwell_garnett : forall (A B : C) (vf L : R),
  exists n, overall_ri A B vf "maxwell-garnett" L = Ok n /\ right_half n /\
  (mg_bottom (A * A) (B * B) vf L <> 0 ->
     forall e, maxwell_garnett (A * A) (B * B) vf L e <-> e = n * n) /\
  (mg_bottom (A * A) (B * B) vf L = 0 -> n = 0).
Proof. exact mg_full. Qed.
Print Assumptions C32_maxwell_garnett.

Theorem C32_maxwell_garnett_limits : forall (A B : C) (L : R),
  (right_half A -> mg_bottom (A * A) (B * B) 0 L <> 0 ->
     overall_ri A B 0 "maxwell-garnett" L = Ok A) /\
  (right_half B -> A <> 0 -> overall_ri A B 1 "maxwell-garnett" L = Ok B).
Proof. exact mg_limits. Qed.
Print Assumptions C32_maxwell_garnett_limits.

(** silica spheres in water, and a metal in air for which the denominator vanishes *)
Example C32_ex : mg_bottom (RtoC (16 / 9)) (RtoC (9 / 4)) (1 / 4) (1 / 3) <> 0.
Proof. intros E. apply (f_equal Re) in E. simpl in E. lra. Qed.
Example C32_ex_degenerate : mg_bottom (RtoC 1) (RtoC (-3)) (1 / 4) (1 / 3) = 0.
Proof. apply C_eq; simpl; field. Qed.

(** ** C33 *)
Theorem C33_bruggeman : forall (A B : C) (vf L : R), (L <> 1)%R ->
  exists n, overall_ri A B vf "bruggeman" L = Ok n /\ right_half n /\
            bruggeman (A * A) (B * B) vf L (n * n).
Proof. exact bruggeman_full. Qed.
Print Assumptions C33_bruggeman.

Theorem C33_bruggeman_symmetric : forall (A B : C) (vf L : R),
  overall_ri A B vf "bruggeman" L = overall_ri B A (1 - vf) "bruggeman" L.
Proof. exact bruggeman_swap. Qed.
Print Assumptions C33_bruggeman_symmetric.

Theorem C33_bruggeman_factor_one : forall (A B : C) (vf : R),
  overall_ri A B vf "bruggeman" 1 = Ok (RtoC 0).
Proof. exact bruggeman_one. Qed.
Print Assumptions C33_bruggeman_factor_one.

Example C33_ex : (1 / 3 <> 1)%R. Proof. lra. Qed.

(** ** C34 *)
Theorem C34_bruggeman_pure_limit : forall (A B : C) (L : R), (L <> 1)%R -> right_half A ->
  right_half (weighted (A * A) (B * B) L) ->
  overall_ri A B 0 "bruggeman" L = Ok A.
Proof. exact bruggeman_limit. Qed.
Print Assumptions C34_bruggeman_pure_limit.

Example C34_ex : right_half (RtoC (3 / 2)) /\
  right_half (weighted (RtoC (3 / 2) * RtoC (3 / 2)) (RtoC 1 * RtoC 1) (1 / 3)).
Proof. split; left; simpl; lra. Qed.

(** with a negative weighted permittivity pure A is never returned: the result is an
    imaginary multiple of B *)
Theorem C34_bruggeman_wrong_root : forall (A B : C) (L : R), (L <> 1)%R ->
  (Re (weighted (A * A)%C (B * B)%C L) < 0)%R ->
  exists n, overall_ri A B 0 "bruggeman" L = Ok n /\ n * n = RtoC (- L / (1 - L)) * (B * B).
Proof. exact bruggeman_limit_neg. Qed.
Print Assumptions C34_bruggeman_wrong_root.

(** gold-like A (n = 0.15, k = 3.3), B = air, default depolarisation factor: pure gold
    comes back as something else *)
Theorem C34_bruggeman_pure_limit_refuted : exists (A B : C) (L : R),
  right_half A /\ right_half B /\ (0 <= L < 1)%R /\
  overall_ri A B 0 "bruggeman" L <> Ok A.
Proof.
  exists (3 / 20, 33 / 10)%R, (RtoC 1), (1 / 3)%R.
  split; [left; simpl; lra|]. split; [left; simpl; lra|]. split; [lra|].
  destruct (bruggeman_limit_neg (3 / 20, 33 / 10)%R (RtoC 1) (1 / 3)) as [n [E H]];
    [lra|simpl; lra|]. rewrite E. intros F.
  assert (n = (3 / 20, 33 / 10)%R) as -> by congruence.
  apply (f_equal Re) in H. simpl in H. lra.
Qed.
Print Assumptions C34_bruggeman_pure_limit_refuted.

(** ** C35 *)
Theorem C35_self_mixture : forall (A : C) (vf L : R) (ema : string), right_half A ->
  ema = "linear" \/ ema = "maxwell-garnett" \/
    ema = "bruggeman" /\ (L <> 1)%R /\ (0 < Re (A * A)%C)%R ->
  overall_ri A A vf ema L = Ok A.
Proof. exact self_mix. Qed.
Print Assumptions C35_self_mixture.

Example C35_ex : right_half (3 / 2, 1 / 10)%R /\ (0 < Re ((3 / 2, 1 / 10)%R * (3 / 2, 1 / 10)%R)%C)%R.
Proof. split; [left|]; simpl; lra. Qed.

(** ** C36 *)
Theorem C36_unknown_rule : forall (A B : C) (vf L : R) (ema : string),
  (overall_ri A B vf ema L = Raise RuntimeError <->
   ema <> "linear" /\ ema <> "maxwell-garnett" /\ ema <> "bruggeman") /\
  (forall e, overall_ri A B vf ema L = Raise e -> e = RuntimeError).
Proof. exact ema_names. Qed.
Print Assumptions C36_unknown_rule.

Example C36_ex : overall_ri (RtoC 1) (RtoC 2) 0 "Linear" 0 = Raise RuntimeError.
Proof. reflexivity. Qed.

(** ** C37 *)
Theorem C37_between_constituents : forall (n m vf L : R) (ema : string),
  (0 < n)%R -> (0 < m)%R -> (0 <= vf <= 1)%R -> (0 <= L <= 1)%R ->
  ema = "linear" \/ ema = "maxwell-garnett" \/ ema = "bruggeman" /\ (L < 1)%R ->
  exists r, overall_ri (RtoC n) (RtoC m) vf ema L = Ok (RtoC r) /\
    (Rmin n m <= r <= Rmax n m)%R.
Proof. exact mix_between. Qed.
Print Assumptions C37_between_constituents.

Example C37_ex : (0 < 4 / 3)%R /\ (0 < 3 / 2)%R /\ (0 <= 1 / 4 <= 1)%R /\ (0 <= 1 / 3 < 1)%R.
Proof. lra. Qed.

(** ** C38 *)
Theorem C38_linear_passive : forall (A B : C) (vf L : R),
  passive_index A -> passive_index B -> (0 <= vf <= 1)%R ->
  exists n, overall_ri A B vf "linear" L = Ok n /\ passive_index n.
Proof. exact linear_passive. Qed.
Print Assumptions C38_linear_passive.

Theorem C38_maxwell_garnett_passive : forall (A B : C) (vf L : R),
  passive_index A -> passive_index B -> (0 <= vf <= 1)%R -> (0 <= L <= 1)%R ->
  exists n, overall_ri A B vf "maxwell-garnett" L = Ok n /\ passive_index n.
Proof. exact mg_passive. Qed.
Print Assumptions C38_maxwell_garnett_passive.

(** bruggeman: true of two dielectrics (k < n), i.e. the right root is selected ... *)
Theorem C38_bruggeman_passive_dielectrics : forall (A B : C) (vf L : R),
  (0 <= vf <= 1)%R -> (0 <= L < 1)%R ->
  (0 <= Im A < Re A)%R -> (0 <= Im B < Re B)%R ->
  exists n, overall_ri A B vf "bruggeman" L = Ok n /\ passive_index n.
Proof. exact bruggeman_dielectric. Qed.
Print Assumptions C38_bruggeman_passive_dielectrics.

(** ... and false for every mixture of two metals (n < k): the result has gain *)
Theorem C38_bruggeman_metals_gain : forall (A B : C) (vf L : R),
  (0 <= vf <= 1)%R -> (0 < L < 1)%R ->
  (0 < Re A < Im A)%R -> (0 < Re B < Im B)%R ->
  exists n, overall_ri A B vf "bruggeman" L = Ok n /\ (Im n < 0)%R.
Proof. exact bruggeman_metals. Qed.
Print Assumptions C38_bruggeman_metals_gain.

Theorem C38_bruggeman_passive_refuted : exists (A B : C) (vf L : R),
  passive_index A /\ passive_index B /\ (0 <= vf <= 1)%R /\ (0 <= L < 1)%R /\
  exists n, overall_ri A B vf "bruggeman" L = Ok n /\ ~ passive_index n.
Proof.
  exists (3 / 20, 33 / 10)%R, (1 / 20, 4)%R, (1 / 2)%R, (1 / 3)%R.
  split; [split; simpl; lra|]. split; [split; simpl; lra|]. split; [lra|]. split; [lra|].
  destruct (bruggeman_metals (3 / 20, 33 / 10)%R (1 / 20, 4)%R (1 / 2) (1 / 3)) as [n [E H]];
    try (simpl; lra).
  exists n. split; auto. intros [_ P]. lra.
Qed.
Print Assumptions C38_bruggeman_passive_refuted.

Example C38_ex : passive_index (3 / 20, 33 / 10)%R /\ passive_index (RtoC (4 / 3)) /\
  (0 <= Im (3 / 2, 1 / 10)%R < Re (3 / 2, 1 / 10)%R)%R /\
  (0 < Re (3 / 20, 33 / 10)%R < Im (3 / 20, 33 / 10)%R)%R.
Proof. repeat split; simpl; lra. Qed.

(** ** C49 *)
Theorem C49_nm_eV_involution : forall x : R, (x <> 0)%R -> exists y,
  nm_eV_conversion x = Some y /\ (y <> 0)%R /\ nm_eV_conversion y = Some x /\
  (x * y = 1239841984055 / 1000000000)%R.
Proof. exact nm_eV_spec. Qed.
Print Assumptions C49_nm_eV_involution.

Theorem C49_nm_eV_decreasing : forall x1 x2 : R, (0 < x1 < x2)%R -> exists y1 y2,
  nm_eV_conversion x1 = Some y1 /\ nm_eV_conversion x2 = Some y2 /\ (0 < y2 < y1)%R.
Proof. exact nm_eV_decreasing. Qed.
Print Assumptions C49_nm_eV_decreasing.

Example C49_ex : (0 < 400 < 700)%R. Proof. lra. Qed.
