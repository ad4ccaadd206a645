(** * Claims C87, C88: the dispersion models obey the Kramers-Kronig relation *)

Require Import Reals List Lra.
From Coquelicot Require Import Complex.
From Verif Require Import Base M_disp Spec_disp Spec_kk P_disp2 P_kk P_kk2 P_kk3.
Import ListNotations.
Open Scope R_scope.

(** the relation determines the real part *)
Theorem C87_unique : forall im e re re', kramers_kronig im e re -> kramers_kronig im e re' -> re = re'.
Proof. exact kk_unique. Qed.
Print Assumptions C87_unique.

(** ** C87 *)
Theorem C87_tauc_lorentz : forall os Eg Einf e, 0 <= Eg -> 0 < e -> e <> Eg ->
  Forall (fun o => 0 < osc_B o /\ 0 < osc_E o /\ osc_B o ^ 2 <= 2 * osc_E o ^ 2) os ->
  exists z, tl_epsilon os Eg Einf e = Some z /\
    Im z = over_all (fun A B E => tauc_lorentz_absorption A B E Eg e) os /\
    kramers_kronig (fun xi => over_all (fun A B E => tauc_lorentz_absorption A B E Eg xi) os) e (Re z - Einf).
Proof. exact tl_kk_claim. Qed.
Print Assumptions C87_tauc_lorentz.

(** below and above the band gap *)
Example C87_ex : Forall (fun o => 0 < osc_B o /\ 0 < osc_E o /\ osc_B o ^ 2 <= 2 * osc_E o ^ 2)
    [(100, 2, 4); (20, 1, 3)] /\ 0 <= 1 /\ 0 < 1 / 2 /\ 1 / 2 <> 1 /\ 0 < 2 /\ 2 <> 1.
Proof. split; [repeat constructor; unfold osc_B, osc_E; simpl; lra|]. repeat split; lra. Qed.

(** ** C88: under-, critically and over-damped oscillators alike *)
Theorem C88_lorentz : forall os Einf e, 0 < e -> Forall (fun o => 0 < osc_B o /\ 0 < osc_E o) os ->
  exists z, lorentz_epsilon os Einf e = Some z /\
    Im z = over_all (fun A B E => lorentz_absorption A B E e) os /\
    kramers_kronig (fun xi => over_all (fun A B E => lorentz_absorption A B E xi) os) e (Re z - Einf).
Proof. exact lorentz_kk_claim. Qed.
Print Assumptions C88_lorentz.

Example C88_ex : Forall (fun o => 0 < osc_B o /\ 0 < osc_E o) [(1, 1/10, 3); (2, 6, 3); (1, 10, 1)].
Proof. repeat constructor; unfold osc_B, osc_E; simpl; lra. Qed.
