(** * Concrete instances: two points of glass in air *)

Require Import Reals List Bool ZArith String Lra Lia Sorting.Permutation.
From Coquelicot Require Import Complex.
From Verif Require Import Base M_tmm P_tmm M_disp P_disp M_struct M_model P_struct P_model M_data Spec_data P_data
  M_objective Spec_objective P_objective P_objective2 P_objective3 Spec_sumup P_sumup.
Import ListNotations.
Open Scope list_scope.
Open Scope R_scope.

(** the columns of two points, of the same points in the other order, and of the first one alone *)
Definition heap_s : heap :=
  [[Some 633; Some 633]; [Some 0; Some 0]; [Some 45; Some 44]; [Some 181; Some 179]; [Some 44; Some 45]; [Some 179; Some 181];
   [Some 633]; [Some 0]; [Some 45]; [Some 181]].
Definition sys_s : system := sys_ex 1 (3 / 2) heap_s.
Definition columns_s (a b c d : nat) (m : list bool) : objective :=
  Objective 0%nat (DataSE a b c d (MBool m) false true None tab) (Some 2%nat) true None.
Definition both_s := columns_s 0 1 2 3 [true; true].
Definition first_s := columns_s 0 1 2 3 [true; false].
Definition second_s := columns_s 0 1 2 3 [false; true].
Definition swapped_s := columns_s 0 1 4 5 [true; true].
Definition alone_s := columns_s 6 7 8 9 [true].
Definition p_s : point := (Some 633, Some 0, Some 45, Some 181).
Definition q_s : point := (Some 633, Some 0, Some 44, Some 179).
Lemma alike_s a b c d m a' b' c' d' m' : alike (columns_s a b c d m) (columns_s a' b' c' d' m').
Proof. repeat split. Qed.
Ltac has l m := exists l, m; split; [repeat split|]; split; [reflexivity|]; split; [repeat constructor|]; repeat constructor.
Lemma has_both : has_data sys_s both_s ([p_s] ++ [q_s]) [(633, 0); (633, 0)].
Proof. has [p_s; q_s] [true; true]. Qed.
Lemma has_first : has_data sys_s first_s [p_s] [(633, 0)].
Proof. has [p_s; q_s] [true; false]. Qed.
Lemma has_second : has_data sys_s second_s [q_s] [(633, 0)].
Proof. has [p_s; q_s] [false; true]. Qed.
Lemma has_swapped : has_data sys_s swapped_s [q_s; p_s] [(633, 0); (633, 0)].
Proof. has [q_s; p_s] [true; true]. Qed.
Lemma has_alone : has_data sys_s alone_s [p_s] [(633, 0)].
Proof. has [p_s] [true]. Qed.

Lemma chisqr_s (r : option (list R)) : r = Some [0; 0] ->
  fst (chisqr sys_s both_s r (st_g 0 0 None)) = Ok (Some 3) /\
  fst (chisqr sys_s first_s r (st_g 0 0 None)) = Ok (Some 1) /\ fst (chisqr sys_s second_s r (st_g 0 0 None)) = Ok (Some 2).
Proof.
  intros ->. set (st1 := set_store (st_g 0 0 None) (write_all (st_store (st_g 0 0 None)) [2%nat; 1%nat] [0; 0])).
  assert (S : forall a b c d m, setp sys_s (columns_s a b c d m) (Some [0; 0]) (st_g 0 0 None) = (Ok tt, st1)) by reflexivity.
  assert (A : at_point sys_s st1 0%nat (633, 0) (Some 45, Some 180)).
  { pose proof (model_g st1 eq_refl) as G. change (fst (call_model sys_s 0%nat [(633, 0)] st1) = Ok ([Some 45], [Some (180 + st_store st1 1%nat)])) in G.
    unfold at_point. rewrite G. cbn. do 3 f_equal. f_equal. lra. }
  assert (T1 : c_term (p_s, (Some 45, Some 180)) = Some 1).
  { unfold c_term, r_psi, r_delta, square, p_s, p_psi, p_delta, circular_distance. cbn [fst snd olift2 omap plus]. f_equal.
    rewrite (Rabs_left (180 - 181)) by lra. rewrite Rmin_left by lra. lra. }
  assert (T2 : c_term (q_s, (Some 45, Some 180)) = Some 2).
  { unfold c_term, r_psi, r_delta, square, q_s, p_psi, p_delta, circular_distance. cbn [fst snd olift2 omap plus]. f_equal.
    rewrite (Rabs_right (180 - 179)) by lra. rewrite Rmin_left by lra. lra. }
  assert (F1 : Forall2 (at_point sys_s st1 0%nat) [(633, 0)] [(Some 45, Some 180)]) by (repeat constructor; exact A).
  assert (F2 : Forall2 (at_point sys_s st1 0%nat) [(633, 0); (633, 0)] [(Some 45, Some 180); (Some 45, Some 180)]) by (repeat constructor; exact A).
  split; [|split].
  - rewrite (chisqr_points _ _ _ _ _ _ _ _ has_both (S _ _ _ _ _) F2). change (Ok (nsum [c_term (p_s, (Some 45, Some 180)); c_term (q_s, (Some 45, Some 180))]) = Ok (Some 3)). rewrite T1, T2. cbn. do 2 f_equal. lra.
  - rewrite (chisqr_points _ _ _ _ _ _ _ _ has_first (S _ _ _ _ _) F1). change (Ok (nsum [c_term (p_s, (Some 45, Some 180))]) = Ok (Some 1)). rewrite T1. cbn. do 2 f_equal. lra.
  - rewrite (chisqr_points _ _ _ _ _ _ _ _ has_second (S _ _ _ _ _) F1). change (Ok (nsum [c_term (q_s, (Some 45, Some 180))]) = Ok (Some 2)). rewrite T2. cbn. do 2 f_equal. lra.
Qed.
Lemma logl_s : exists a b, fst (logl sys_s first_s (Some [0; 0]) (st_g 0 0 None)) = Ok a /\ fst (logl sys_s second_s (Some [0; 0]) (st_g 0 0 None)) = Ok b /\
  fst (logl sys_s both_s (Some [0; 0]) (st_g 0 0 None)) = Ok (a + b).
Proof.
  set (st1 := set_store (st_g 0 0 None) (write_all (st_store (st_g 0 0 None)) [2%nat; 1%nat] [0; 0])).
  assert (S : forall a b c d m, setp sys_s (columns_s a b c d m) (Some [0; 0]) (st_g 0 0 None) = (Ok tt, st1)) by reflexivity.
  assert (A : at_point sys_s st1 0%nat (633, 0) (Some 45, Some (180 + st_store st1 1%nat))).
  { exact (model_g st1 eq_refl). }
  assert (F1 : Forall2 (at_point sys_s st1 0%nat) [(633, 0)] [(Some 45, Some (180 + st_store st1 1%nat))]) by (repeat constructor; exact A).
  assert (G : exists a b, fst (logl sys_s first_s (Some [0; 0]) (st_g 0 0 None)) = Ok a /\ fst (logl sys_s second_s (Some [0; 0]) (st_g 0 0 None)) = Ok b).
  { rewrite (logl_points _ _ _ _ _ _ _ _ has_first (S _ _ _ _ _) F1), (logl_points _ _ _ _ _ _ _ _ has_second (S _ _ _ _ _) F1).
    cbn [combine map]. cbn. do 2 eexists. split; reflexivity. }
  destruct G as (a & b & G1 & G2). exists a, b. split; [exact G1|]. split; [exact G2|].
  apply (proj2 (additive_logl sys_s both_s first_s second_s _ _ _ _ _ _ _ (alike_s _ _ _ _ _ _ _ _ _ _) (alike_s _ _ _ _ _ _ _ _ _ _) has_both has_first has_second (a + b))).
  eauto.
Qed.
