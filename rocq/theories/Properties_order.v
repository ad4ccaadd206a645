(** * The mixing rules compared; how they depend on volume fraction and shape (C155)

    Transparent media: refractive indices n, m > 0, [f] volume fraction of the second. *)

Require Import Reals Lra String.
From Coquelicot Require Import Complex.
From Verif Require Import Base M_ema P_ema P_order.
Open Scope string_scope.
Open Scope R_scope.

(** ** C155 *)
(** Wiener's bounds: between layers across the field and layers along it *)
Theorem C155_wiener : forall (n m f L : R) ema r, 0 < n -> 0 < m -> 0 <= f <= 1 -> 0 <= L <= 1 ->
  ema = "linear" \/ ema = "maxwell-garnett" \/ ema = "bruggeman" /\ L < 1 ->
  overall_ri (RtoC n) (RtoC m) f ema L = Ok (RtoC r) ->
  / ((1 - f) / (n ^ 2) + f / (m ^ 2)) <= r ^ 2 <= (1 - f) * n ^ 2 + f * m ^ 2.
Proof. exact ri_wiener. Qed.
Print Assumptions C155_wiener.

(** Bruggeman lies between the two Maxwell-Garnett mixtures (Hashin and Shtrikman for L = 1/3) *)
Theorem C155_hashin_shtrikman : forall n m f L r1 r2 r3 : R, 0 < n -> n <= m -> 0 <= f <= 1 -> 0 <= L < 1 ->
  overall_ri (RtoC n) (RtoC m) f "maxwell-garnett" L = Ok (RtoC r1) ->
  overall_ri (RtoC n) (RtoC m) f "bruggeman" L = Ok (RtoC r2) ->
  overall_ri (RtoC m) (RtoC n) (1 - f) "maxwell-garnett" L = Ok (RtoC r3) ->
  r1 <= r2 <= r3.
Proof. exact ri_order. Qed.
Print Assumptions C155_hashin_shtrikman.

(** which medium is the host matters *)
Theorem C155_symmetric_refuted : exists n m f L r1 r2 : R, 0 < n /\ 0 < m /\ 0 <= f <= 1 /\ 0 <= L <= 1 /\
  overall_ri (RtoC n) (RtoC m) f "maxwell-garnett" L = Ok (RtoC r1) /\
  overall_ri (RtoC m) (RtoC n) (1 - f) "maxwell-garnett" L = Ok (RtoC r2) /\ r1 < r2.
Proof. exact host_matters. Qed.
Print Assumptions C155_symmetric_refuted.

(** more of the denser medium: a higher index *)
Theorem C155_increasing : forall (n m f1 f2 L : R) ema r1 r2,
  0 < n -> n < m -> 0 <= f1 -> f1 < f2 -> f2 <= 1 -> 0 <= L <= 1 ->
  ema = "linear" \/ ema = "maxwell-garnett" \/ ema = "bruggeman" /\ L < 1 ->
  overall_ri (RtoC n) (RtoC m) f1 ema L = Ok (RtoC r1) -> overall_ri (RtoC n) (RtoC m) f2 ema L = Ok (RtoC r2) -> r1 < r2.
Proof. exact ri_grows. Qed.
Print Assumptions C155_increasing.

Theorem C155_decreasing : forall (n m f1 f2 L : R) ema r1 r2,
  0 < m -> m < n -> 0 <= f1 -> f1 < f2 -> f2 <= 1 -> 0 <= L <= 1 ->
  ema = "linear" \/ ema = "maxwell-garnett" \/ ema = "bruggeman" /\ L < 1 ->
  overall_ri (RtoC n) (RtoC m) f1 ema L = Ok (RtoC r1) -> overall_ri (RtoC n) (RtoC m) f2 ema L = Ok (RtoC r2) -> r2 < r1.
Proof. exact ri_shrinks. Qed.
Print Assumptions C155_decreasing.

(** the index determines the volume fraction *)
Theorem C155_determined : forall (n m f1 f2 L : R) ema z,
  0 < n -> 0 < m -> n <> m -> 0 <= f1 <= 1 -> 0 <= f2 <= 1 -> 0 <= L <= 1 ->
  ema = "linear" \/ ema = "maxwell-garnett" \/ ema = "bruggeman" /\ L < 1 ->
  overall_ri (RtoC n) (RtoC m) f1 ema L = Ok z -> overall_ri (RtoC n) (RtoC m) f2 ema L = Ok z -> f1 = f2.
Proof. exact ri_determines. Qed.
Print Assumptions C155_determined.

(** a greater depolarisation factor: a lower index, whichever medium is denser *)
Theorem C155_shape : forall (n m f L1 L2 : R) ema r1 r2,
  0 < n -> 0 < m -> 0 <= f <= 1 -> 0 <= L1 -> L1 <= L2 -> L2 <= 1 ->
  ema = "linear" \/ ema = "maxwell-garnett" \/ ema = "bruggeman" /\ L2 < 1 ->
  overall_ri (RtoC n) (RtoC m) f ema L1 = Ok (RtoC r1) -> overall_ri (RtoC n) (RtoC m) f ema L2 = Ok (RtoC r2) -> r2 <= r1.
Proof. exact ri_flattens. Qed.
Print Assumptions C155_shape.

(** silica in water; a result exists in every case above (C37) *)
Example C155_example : 0 < 4 / 3 /\ 4 / 3 < 3 / 2 /\ forall ema, ema = "linear" \/ ema = "maxwell-garnett" \/ ema = "bruggeman" ->
  exists r, overall_ri (RtoC (4 / 3)) (RtoC (3 / 2)) (1 / 4) ema (1 / 3) = Ok (RtoC r).
Proof.
  split; [lra|]. split; [lra|]. intros ema H.
  destruct (mix_between (4 / 3) (3 / 2) (1 / 4) (1 / 3) ema) as (r & E & _); try lra.
  - destruct H as [H|[H|H]]; auto. right; right. split; [exact H|lra].
  - exists r. exact E.
Qed.
