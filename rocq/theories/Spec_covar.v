(** * Specification: covariance matrices, singular value decompositions, partial derivatives *)

Require Import Reals List Arith.
From Coquelicot Require Import Coquelicot.
From Verif Require Import Base Mat M_disp M_struct M_model M_data M_objective.
Import ListNotations.
Open Scope list_scope.
Open Scope R_scope.

Definition delta (i j : nat) : R := if Nat.eqb i j then 1 else 0.
Definition is_matrix (m n : nat) (M : list (list R)) : Prop :=
  List.length M = m /\ List.Forall (fun r => List.length r = n) M.
(** J^T J *)
Definition gram (m : nat) (J : list (list R)) (i j : nat) : R := sumn m (fun k => entry J k i * entry J k j).
(** A is the inverse of B *)
Definition inverse_of (n : nat) (A B : nat -> nat -> R) : Prop :=
  forall i j, (i < n)%nat -> (j < n)%nat ->
    sumn n (fun k => A i k * B k j) = delta i j /\ sumn n (fun k => B i k * A k j) = delta i j.

(** the singular values s and the rows of VT belong to the m x n matrix J (full_matrices=False) *)
Definition is_svd (m n : nat) (J : list (list R)) (s : list R) (VT : list (list R)) : Prop :=
  let q := Nat.min m n in
  List.length s = q /\ is_matrix q n VT /\
  (forall k l, (k <= l)%nat -> (l < q)%nat -> 0 <= nth l s 0 <= nth k s 0) /\
  (forall k l, (k < q)%nat -> (l < q)%nat -> sumn n (fun j => entry VT k j * entry VT l j) = delta k l) /\
  exists U : nat -> nat -> R,
    (forall k l, (k < q)%nat -> (l < q)%nat -> sumn m (fun i => U i k * U i l) = delta k l) /\
    (forall i j, (i < m)%nat -> (j < n)%nat -> entry J i j = sumn q (fun k => U i k * nth k s 0 * entry VT k j)).

(** squared lengths *)
Definition norm2 (n : nat) (x : nat -> R) : R := sumn n (fun i => x i ^ 2).
Definition apply (n : nat) (J : list (list R)) (x : nat -> R) (i : nat) : R := sumn n (fun j => entry J i j * x j).
Definition frobenius2 (m n : nat) (J : list (list R)) : R := sumn m (fun i => sumn n (fun j => entry J i j ^ 2)).
(** the relative accuracy of double precision, 2^-52 *)
Definition unit_roundoff : R := / 2 ^ 52.
(** every direction is seen in the residuals well above rounding errors *)
Definition well_conditioned (m n : nat) (J : list (list R)) : Prop :=
  forall x, 0 < norm2 n x ->
    (unit_roundoff * INR (Nat.max m n)) ^ 2 * frobenius2 m n J * norm2 n x < norm2 m (apply n J x).
(** the direction is not seen *)
Definition invisible (m n : nat) (J : list (list R)) (j : nat) : Prop :=
  norm2 m (fun i => entry J i j) <= (unit_roundoff * INR (Nat.max m n)) ^ 2 * frobenius2 m n J.

(** the columns of J multiplied by the numbers p *)
Definition columns_scaled (m n : nat) (J : list (list R)) (p : list R) (J' : list (list R)) : Prop :=
  is_matrix m n J' /\ forall i j, (i < m)%nat -> (j < n)%nat -> entry J' i j = entry J i j * nth j p 0.

(** x with t added at position j *)
Definition bump (x : list R) (j : nat) (t : R) : list R :=
  map (fun i => nth i x 0 + (if Nat.eqb i j then t else 0)) (seq 0 (List.length x)).
(** J holds the partial derivatives at x of the m residuals, which are numbers near x *)
Definition partials (m : nat) (F : list R -> result (list num)) (x : list R) (J : list (list R)) : Prop :=
  is_matrix m (List.length x) J /\
  exists g : nat -> nat -> R -> R,
    (forall j, (j < List.length x)%nat -> locally 0 (fun t =>
       F (bump x j t) = Ok (map (fun i => Some (g i j t)) (seq 0 m)))) /\
    forall i j, (i < m)%nat -> (j < List.length x)%nat -> is_derive (g i j) 0 (entry J i j).

(** ** Central differences (the default of scipy's approx_derivative) with steps h, in exact
    arithmetic; a nan in the residuals ends in the exception e *)
Definition quotients (t : R) (a b : list num) : option (list R) :=
  mapM (fun x : num * num => olift2 (fun y z => (z - y) / (2 * t)) (fst x) (snd x)) (combine a b).
Fixpoint central (e : exn) (h : nat -> R) (x : list R) (js : list nat) (cols : list (list R)) : differentiator :=
  match js with
  | [] => Return (matrix (List.length (nth 0 cols [])) (List.length cols) (fun i j => nth i (nth j cols []) 0))
  | j :: js' =>
      Probe (bump x j (- h j)) (fun a => Probe (bump x j (h j)) (fun b =>
        match a, b with
        | Ok a, Ok b => match quotients (h j) a b with
                        | Some col => central e h x js' (cols ++ [col])
                        | None => Throw e
                        end
        | Raise e', _ => Throw e'
        | _, Raise e' => Throw e'
        end))
  end.
Definition central_differences (e : exn) (h : list R -> nat -> R) (x : list R) : differentiator :=
  central e (h x) x (seq 0 (List.length x)) [].

(** x^T A x *)
Definition quad (n : nat) (A : nat -> nat -> R) (x : nat -> R) : R := sumn n (fun i => sumn n (fun j => x i * A i j * x j)).
(** what the inverse is multiplied with: nothing if the data have uncertainties, otherwise the
    chi-squared value per degree of freedom *)
Definition variance_scale (sy : system) (o : objective) (st : state) (m n : nat) (c : R) : Prop :=
  (weighted o = true /\ c = 1) \/
  (weighted o = false /\ m <> n /\ exists c2, fst (chisqr sy o None st) = Ok (Some c2) /\ c = c2 / (INR m - INR n)).

(** a decomposition that is returned is correct *)
Definition svd_correct (svd : list (list R) -> result (list R * list (list R))) : Prop :=
  forall m n J s VT, is_matrix m n J -> svd J = Ok (s, VT) -> is_svd m n J s VT.
(** no parameter of the model reads p *)
Definition unread (sy : system) (o : objective) (p : pid) : Prop :=
  forall q store x, In q (model_params sy (ob_model o)) ->
    read (sy_params sy) (write store p x) q = read (sy_params sy) store q.
(** the numerical differentiation returned [jac]: of the residuals as a function of multiples of the
    parameter values ([used]); or, if a value is 0 or that ended in a FloatingPointError, of the residuals
    as a function of the values *)
Definition differentiated (sy : system) (o : objective) (a1 a2 : list R -> differentiator) (st : state)
    (used : bool) (jac : list (list R)) : Prop :=
  let pvals := map (value sy st) (varying_parameters sy o) in
  let scaled := run_diff (fun v => residuals sy o (Some (map2 Rmult pvals v))) (a1 (map (fun _ => 1) pvals)) in
  let plain := run_diff (fun v => residuals sy o (Some v)) (a2 pvals) in
  (used = true /\ List.Forall (fun x => x <> 0) pvals /\ exists st1, scaled st = (Ok jac, st1)) \/
  (used = false /\
   ((List.Exists (fun x => x = 0) pvals /\ exists st1, plain st = (Ok jac, st1)) \/
    (List.Forall (fun x => x <> 0) pvals /\ exists st1 st2,
       scaled st = (Raise FloatingPointError, st1) /\ plain st1 = (Ok jac, st2)))).
(** a differentiation that returns the matrix without evaluating anything *)
Definition known (jac : list (list R)) : list R -> differentiator := fun _ => Return jac.
