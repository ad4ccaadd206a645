(** * Model of the linear algebra in ObjectiveSE.covar (objectiveSE.py:487-525)

    A matrix is the list of its rows.  numpy's svd is an argument: it returns the singular values and
    the rows of VT, or raises (no convergence). *)

Require Import Reals List Bool Arith.
From Verif Require Import Base Mat M_disp M_struct M_model M_data M_objective.
Import ListNotations.
Open Scope list_scope.
Open Scope R_scope.

Definition svd_fun := list (list R) -> result (list R * list (list R)).

(** np.finfo(float).eps *)
Definition eps : R := / 2 ^ 52.
(** 496: eps * max(jac.shape) * s[0] *)
Definition threshold (m n : nat) (s0 : R) : R := eps * INR (Nat.max m n) * s0.

(** 495-499 and, if the residuals were scaled, 501-503; [n] is the number of columns *)
Definition pseudo_inverse (m n : nat) (s : list R) (VT : list (list R)) (used : bool) (p : list R)
  : result (list (list R)) :=
  match s with
  | [] => Raise IndexError
  | s0 :: _ =>
      let s' := filter (fun x => if Rlt_dec (threshold m n s0) x then true else false) s in
      let VT' := firstn (List.length s') VT in
      let cov := matrix n n (fun i j =>
        sumn (List.length s') (fun k => entry VT' k i / (nth k s' 0) ^ 2 * entry VT' k j)) in
      Ok (if used then matrix n n (fun i j => entry cov i j * nth j p 0 * nth i p 0) else cov)
  end.

(** 505-506: the positions of the parameters reported in the LinAlgError *)
Definition singular (n : nat) (cov : list (list R)) : list nat :=
  filter (fun i => if Req_EM_T (entry cov i i) 0 then true else false) (seq 0 n).

(** 492-516; LinAlgError is [OtherError] *)
Definition algebra (svd : svd_fun) (jac : list (list R)) (used : bool) (p : list R) : result (list (list R)) :=
  rbind (svd jac) (fun sv =>
  rbind (pseudo_inverse (List.length jac) (List.length p) (fst sv) (snd sv) used p) (fun cov =>
  match singular (List.length p) cov with [] => Ok cov | _ => Raise OtherError end)).

(** objectiveSE.py:453-525 *)
Definition covariance (sy : system) (o : objective) (approx1 approx2 : list R -> differentiator) (svd : svd_fun)
  : call (list (list R)) := covar sy o approx1 approx2 (algebra svd).
