(** * Property C151: negative take_every and dropdatapoints of open_M2000file *)

Require Import Reals ZArith List Bool String Ascii Sorting.Sorted.
From Verif Require Import Base M_data Spec_data M_ep4 Spec_ep4 M_instr M_strides Spec_instr P_instr P_instr4 P_strides.
Import ListNotations.
Open Scope list_scope.
Open Scope R_scope.

(** For integers that are not negative the loader is the one of C76 and C77. *)
Theorem C151_natural : forall pf f table te drop,
  open_M2000file_z pf f table (Z.of_nat te) (Z.of_nat drop) = open_M2000file pf f table te drop.
Proof. exact natural. Qed.
Print Assumptions C151_natural.

(** The sign of take_every has no effect, *)
Theorem C151_take_every : forall pf f table te drop,
  open_M2000file_z pf f table (- te) drop = open_M2000file_z pf f table te drop.
Proof. exact sign_of_take_every. Qed.
Print Assumptions C151_take_every.

(** ... that of dropdatapoints has: the points are those counted from the last one, backwards. *)
Theorem C151_static : forall pf te d l0 l1 kvs recs pts rest table,
  vase_line kvs l1 -> Forall2 (record pf) recs pts -> recs <> [] -> ends rest -> (0 < d)%nat ->
  exists x sel, open_M2000file_z pf (ByName (l0 :: l1 :: ("nm" ++ newline)%string :: List.concat recs ++ rest)) table te (- Z.of_nat d)
                = Ok (kvs, OneSet x) /\ every d (rev pts) sel /\ stores x false sel.
Proof. exact static_backwards. Qed.
Print Assumptions C151_static.
Theorem C151_no_records : forall pf te d l0 l1 kvs rest table, vase_line kvs l1 -> ends rest -> (0 < d)%nat ->
  open_M2000file_z pf (ByName (l0 :: l1 :: ("nm" ++ newline)%string :: rest)) table te (- Z.of_nat d) = Raise IndexError.
Proof. exact backwards_none. Qed.
Print Assumptions C151_no_records.

(** In a time series the same holds for every step; which steps are kept, and under which keys, is unchanged. *)
Theorem C151_dynamic : forall pf f l0 l1 kvs rest table te drop, vase_line kvs l1 ->
  f = ByName (l0 :: l1 :: ("Dynamic" ++ newline)%string :: rest) \/ f = ByHandle (l0 :: l1 :: ("Dynamic" ++ newline)%string :: rest) ->
  open_M2000file_z pf f table te drop = rmap (fun d => (kvs, Dict d)) (M2000_kinetic_z te drop table).
Proof. exact dynamic_z. Qed.
Print Assumptions C151_dynamic.
Theorem C151_steps : forall te drop rows ts kept, te <> 0%Z -> (0 < drop)%nat -> is_times rows ts -> every (Z.abs_nat te) ts kept ->
  exists d, M2000_kinetic_z te (- Z.of_nat drop) rows = Ok d /\ NoDup (map fst d) /\
    (forall k, In k (map fst d) <-> exists t, In t kept /\ seconds t k) /\
    (forall before t after k, kept = before ++ t :: after -> seconds t k -> (forall t', In t' after -> ~ seconds t' k) ->
       exists x sel, In (k, x) d /\ every drop (rev (rows_at t rows)) sel /\ stores x false sel).
Proof. exact kinetic_backwards. Qed.
Print Assumptions C151_steps.

(** dropdatapoints = -2 does not give the points of dropdatapoints = 2 in another order. *)
Theorem C151_same_points_refuted : exists file x x',
  open_M2000file_z ex_pf (ByName file) [] 1 2 = Ok (ex_kvs, OneSet x) /\ ld_wav x = [Some 500] /\
  open_M2000file_z ex_pf (ByName file) [] 1 (-2) = Ok (ex_kvs, OneSet x') /\ ld_wav x' = [Some 600].
Proof. exact other_points. Qed.
Print Assumptions C151_same_points_refuted.

Example C151_example : vase_line ex_kvs ex_vase /\ Forall2 (record ex_pf) [ex_rec "500" "20"; ex_rec "600" "30"] ex_pts /\ ends [""%string].
Proof. exact ex_static. Qed.
Example C151_steps_example : (-2)%Z <> 0%Z /\ is_times ex_rows [1; 2; 3] /\ every (Z.abs_nat (-2)) [1; 2; 3] [1; 3].
Proof. split; [discriminate|]. destruct ex_times as (A & B & _). auto. Qed.
