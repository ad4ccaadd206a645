(** * Input tests of coh_tmm and Delta_Psi_TMM (C93) and names of EP4 datasets (C94) *)

Require Import Reals List Bool String.
From Coquelicot Require Import Complex.
From Verif Require Import Base M_tmm M_data M_ep4 Spec_guard P_guard.
Import ListNotations.
Open Scope list_scope.
Open Scope R_scope.

(** ** C93 *)
Theorem C93_coh_tmm : forall n0 n_rest d_list pts,
  ((exists p, In p pts /\ 100 * / 2 ^ 52 <= Rabs (Im n0 * sin (fst p))) ->
     coh_tmm (n0 :: n_rest) d_list pts = Raise AssertionError) /\
  ((forall p, In p pts -> Rabs (Im n0 * sin (fst p)) < 100 * / 2 ^ 52) ->
     (n_rest = [] -> coh_tmm (n0 :: n_rest) d_list pts = Raise IndexError) /\
     (n_rest <> [] -> List.length d_list = S (List.length n_rest) ->
        exists res, coh_tmm (n0 :: n_rest) d_list pts = Ok res /\ List.length res = List.length pts)).
Proof. exact coh_tmm_guards. Qed.
Print Assumptions C93_coh_tmm.

(** a wrong number of thicknesses is noticed only with four or more media, unless there is one inner thickness: that one
    is then used for every layer *)
Theorem C93_thicknesses : forall n0 n_rest d_list pts, (forall p, In p pts -> Rabs (Im n0 * sin (fst p)) < 100 * / 2 ^ 52) ->
  let coh d := coh_tmm (n0 :: n_rest) d pts in let media := List.length n_rest in
  (media = 1%nat -> coh d_list = coh [PInf; PInf]) /\
  (media = 2%nat -> (List.length d_list <= 2)%nat -> coh d_list = Raise IndexError) /\
  (media = 2%nat -> forall a x b l, d_list = a :: x :: b :: l -> coh d_list = coh [PInf; x; PInf]) /\
  ((2 <= media)%nat -> forall a x b, d_list = [a; x; b] -> coh d_list = coh (PInf :: repeat x (media - 1) ++ [PInf])) /\
  ((3 <= media)%nat -> List.length d_list <> 3%nat -> List.length d_list <> S media -> coh d_list = Raise ValueError).
Proof. exact thicknesses. Qed.
Print Assumptions C93_thicknesses.

(** nothing is calculated with an infinite thickness between the ends *)
Theorem C93_infinite : forall n_list d_list pts res i, coh_tmm n_list d_list pts = Ok res -> List.length d_list = List.length n_list ->
  nth_error d_list i = Some PInf -> (0 < i)%nat -> (S i < List.length d_list)%nat -> Forall (fun a => a = mkAmp None None) res.
Proof. exact infinite_layer. Qed.
Print Assumptions C93_infinite.

Example C93_infinite_example : exists a, coh_tmm [RtoC 1; RtoC 2; RtoC 3] [PInf; PInf; PInf] [(0, 633)] = Ok [a].
Proof. exact infinite_example. Qed.

Theorem C93_Delta_Psi_TMM : forall AOI l0 rest w off refl,
  let out := fst (Delta_Psi_TMM AOI (l0 :: rest) w off refl) in
  (l_ri l0 = None -> AOI <> [] -> out = Raise AssertionError) /\
  ((l_ri l0 <> None \/ AOI = []) -> rest = [] -> out = Raise IndexError) /\
  ((l_ri l0 <> None \/ AOI = []) -> rest <> [] ->
     exists res, out = Ok res /\ List.length res = List.length AOI /\
       ((exists l, In l rest /\ l_ri l = None) -> Forall (fun r => r = (None, None)) res)).
Proof. exact Delta_Psi_guards. Qed.
Print Assumptions C93_Delta_Psi_TMM.

(** an absorbing fronting medium is rejected by coh_tmm *)
Example C93_example : coh_tmm [(3/2, 1 / 10)] [PInf] [(PI / 2, 633)] = Raise AssertionError.
Proof. exact guard_example. Qed.

(** ** C94 *)
Theorem C94_names : forall pr fname t refl r d, open_EP4file pr fname t refl = Ok r -> In d (entries r) ->
  exists base time, stem fname base /\ sm_time (snd (fst d)) = Some time /\
    fst (fst d) = (base ++ match sm_pos (snd (fst d)) with Some (x, y) => "_x=" ++ pr x ++ "mm_y=" ++ pr y ++ "mm" | None => "" end
                        ++ match time with Some t => "_t=" ++ pr t ++ "s" | None => "" end)%string.
Proof. exact open_names. Qed.
Print Assumptions C94_names.

Theorem C94_distinct : forall pr fname t refl r d d' S, readable pr S -> open_EP4file pr fname t refl = Ok r ->
  In d (entries r) -> In d' (entries r) ->
  (forall x, named (snd (fst d)) x \/ named (snd (fst d')) x -> S x) -> fst (fst d) = fst (fst d') ->
  sm_pos (snd (fst d)) = sm_pos (snd (fst d')) /\ sm_time (snd (fst d)) = sm_time (snd (fst d')).
Proof. exact open_names_distinct. Qed.
Print Assumptions C94_distinct.

Example C94_example_printer : readable pr01 (fun x => x = 0 \/ x = 1).
Proof. exact pr01_readable. Qed.
Example C94_example : exists base, stem "gold_20200929-083122.ds.dat" base /\
  EP4_name pr01 "gold_20200929-083122.ds.dat" (Summary [] [] [] [] (Some (0, 1)) (Some (Some 1))) = Ok (base ++ "_x=0.0mm_y=1.0mm_t=1.0s")%string /\
  base = "gold"%string.
Proof. exact name01. Qed.
