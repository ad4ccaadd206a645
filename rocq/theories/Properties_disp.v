(** * Theorems about dispersion curves (properties C50-C62)

    Each theorem stands beside an [Example] showing that its hypotheses can be met. *)

Require Import Reals List ZArith String Lra Lia Sorting.Sorted Sorting.Permutation.
From Coquelicot Require Import Complex.
From Verif Require Import Base Cplx M_ema Spec_ema M_disp Spec_disp Spec_nested P_disp P_disp2 P_nested M_materials P_materials Spec_materials P_materials2.
Import ListNotations.
Open Scope R_scope.

(** ** C50 *)
Theorem C50_table_interpolates : forall wav n k wl name w,
  increasing wav -> (exists x, In x wav /\ x <> 0) ->
  List.length n = List.length wav -> List.length k = List.length wav -> w <> 0 ->
  exists re im, sc_complex (Scatterer (K_RI (RI_table wav n k)) wl name) (Some w) = Ok (Some (re, im)) /\
    interpolates wav n w re /\ interpolates wav k w im.
Proof. exact RI_table_interp. Qed.
Print Assumptions C50_table_interpolates.

(** the specification determines the value *)
Theorem C50_interpolant_unique : forall xs ys x v v', increasing xs -> xs <> [] ->
  interpolates xs ys x v -> interpolates xs ys x v' -> v = v'.
Proof. exact interpolates_unique. Qed.
Print Assumptions C50_interpolant_unique.

(** the bounds hold for any order of the table and any wavelength argument *)
Theorem C50_table_bounds : forall wav n k wl name w nlo nhi klo khi,
  (exists x, In x wav /\ x <> 0) ->
  List.length n = List.length wav -> List.length k = List.length wav ->
  Forall (fun y => nlo <= y <= nhi) n -> Forall (fun y => klo <= y <= khi) k ->
  exists re im, sc_complex (Scatterer (K_RI (RI_table wav n k)) wl name) w = Ok (Some (re, im)) /\
    nlo <= re <= nhi /\ klo <= im <= khi.
Proof. exact RI_table_bounds. Qed.
Print Assumptions C50_table_bounds.

Example C50_ex : increasing [400; 500; 700] /\ (exists x, In x [400; 500; 700] /\ x <> 0) /\
  Forall (fun y => 14/10 <= y <= 16/10) [16/10; 15/10; 14/10].
Proof.
  split; [|split].
  - repeat constructor; lra.
  - exists 400. split; [left; auto|lra].
  - repeat constructor; lra.
Qed.

(** ** C51 *)
Theorem C51_file_lookup : forall h path wu n k wl name i, increasing wu -> (2 <= List.length wu)%nat ->
  List.length n = List.length wu -> List.length k = List.length wu ->
  (i < List.length wu)%nat -> nth i wu 0 <> 0 ->
  exists o h', RI_init h (D_file path [wu; n; k]) wl name = (Ok o, h') /\
  sc_complex (ri_view h' o) (Some (1000 * nth i wu 0)) = Ok (Some (nth i n 0, nth i k 0)) /\
  (forall a, (a < List.length h)%nat -> nth a h' (Arr []) = nth a h (Arr [])).
Proof. exact RI_file_lookup. Qed.
Print Assumptions C51_file_lookup.

(** a file of two columns has no absorption *)
Theorem C51_file_lookup_transparent : forall h path wu n wl name i, increasing wu -> (2 <= List.length wu)%nat ->
  List.length n = List.length wu -> (i < List.length wu)%nat -> nth i wu 0 <> 0 ->
  exists o h', RI_init h (D_file path [wu; n]) wl name = (Ok o, h') /\
  sc_complex (ri_view h' o) (Some (1000 * nth i wu 0)) = Ok (Some (nth i n 0, 0)).
Proof. exact RI_file_lookup2. Qed.
Print Assumptions C51_file_lookup_transparent.

(** a file of one row is read without complaint, but every lookup then fails *)
Theorem C51_single_row : forall h path w n rest wl name v,
  Forall (fun c => List.length c = 1%nat) rest -> w <> 0 ->
  exists o h', RI_init h (D_file path ([w] :: [n] :: rest)) wl name = (Ok o, h') /\
  sc_complex (ri_view h' o) v = Raise ValueError.
Proof. exact RI_file_row_unusable. Qed.
Print Assumptions C51_single_row.

Example C51_single_row_ex : Forall (fun c : list R => List.length c = 1%nat) [[0]].
Proof. repeat constructor. Qed.

Theorem C51_triple_lookup : forall h aw an ak wu n k wl name i, increasing wu ->
  List.length n = List.length wu -> List.length k = List.length wu ->
  (i < List.length wu)%nat -> nth i wu 0 <> 0 ->
  nth_error h aw = Some (Arr wu) -> nth_error h an = Some (Arr n) -> nth_error h ak = Some (Arr k) ->
  aw <> an -> aw <> ak ->
  exists o h', RI_init h (D_triple aw an ak) wl name = (Ok o, h') /\
  sc_complex (ri_view h' o) (Some (1000 * nth i wu 0)) = Ok (Some (nth i n 0, nth i k 0)).
Proof. exact RI_triple_lookup. Qed.
Print Assumptions C51_triple_lookup.

Example C51_ex : increasing [4/10; 8/10] /\ nth 1 [4/10; 8/10] 0 <> 0.
Proof. split; [repeat constructor; lra|simpl; lra]. Qed.

(** ** C52 *)

(** exactly what construction from three arrays does to memory *)
Theorem C52_triple_effect : forall h aw an ak wl name, (aw < List.length h)%nat ->
  exists o, RI_init h (D_triple aw an ak) wl name = (Ok o, update h aw times1000) /\
  nth aw (update h aw times1000) (Arr []) = times1000 (nth aw h (Arr [])) /\
  (forall a, a <> aw -> nth a (update h aw times1000) (Arr []) = nth a h (Arr [])).
Proof. exact RI_triple_effect. Qed.
Print Assumptions C52_triple_effect.

(** the caller's array changes, and a second construction changes what the first returns *)
Theorem C52_input_preserved_refuted : exists h aw an ak w,
  match RI_init h (D_triple aw an ak) 658 EmptyString with
  | (Ok o1, h1) =>
      nth aw h1 (Arr []) <> nth aw h (Arr []) /\
      match RI_init h1 (D_triple aw an ak) 658 EmptyString with
      | (Ok o2, h2) => sc_complex (ri_view h1 o1) (Some w) <> sc_complex (ri_view h2 o1) (Some w) /\
                       sc_complex (ri_view h1 o1) (Some w) <> sc_complex (ri_view h2 o2) (Some w)
      | _ => False
      end
  | _ => False
  end.
Proof.
  exists [Arr [4/10; 8/10]; Arr [1; 2]; Arr [0; 0]], 0%nat, 1%nat, 2%nat, 800.
  cbn [RI_init update times1000 map nth].
  assert (V1 : sc_complex (ri_view [Arr [4/10 * 1000; 8/10 * 1000]; Arr [1; 2]; Arr [0; 0]]
     (RIObj (A_table 0 1 2) 658 EmptyString)) (Some 800) = Ok (Some (2, 0))).
  { destruct (RI_table_interp [4/10 * 1000; 8/10 * 1000] [1; 2] [0; 0] 658 EmptyString 800)
      as [re [im [E [[_ [H1 _]] [_ [H2 _]]]]]]; try reflexivity; try lra.
    - repeat constructor; lra.
    - exists (4/10 * 1000). split; [left; auto|lra].
    - specialize (H1 ltac:(simpl; lra)). specialize (H2 ltac:(simpl; lra)). simpl in H1, H2. subst re im. exact E. }
  assert (V2 : sc_complex (ri_view [Arr [4/10 * 1000 * 1000; 8/10 * 1000 * 1000]; Arr [1; 2]; Arr [0; 0]]
     (RIObj (A_table 0 1 2) 658 EmptyString)) (Some 800) = Ok (Some (1, 0))).
  { destruct (RI_table_interp [4/10 * 1000 * 1000; 8/10 * 1000 * 1000] [1; 2] [0; 0] 658 EmptyString 800)
      as [re [im [E [[H1 _] [H2 _]]]]]; try reflexivity; try lra.
    - repeat constructor; lra.
    - exists (4/10 * 1000 * 1000). split; [left; auto|lra].
    - specialize (H1 ltac:(simpl; lra)). specialize (H2 ltac:(simpl; lra)). simpl in H1, H2. subst re im. exact E. }
  split.
  - intros H. assert (4 / 10 * 1000 = 4 / 10) by congruence. lra.
  - rewrite V1, V2. split; intros H; assert (2 = 1) by congruence; lra.
Qed.
Print Assumptions C52_input_preserved_refuted.

(** a wavelength list is repeated 1000 times: every lookup then fails *)
Theorem C52_list_unusable : forall h aw an ak wu cn ck wl name w, (exists x, In x wu /\ x <> 0) ->
  nth_error h aw = Some (PyList wu) -> nth_error h an = Some cn -> nth_error h ak = Some ck ->
  List.length (cell_values cn) = List.length wu -> aw <> an ->
  exists o h', RI_init h (D_triple aw an ak) wl name = (Ok o, h') /\
  sc_complex (ri_view h' o) w = Raise ValueError.
Proof. exact RI_triple_list. Qed.
Print Assumptions C52_list_unusable.

Example C52_ex : nth_error [PyList [4/10; 8/10]; Arr [1; 2]; Arr [0; 0]] 0 = Some (PyList [4/10; 8/10]).
Proof. reflexivity. Qed.

(** ** C53 *)
Theorem C53_name_from_path_refuted : forall h path w n rest wl, (2 <= List.length w)%nat ->
  exists o h', RI_init h (D_file path (w :: n :: rest)) wl EmptyString = (Ok o, h') /\
  ri_name o = EmptyString.
Proof. intros h path w n rest wl H. rewrite RI_file_table by exact H. do 2 eexists. split; reflexivity. Qed.
Print Assumptions C53_name_from_path_refuted.

(** ** C54 *)
Theorem C54_default_unused : forall kd wl1 wl2 nm1 nm2 w, w <> 0 ->
  sc_complex (Scatterer kd wl1 nm1) (Some w) = sc_complex (Scatterer kd wl2 nm2) (Some w).
Proof. exact default_unused. Qed.
Print Assumptions C54_default_unused.

Theorem C54_default_used : forall s, sc_wavelength s <> 0 ->
  sc_complex s None = sc_complex s (Some (sc_wavelength s)) /\
  sc_complex s (Some 0) = sc_complex s (Some (sc_wavelength s)).
Proof. exact default_used. Qed.
Print Assumptions C54_default_used.

Example C54_ex : sc_wavelength (Scatterer (K_Cauchy 1 0 0) 658 EmptyString) <> 0.
Proof. simpl. lra. Qed.

(** ** C55 *)
Theorem C55_cauchy_formula : forall A B Cc wl name w, w <> 0 ->
  sc_complex (Scatterer (K_Cauchy A B Cc) wl name) (Some w) =
  Ok (Some (A + B / (w / 1000) ^ 2 + Cc / (w / 1000) ^ 4, 0)).
Proof. exact cauchy_formula. Qed.
Print Assumptions C55_cauchy_formula.

Theorem C55_cauchy_decreasing : forall A B Cc wl name w1 w2,
  0 < w1 < w2 -> 0 <= B -> 0 <= Cc -> 0 < B + Cc ->
  exists n1 n2, sc_complex (Scatterer (K_Cauchy A B Cc) wl name) (Some w1) = Ok (Some (n1, 0)) /\
    sc_complex (Scatterer (K_Cauchy A B Cc) wl name) (Some w2) = Ok (Some (n2, 0)) /\ n2 < n1.
Proof. exact cauchy_decreasing. Qed.
Print Assumptions C55_cauchy_decreasing.

(** without the sign conditions it increases: for every B < 0 *)
Theorem C55_cauchy_increasing : forall A B wl name w1 w2, 0 < w1 < w2 -> B < 0 ->
  exists n1 n2, sc_complex (Scatterer (K_Cauchy A B 0) wl name) (Some w1) = Ok (Some (n1, 0)) /\
    sc_complex (Scatterer (K_Cauchy A B 0) wl name) (Some w2) = Ok (Some (n2, 0)) /\ n1 < n2.
Proof. exact cauchy_increasing. Qed.
Print Assumptions C55_cauchy_increasing.

Example C55_ex : 0 < 400 < 700 /\ 0 <= 1/100 /\ 0 <= 0 /\ 0 < 1/100 + 0.
Proof. lra. Qed.

(** ** C56 *)
Theorem C56_sellmeier_formula : forall Am En P Einf w, (w / 1000) ^ 2 <> En ^ 2 ->
  sellmeier_epsilon Am En P Einf w =
  Some (RtoC (Einf + Am * (w / 1000) ^ 2 / ((w / 1000) ^ 2 - En ^ 2) - P * (w / 1000) ^ 2)).
Proof. exact sellmeier_formula. Qed.
Print Assumptions C56_sellmeier_formula.

Theorem C56_sellmeier_index : forall Am En P Einf wl name w e, w <> 0 ->
  sellmeier_epsilon Am En P Einf w = Some (RtoC e) ->
  sc_complex (Scatterer (K_Sellmeier Am En P Einf) wl name) (Some w) =
  Ok (if Rle_dec 0 e then Some (RtoC (sqrt e)) else None).
Proof. exact sellmeier_eps. Qed.
Print Assumptions C56_sellmeier_index.

Theorem C56_sellmeier_resonance : forall Am En P Einf wl name w, w <> 0 -> (w / 1000) ^ 2 = En ^ 2 ->
  sc_complex (Scatterer (K_Sellmeier Am En P Einf) wl name) (Some w) = Ok None.
Proof. exact sellmeier_resonance. Qed.
Print Assumptions C56_sellmeier_resonance.

Theorem C56_sellmeier_decreasing : forall Am En P Einf wl name w1 w2 n1 n2,
  0 < w1 < w2 -> 0 <= Am -> 0 <= P -> 0 < P \/ (0 < Am /\ 0 < En) -> 0 <= En ->
  w2 / 1000 < En \/ En < w1 / 1000 ->
  sc_complex (Scatterer (K_Sellmeier Am En P Einf) wl name) (Some w1) = Ok (Some n1) ->
  sc_complex (Scatterer (K_Sellmeier Am En P Einf) wl name) (Some w2) = Ok (Some n2) ->
  Im n1 = 0 /\ Im n2 = 0 /\ Re n2 < Re n1.
Proof. exact sellmeier_decreasing. Qed.
Print Assumptions C56_sellmeier_decreasing.

Example C56_ex : 0 < 400 < 700 /\ 0 <= 1 /\ (1/10) < 400 / 1000 /\ (500 / 1000) ^ 2 <> (1/10) ^ 2.
Proof. lra. Qed.

(** ** C57 *)
Theorem C57_lorentz_absorption : forall os Einf e z, lorentz_epsilon os Einf e = Some z ->
  Im z = over_all (fun A B E => lorentz_absorption A B E e) os.
Proof. exact lorentz_Im. Qed.
Print Assumptions C57_lorentz_absorption.

Theorem C57_lorentz_passive : forall os Einf wl name w n, 0 < w ->
  Forall (fun o => 0 <= osc_A o /\ 0 <= osc_B o) os ->
  sc_complex (Scatterer (K_Lorentz os Einf) wl name) (Some w) = Ok (Some n) -> passive_index n.
Proof. exact lorentz_index. Qed.
Print Assumptions C57_lorentz_passive.

Theorem C57_lorentz_epsilon_passive : forall os Einf e z, 0 <= e ->
  Forall (fun o => 0 <= osc_A o /\ 0 <= osc_B o) os ->
  lorentz_epsilon os Einf e = Some z -> 0 <= Im z.
Proof. exact lorentz_passive. Qed.
Print Assumptions C57_lorentz_epsilon_passive.

(** finite exactly away from undamped resonances *)
Theorem C57_lorentz_defined : forall os Einf e,
  lorentz_epsilon os Einf e <> None <->
  Forall (fun o => ~ (osc_E o ^ 2 = e ^ 2 /\ osc_B o * e = 0)) os.
Proof. exact lorentz_defined. Qed.
Print Assumptions C57_lorentz_defined.

Theorem C57_lorentz_reality : forall os Einf e,
  lorentz_epsilon os Einf (- e) = omap Cconj (lorentz_epsilon os Einf e).
Proof. exact lorentz_conj. Qed.
Print Assumptions C57_lorentz_reality.

Theorem C57_lorentz_order : forall os os' Einf e, Permutation os os' ->
  lorentz_epsilon os Einf e = lorentz_epsilon os' Einf e.
Proof. exact lorentz_perm. Qed.
Print Assumptions C57_lorentz_order.

Theorem C57_lorentz_additive : forall os os' E1 E2 e,
  lorentz_epsilon (os ++ os') (E1 + E2) e = olift2 Cplus (lorentz_epsilon os E1 e) (lorentz_epsilon os' E2 e).
Proof. exact lorentz_app. Qed.
Print Assumptions C57_lorentz_additive.

(** one oscillator is A / denominator, and the denominator has no zero in the closed
    upper half plane *)
Theorem C57_lorentz_term : forall A B E Einf e, lorentz_denominator B E (RtoC e) <> RtoC 0 ->
  lorentz_epsilon [(A, B, E)] Einf e = Some (RtoC A / lorentz_denominator B E (RtoC e) + RtoC Einf)%C.
Proof. exact lorentz_single. Qed.
Print Assumptions C57_lorentz_term.

Theorem C57_lorentz_causal : forall B E (z : C), 0 < B -> E <> 0 -> 0 <= Im z ->
  lorentz_denominator B E z <> RtoC 0.
Proof. exact lorentz_no_pole. Qed.
Print Assumptions C57_lorentz_causal.

Example C57_ex : Forall (fun o => 0 <= osc_A o /\ 0 <= osc_B o) [(1, 1/10, 3); (2, 1/2, 5)].
Proof. repeat constructor; unfold osc_A, osc_B; simpl; lra. Qed.

(** ** C58 *)
Theorem C58_gauss_passive : forall h os Einf e, keeps_length h -> os <> [] -> Forall good_gauss os -> 0 <= e ->
  exists z, gauss_epsilon h os Einf e = Ok (Some z) /\ 0 <= Im z.
Proof. exact gauss_absorption_nonneg. Qed.
Print Assumptions C58_gauss_passive.

Theorem C58_gauss_absorption : forall h os Einf j, keeps_length h -> os <> [] ->
  Forall (fun o => 0 < osc_B o) os -> (j <= 2047)%nat ->
  exists z, gauss_epsilon h os Einf (-20 + 40 * INR j / 2047) = Ok (Some z) /\
  Im z = over_all (fun A B E => gauss_absorption A B E (-20 + 40 * INR j / 2047)) os.
Proof. exact gauss_at_grid. Qed.
Print Assumptions C58_gauss_absorption.

Theorem C58_gauss_odd : forall h os Einf e, keeps_length h -> os <> [] -> Forall (fun o => 0 < osc_B o) os ->
  exists z z', gauss_epsilon h os Einf e = Ok (Some z) /\ gauss_epsilon h os Einf (- e) = Ok (Some z') /\
  Im z' = - Im z.
Proof. exact gauss_Im_odd. Qed.
Print Assumptions C58_gauss_odd.

Theorem C58_gauss_order : forall h os os' Einf e, Permutation os os' ->
  gauss_epsilon h os Einf e = gauss_epsilon h os' Einf e.
Proof. exact gauss_perm. Qed.
Print Assumptions C58_gauss_order.

Theorem C58_gauss_additive : forall h os1 os2 E1 E2 e z1 z2, keeps_length h -> os1 <> [] -> os2 <> [] ->
  Forall (fun o => 0 < osc_B o) os1 -> Forall (fun o => 0 < osc_B o) os2 ->
  gauss_epsilon h os1 E1 e = Ok (Some z1) -> gauss_epsilon h os2 E2 e = Ok (Some z2) ->
  gauss_epsilon h (os1 ++ os2) (E1 + E2) e = Ok (Some (z1 + z2)%C).
Proof. exact gauss_additive. Qed.
Print Assumptions C58_gauss_additive.

Theorem C58_gauss_beyond : forall h os Einf e, keeps_length h -> os <> [] ->
  Forall (fun o => 0 < osc_B o) os -> 20 <= e ->
  gauss_epsilon h os Einf e = gauss_epsilon h os Einf 20.
Proof. exact gauss_beyond. Qed.
Print Assumptions C58_gauss_beyond.

Example C58_ex : keeps_length (fun l => map Ropp l) /\ Forall good_gauss [(1, 1/10, 3); (2, 1/2, 5)].
Proof.
  split; [intros l; apply map_length|].
  repeat constructor; unfold osc_A, osc_B, osc_E; simpl; lra.
Qed.

(** ** C59 *)
Theorem C59_tl_absorption : forall os Eg Einf e z, tl_epsilon os Eg Einf e = Some z ->
  Im z = over_all (fun A B E => tauc_lorentz_absorption A B E Eg e) os.
Proof. exact tl_Im. Qed.
Print Assumptions C59_tl_absorption.

Theorem C59_tl_below_gap : forall os Eg Einf e z, e <= Eg -> tl_epsilon os Eg Einf e = Some z -> Im z = 0.
Proof. exact tl_below. Qed.
Print Assumptions C59_tl_below_gap.

Theorem C59_tl_passive : forall os Eg Einf e z, 0 < e ->
  Forall (fun o => 0 <= osc_A o /\ 0 <= osc_B o /\ 0 <= osc_E o) os ->
  tl_epsilon os Eg Einf e = Some z -> 0 <= Im z.
Proof. exact tl_passive. Qed.
Print Assumptions C59_tl_passive.

Theorem C59_tl_index_passive : forall os Eg Einf wl name w n, 0 < w ->
  Forall (fun o => 0 <= osc_A o /\ 0 <= osc_B o /\ 0 <= osc_E o) os ->
  sc_complex (Scatterer (K_TaucLorentz os Eg Einf) wl name) (Some w) = Ok (Some n) -> passive_index n.
Proof. exact tl_index. Qed.
Print Assumptions C59_tl_index_passive.

Theorem C59_tl_order : forall os os' Eg Einf e, Permutation os os' ->
  tl_epsilon os Eg Einf e = tl_epsilon os' Eg Einf e.
Proof. exact tl_perm. Qed.
Print Assumptions C59_tl_order.

Theorem C59_tl_additive : forall os os' Eg E1 E2 e,
  tl_epsilon (os ++ os') Eg (E1 + E2) e = olift2 Cplus (tl_epsilon os Eg E1 e) (tl_epsilon os' Eg E2 e).
Proof. exact tl_app. Qed.
Print Assumptions C59_tl_additive.

Example C59_ex : Forall (fun o => 0 <= osc_A o /\ 0 <= osc_B o /\ 0 <= osc_E o) [(100, 2, 4)] /\
  exists z, tl_epsilon [(100, 2, 4)] 1 1 3 = Some z.
Proof.
  split; [repeat constructor; unfold osc_A, osc_B, osc_E; simpl; lra|].
  apply tl_finite; try lra. repeat constructor; unfold osc_B, osc_E; simpl; lra.
Qed.

(** ** C60 *)

(** where it is finite *)
Theorem C60_tl_finite : forall os Eg Einf e, 0 <= Eg -> 0 < e -> e <> Eg ->
  Forall (fun o => 0 < osc_B o /\ 0 < osc_E o /\ osc_B o ^ 2 <= 2 * osc_E o ^ 2) os ->
  exists z, tl_epsilon os Eg Einf e = Some z.
Proof. exact tl_finite. Qed.
Print Assumptions C60_tl_finite.

(** one oscillator with C > sqrt 2 * En makes every energy nan *)
Theorem C60_tl_wide_nan : forall os Eg Einf e, Exists (fun o => 2 * osc_E o ^ 2 < osc_B o ^ 2) os ->
  tl_epsilon os Eg Einf e = None.
Proof. exact tl_refute_wide. Qed.
Print Assumptions C60_tl_wide_nan.

(** the energy of the band gap is always nan *)
Theorem C60_tl_edge_nan : forall os Eg Einf, os <> [] -> 0 < Eg -> tl_epsilon os Eg Einf Eg = None.
Proof. exact tl_refute_edge. Qed.
Print Assumptions C60_tl_edge_nan.

(** the documented domain is C < 2 En, Eg < En *)
Theorem C60_tl_domain_refuted : exists A Cc En Eg Einf e,
  0 < A /\ 0 < Cc /\ Cc < 2 * En /\ 0 < Eg < En /\ 0 < e /\ e <> Eg /\
  tl_epsilon [(A, Cc, En)] Eg Einf e = None.
Proof.
  exists 100, (17/10), 1, (1/2), 1, 3. repeat (split; [lra|]).
  apply tl_refute_wide. constructor. unfold osc_B, osc_E; simpl; lra.
Qed.
Print Assumptions C60_tl_domain_refuted.

Example C60_ex : Forall (fun o => 0 < osc_B o /\ 0 < osc_E o /\ osc_B o ^ 2 <= 2 * osc_E o ^ 2) [(100, 2, 4)].
Proof. repeat constructor; unfold osc_B, osc_E; simpl; lra. Qed.

(** ** C61 *)
(** the numbers of a nested sequence are those written in it, in that order *)
Theorem C61_elements : forall a, exists xs, elements a xs /\ forall ys, elements a ys -> ys = xs.
Proof. exact elements_one. Qed.
Print Assumptions C61_elements.

Theorem C61_lengths : forall a b c xa xb xc, elements a xa -> elements b xb -> elements c xc ->
  (~ (List.length xa = List.length xb /\ List.length xb = List.length xc) ->
   (forall Einf wl nm, Lorentz a b c Einf wl nm = Raise ValueError) /\
   (forall h Einf wl nm, Gauss h a b c Einf wl nm = Raise ValueError) /\
   (forall Eg Einf wl nm, TaucLorentz a b c Eg Einf wl nm = Raise ValueError)) /\
  (List.length xa = List.length xb /\ List.length xb = List.length xc ->
   exists os, map osc_A os = xa /\ map osc_B os = xb /\ map osc_E os = xc /\
   (forall Einf wl nm, Lorentz a b c Einf wl nm = Ok (Scatterer (K_Lorentz os Einf) wl nm)) /\
   (forall h Einf wl nm, Gauss h a b c Einf wl nm = Ok (Scatterer (K_Gauss h os Einf) wl nm)) /\
   (forall Eg Einf wl nm, TaucLorentz a b c Eg Einf wl nm = Ok (Scatterer (K_TaucLorentz os Eg Einf) wl nm))).
Proof. exact nested_lengths. Qed.
Print Assumptions C61_lengths.

Example C61_ex : elements (Seq [Seq [Num 1]; Num 2]) [1; 2] /\ elements (Num 1) [1] /\ elements (Seq []) [].
Proof.
  split; [|split; constructor]. apply (El_more _ _ [1] [2]); [apply (El_more _ _ [1] []); constructor|].
  apply (El_more _ _ [2] []); constructor.
Qed.

(** ** C62 *)
Theorem C62_materials_passive : forall m h wl, In m materials ->
  exists o h' n k, load_material h m = (Ok o, h') /\
    sc_complex (ri_view h' o) wl = Ok (Some (n, k)) /\ 0 < n /\ 0 <= k.
Proof. exact material_passive. Qed.
Print Assumptions C62_materials_passive.

(** the first column is the wavelength *)
Theorem C62_materials_sorted : forall m cols, In (m, cols) material_files ->
  exists w rest, map column cols = w :: rest /\ StronglySorted Rle w /\
  (m <> "aluminium_oxide"%string -> increasing w).
Proof. exact material_order. Qed.
Print Assumptions C62_materials_sorted.

(** n and k of every material stay within the range of its file, at every wavelength *)
Theorem C62_materials_ranges : forall m nlo nhi klo khi h wl, In (m, ((nlo, nhi), (klo, khi))) material_ranges ->
  exists o h' n k, load_material h m = (Ok o, h') /\ sc_complex (ri_view h' o) wl = Ok (Some (n, k)) /\ nlo <= n <= nhi /\ klo <= k <= khi.
Proof. exact material_range. Qed.
Print Assumptions C62_materials_ranges.

Theorem C62_materials_listed : materials = map fst material_ranges.
Proof. exact materials_listed. Qed.
Print Assumptions C62_materials_listed.

Theorem C62_materials_unknown : forall m h,
  ~ In m materials <-> load_material h m = (Raise ValueError, h).
Proof. exact material_unknown. Qed.
Print Assumptions C62_materials_unknown.

Theorem C62_aluminium_oxide_absorbs : forall h wl,
  exists o h' n k, load_material h "aluminium_oxide"%string = (Ok o, h') /\
    sc_complex (ri_view h' o) wl = Ok (Some (n, k)) /\ 0 < n /\ 1976 / 1000 <= k.
Proof. exact aluminium_absorbs. Qed.
Print Assumptions C62_aluminium_oxide_absorbs.

Theorem C62_polymer_diffuse_is_pnipam : forall h wl, exists o1 h1 o2 h2,
  load_material h "pnipam"%string = (Ok o1, h1) /\ load_material h "polymer_diffuse"%string = (Ok o2, h2) /\
  sc_complex (ri_view h1 o1) wl = sc_complex (ri_view h2 o2) wl.
Proof. exact polymer_same. Qed.
Print Assumptions C62_polymer_diffuse_is_pnipam.

Example C62_ex : In "silicon"%string materials /\ ~ In "unobtainium"%string materials.
Proof.
  split; [vm_compute; tauto|]. vm_compute. intros H.
  repeat destruct H as [H|H]; try discriminate; auto.
Qed.
