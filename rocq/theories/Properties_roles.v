(** * The parameters of the dispersions play their documented roles, and tighter versions of C14, C15, C81, C87 *)

Require Import Reals List Lra String.
From Coquelicot Require Import Complex.
From Verif Require Import Base M_disp Spec_disp Spec_kk M_struct M_model P_struct2 P_model2 M_objective Spec_roles P_roles P_objective3.
Import ListNotations.
Open Scope list_scope.
Open Scope R_scope.

(** ** C115 *)
Theorem C115_cauchy : forall v A B Cc wl name w, w <> 0 ->
  sc_complex (inst_scat v (ScattererT (T_Cauchy A B Cc) wl name)) (Some w) =
  Ok (Some (v A + v B / (w / 1000) ^ 2 + v Cc / (w / 1000) ^ 4, 0)).
Proof. exact roles_cauchy. Qed.
Print Assumptions C115_cauchy.

Theorem C115_sellmeier : forall v Am En P Einf wl name w, w <> 0 -> (w / 1000) ^ 2 <> v En ^ 2 ->
  let e := v Einf + v Am * (w / 1000) ^ 2 / ((w / 1000) ^ 2 - v En ^ 2) - v P * (w / 1000) ^ 2 in
  0 <= e ->
  exists n, sc_complex (inst_scat v (ScattererT (T_Sellmeier Am En P Einf) wl name)) (Some w) = Ok (Some n) /\ index_of (RtoC e) n.
Proof. exact roles_sellmeier. Qed.
Print Assumptions C115_sellmeier.

Theorem C115_lorentz : forall v Am Br En Einf wl name w n, w <> 0 ->
  sc_complex (inst_scat v (ScattererT (T_Lorentz Am Br En Einf) wl name)) (Some w) = Ok (Some n) ->
  index_of (RtoC (v Einf) + csum3 (fun A B E => RtoC (v A) / lorentz_denominator (v B) (v E) (RtoC (photon w))) Am Br En)%C n.
Proof. exact roles_lorentz. Qed.
Print Assumptions C115_lorentz.

Theorem C115_gauss : forall v h Am Br En Einf wl name w, w <> 0 -> keeps_length h -> Am <> [] ->
  all3 (fun A B E => 0 < v B) Am Br En ->
  exists n re im, sc_complex (inst_scat v (ScattererT (T_Gauss h Am Br En Einf) wl name)) (Some w) = Ok (Some n) /\
  index_of (re, im) n /\
  interpolates grid2048 (map (fun x => sum3 (fun A B E => gauss_absorption (v A) (v B) (v E) x) Am Br En) grid2048) (photon w) im.
Proof. exact roles_gauss. Qed.
Print Assumptions C115_gauss.

Theorem C115_tauc_lorentz : forall v Am Cc En Eg Einf wl name w, 0 < w -> 0 <= v Eg -> photon w <> v Eg ->
  all3 (fun A B E => 0 < v B /\ 0 < v E /\ v B ^ 2 <= 2 * v E ^ 2) Am Cc En ->
  exists n re, sc_complex (inst_scat v (ScattererT (T_TaucLorentz Am Cc En Eg Einf) wl name)) (Some w) = Ok (Some n) /\
  index_of (v Einf + re, sum3 (fun A B E => tauc_lorentz_absorption (v A) (v B) (v E) (v Eg) (photon w)) Am Cc En) n /\
  kramers_kronig (fun xi => sum3 (fun A B E => tauc_lorentz_absorption (v A) (v B) (v E) (v Eg) xi) Am Cc En) (photon w) re.
Proof. exact roles_tauc_lorentz. Qed.
Print Assumptions C115_tauc_lorentz.

(** parameters 0, 1, 2, 3, ... with values 1, 2, 3, 4, ...: two oscillators *)
Example C115_case : let v := fun p => INR p + 1 in
  all3 (fun A B E => 0 < v B /\ 0 < v E /\ v B ^ 2 <= 2 * v E ^ 2) [0; 1]%nat [2; 3]%nat [4; 5]%nat /\ 0 <= v 6%nat.
Proof. cbv zeta. cbn [all3 INR]. repeat split; lra. Qed.

(** ** C87: the limit of no broadening *)
Theorem C87_sharp : forall A Ei Eg Einf e, 0 <= Eg -> 0 < Ei -> Ei <> Eg -> 0 < e -> e <> Eg -> e <> Ei ->
  tl_epsilon [(A, 0, Ei)] Eg Einf e =
  Some (RtoC (Einf + if Rlt_dec Eg Ei then A * (Ei - Eg) ^ 2 / (Ei * (Ei ^ 2 - e ^ 2)) else 0)).
Proof. exact tl_sharp. Qed.
Print Assumptions C87_sharp.

(** ** C14: what is lost *)
Theorem C14_towards_zero : forall ext nan s off flip X psi delta s',
  model ext DFloat s off flip X = (Ok (psi, delta), s') ->
  exists psi' delta', model ext (DInt nan) s off flip X = (Ok (psi', delta'), s') /\
    Forall2 (cut nan) psi psi' /\ Forall2 (cut nan) delta delta'.
Proof. exact int_cut. Qed.
Print Assumptions C14_towards_zero.

(** ** C81: which curves are drawn *)
Theorem C81_drawn : forall ext s data reverse cs s', plot_structure ext s data reverse = (Ok cs, s') ->
  exists ws, drawn data ws /\
  Forall2 (fun w c => ri_profile ext (set_wavelength (set_reverse s reverse) (Some w)) None 0 = Ok c) ws cs /\
  (ws <> [] -> st_wavelength s' = Some (List.last ws 0)).
Proof. exact plot_drawn. Qed.
Print Assumptions C81_drawn.
Example C81_drawn_many : exists ws, drawn (Some (map INR (seq 1 9))) ws /\ List.length ws = 6%nat.
Proof. exact (drawn_nine). Qed.

(** ** C15: the state after the model of an objective was evaluated *)
Theorem C15_state_afterwards : forall sy m X st r st', call_model sy m X st = (Ok r, st') -> X <> [] ->
  let a := mo_structure (the_model sy m) in
  st_store st' = st_store st /\ st_flips st' = st_flips st /\
  (forall b, b <> a -> nth b (st_wavelengths st') None = nth b (st_wavelengths st) None) /\
  ((a < List.length (st_wavelengths st))%nat ->
     exists w aoi, In (w, aoi) X /\ (forall w' a', In (w', a') X -> w' <= w) /\ nth a (st_wavelengths st') None = Some w).
Proof. exact call_leaves. Qed.
Print Assumptions C15_state_afterwards.
Example C15_state_case : fst (call_model sys_g 0%nat [(633, 0)] (st_g 0 3 None)) = Ok ([Some 45], [Some (180 + 3)]) /\
  (mo_structure (the_model sys_g 0%nat) < List.length (st_wavelengths (st_g 0 3 None)))%nat.
Proof. split; [exact (model_g (st_g 0 3 None) eq_refl)|repeat constructor]. Qed.
