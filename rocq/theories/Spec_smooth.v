(** * Specification: materials and structures whose parameters move smoothly *)

Require Import Reals.
From Coquelicot Require Import Coquelicot.
Require Import List Bool String.
From Verif Require Import Base Cplx M_ema M_disp M_struct M_model M_data M_objective Spec_struct Spec_optics Spec_whole Spec_objective Spec_diff Spec_jac.
Import ListNotations.
Open Scope list_scope.
Open Scope R_scope.

(** [f] has values around [x] that are numbers, with a derivative *)
Definition smooth_index (f : R -> result (option C)) (x : R) : Prop :=
  exists n, locally x (fun t => f t = Ok (Some (n t))) /\ cdiff n x.

(** a list of numbers, each differentiable *)
Definition smooth_list (q : R -> list R) (x : R) : Prop :=
  exists fs : list (R -> R), (forall t, q t = map (fun f => f t) fs) /\ List.Forall (fun f => ex_derive f x) fs.
(** a user's permittivity is differentiable at the values [vs] of its parameters *)
Definition user_smooth (f : list R -> option C) (vs : list R) : Prop :=
  forall q x, smooth_list q x -> q x = vs -> exists g, locally x (fun t => f (q t) = Some (g t)) /\ cdiff g x.
(** a transformation of arrays of 2048 numbers by a matrix; so is the Hilbert transformation of scipy *)
Definition linear_filter (h : list R -> list R) : Prop :=
  exists K : nat -> nat -> R, forall l, List.length l = List.length e_pad ->
    h l = map (fun i => fold_right Rplus 0 (map2 (fun j y => K i j * y) (seq 0 (List.length l)) l)) (seq 0 (List.length l)).

(** no oscillator sits where its formula has a jump or an end: widths that are 0, C^2 = 2 E^2 *)
Definition well_behaved (v : pid -> R) (s : scatterer_t) (w : option R) : Prop :=
  match sct_kind s with
  | T_Gauss h Am Br En _ => linear_filter h /\ List.Forall (fun b => v b <> 0) Br
  | T_TaucLorentz Am Cc En _ _ => List.Forall (fun c => v c <> 0) Cc /\ List.Forall (fun ce => v (fst ce) ^ 2 <> 2 * v (snd ce) ^ 2) (combine Cc En)
  | T_User ps eps => forall e, nm_eV_conversion (choose_wav (sct_wavelength s) w) = Some e -> user_smooth (fun vs => eps vs e) (map v ps)
  | _ => True
  end.

(** what stands under the inner root of the Bruggeman rule *)
Definition bruggeman_root (a b : C) (f d : R) : C :=
  (let p := a * a * RtoC (1 - f - d) + b * b * RtoC (f - d) in p * p - RtoC (4 * (d - 1) * d) * (a * a * (b * b)))%C.
(** mixing gives an index of positive real part and stays away from the cut of the inner root *)
Definition mix_ok (ema : string) (a b : C) (f d : R) (m : C) : Prop :=
  overall_ri a b f ema d = Ok m /\ 0 < Re m /\
  (ema = "bruggeman"%string -> ~ (Im (bruggeman_root a b f d) = 0 /\ Re (bruggeman_root a b f d) <= 0)).

(** at the wavelength [w] the material has an index of positive real part *)
Definition smooth_material (v : pid -> R) (m : material_t) (w : R) : Prop :=
  exists n, index_at (inst_material v m) (Some w) (Some n) /\ 0 < Re n /\ well_behaved v (mt_scat m) (if mt_dispersive m then Some w else None).
Definition smooth_component (v : pid -> R) (s : structure_t) (w : R) (c : component_t) : Prop :=
  match ct_kind c with
  | SlabT _ m _ _ => smooth_material v m w
  | MixedSlabT _ mA mB f _ => smooth_material v mA w /\ smooth_material v mB w /\
      forall a b, index_at (inst_material v mA) (Some w) (Some a) -> index_at (inst_material v mB) (Some w) (Some b) -> exists m, mix_ok (stt_ema s) a b (v f) (stt_dep s) m
  | CustomT _ _ => False
  end.
(** either no slab is solvated, and none becomes solvated by a small change; or one is, and every inner row can be mixed *)
Definition settled (v : R -> pid -> R) (s : structure_t) (w x : R) : Prop :=
  let S := with_wavelength (inst_structure (v x) None s) (Some w) in
  (forall c t m r f, In c (stt_data s) -> ct_kind c = SlabT t m r f -> locally x (fun y => v y f <= 0)) \/
  (exists c t m r f, In c (stt_data s) /\ ct_kind c = SlabT t m r f /\ 0 < v x f) /\
  (stt_ema s = "linear"%string \/ stt_ema s = "maxwell-garnett"%string \/ stt_ema s = "bruggeman"%string) /\
  (forall sc, stt_solvent s = Some sc -> exists n, sc_complex (inst_scat (v x) sc) (Some w) = Ok (Some n) /\ 0 < Re n /\ well_behaved (v x) sc (Some w)) /\
  forall base tbl y, Forall2 (rows_of S) (st_data S) base -> in_order S (List.concat base) tbl -> solvent_index S tbl (Some y) ->
    forall i n, (0 < i < List.length tbl - 1)%nat -> s_ri (nth i tbl row0) = Some n -> exists m, mix_ok (stt_ema s) n y (s_vf (nth i tbl row0)) (stt_dep s) m.
(** a structure of slabs and mixed slabs without interface of its own, at wavelength [w], whose parameters move smoothly at [x] *)
Definition smooth_structure (v : R -> pid -> R) (s : structure_t) (w x : R) : Prop :=
  (forall p, In p (structure_params s) -> ex_derive (fun t => v t p) x) /\
  slab_ends (st_data (inst_structure (v x) None s)) /\ (2 <= List.length (stt_data s))%nat /\
  List.Forall (fun c => ct_default_interface c = true) (stt_data s) /\ stt_contract s <= 0 /\
  List.Forall (smooth_component (v x) s w) (stt_data s) /\ settled v s w x.

(** the light is nowhere totally reflected or grazing, and no layer damps it by exactly exp(-35) *)
Definition clear_path (rows : list slab) (w aoi : R) : Prop :=
  exists rowA mid rowB nA nB, rows = rowA :: mid ++ [rowB] /\ s_ri rowA = Some nA /\ s_ri rowB = Some nB /\
    let s := (RtoC (Re nA) * RtoC (sin (rad aoi)))%C in
    let on_cut (z : C) := Im z = 0 /\ 1 <= Rabs (Re z) in
    ~ on_cut (s / nB)%C /\
    List.Forall (fun r => exists n, s_ri r = Some n /\ ~ on_cut (s / n)%C /\ not_at_cut_off s n (s_thick r / 10) w) mid.
