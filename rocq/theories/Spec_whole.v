(** * Specification of the whole calculation: the light reflected from a structure *)

Require Import Reals List Bool String.
From Coquelicot Require Import Complex.
From Verif Require Import Base M_struct Spec_struct Spec_optics.
Import ListNotations.
Open Scope list_scope.
Open Scope R_scope.

(** the rows a structure consists of at wavelength [w], after reversal and solvation *)
Definition rows_at (s : structure) (w : R) (rows : list slab) : Prop :=
  exists base tbl,
    Forall2 (rows_of (with_wavelength s (Some w))) (st_data s) base /\
    in_order s (List.concat base) tbl /\
    (~ some_solvated tbl /\ rows = tbl \/
     some_solvated tbl /\ (st_ema s = "linear"%string \/ st_ema s = "maxwell-garnett"%string \/ st_ema s = "bruggeman"%string) /\
     exists y, solvent_index (with_wavelength s (Some w)) tbl (Some y) /\
               solvated (with_wavelength s (Some w)) tbl y rows).

(** [rows] (thicknesses in Angstrom) lit at [aoi] degrees by light of wavelength [w] nm: the
    media [front], [ms], [back] with their angles and phases.  The fronting medium counts as
    transparent, the others are passive, no layer is exactly critical or attenuates by more
    than e^35, the backing medium does not reflect totally and carries the wave away. *)
Definition lit (rows : list slab) (w aoi : R) (front : medium) (ms : list medium) (back : medium) : Prop :=
  exists rowA mid rowB nA inner nB,
    rows = rowA :: mid ++ [rowB] /\ s_ri rowA = Some nA /\ s_ri rowB = Some nB /\
    Forall2 (fun r nd => s_ri r = Some (fst nd) /\ s_thick r = 10 * snd nd) mid inner /\
    let s := (RtoC (Re nA) * RtoC (sin (rad aoi)))%C in
    0 < w /\ 0 < Re nA /\ passive nB /\
    List.Forall (fun nd => passive (fst nd) /\ 0 <= snd nd /\ not_critical (Re nA * sin (rad aoi)) (fst nd)) inner /\
    physical_stack (RtoC (Re nA)) inner nB s w front ms back /\
    cos (rad aoi) <> 0 /\ cosine front = RtoC (Rabs (cos (rad aoi))) /\
    0 <= Re (cosine back) /\ ~ total_reflection s nB /\
    List.Forall (fun m => Rabs (Im (phase m)) <= 35) ms.

Definition lit_structure (s : structure) (x : R * R) (st : medium * list medium * medium) : Prop :=
  exists rows, rows_at s (fst x) rows /\ lit rows (fst x) (snd x) (fst (fst st)) (snd (fst st)) (snd st).

(** [r] is the only amplitude that light of polarisation [p] can be reflected with *)
Definition reflected (p : pol) (st : medium * list medium * medium) (r : C) : Prop :=
  forall r', (exists t, reflection_problem p (fst (fst st)) (snd (fst st) ++ [snd st]) r' t) <-> r' = r.

(** both polarisations are reflected at all *)
Definition reflecting (st : medium * list medium * medium) : Prop :=
  forall p r t, reflection_problem p (fst (fst st)) (snd (fst st) ++ [snd st]) r t -> r <> RtoC 0.

(** [pd]: psi and delta reported by an instrument with the given offset that may fold delta *)
Definition measured (off : R) (flip : bool) (st : medium * list medium * medium) (pd : R * R) : Prop :=
  exists rs rp delta, reflected pS st rs /\ reflected pP st rp /\ Cmod rs <= 1 /\ Cmod rp <= 1 /\
    0 < fst pd < 90 /\ 0 < delta <= 360 /\ ellipsometric rs rp (fst pd) delta /\
    snd pd = off + (if flip then Rmin delta (360 - delta) else delta).
