(** * Specification: exactly which files DataSE.load and open_EP4file read *)

Require Import Reals ZArith List Bool String Ascii.
From Verif Require Import Base M_data Spec_data M_ep4 M_instr Spec_ep4 Spec_instr.
Import ListNotations.
Open Scope list_scope.
Open Scope R_scope.

(** ** Text files *)

(** [t] is the line [l] up to a comment *)
Definition uncommented (l t : string) : Prop :=
  free "#" t /\ (l = t \/ exists rest, l = (t ++ String "#" rest)%string).
(** four fields with four numbers *)
Definition four_numbers (pf : string -> option num) (c : ascii) (t : string) (x : point) : Prop :=
  exists fs, fields c t fs /\ Forall2 (fun f v => pf f = Some v) fs [p_wav x; p_aoi x; p_psi x; p_delta x].
(** the lines hold the points and otherwise only comments and empty lines *)
Definition table_of (pf : string -> option num) (c : ascii) (lines : list string) (pts : list point) : Prop :=
  exists texts used, Forall2 uncommented lines texts /\ those (fun t => t <> EmptyString) texts used /\
    Forall2 (four_numbers pf c) used pts.
(** the lines hold one number each, and otherwise only comments and empty lines *)
Definition column_of (pf : string -> option num) (c : ascii) (lines : list string) (vs : list num) : Prop :=
  exists texts used, Forall2 uncommented lines texts /\ those (fun t => t <> EmptyString) texts used /\
    Forall2 (fun t v => free c t /\ pf t = Some v) used vs.
(** the lines are read as the numbers of one point: a line of four, or four lines of one *)
Definition one_point (pf : string -> option num) (c : ascii) (lines : list string) (x : point) : Prop :=
  table_of pf c lines [x] \/ column_of pf c lines [p_wav x; p_aoi x; p_psi x; p_delta x].
(** header: the lines before the first one that starts with a number, at most 100 *)
Definition header (pf : string -> option num) (c : ascii) (lines hdr body : list string) : Prop :=
  lines = hdr ++ body /\ Forall (fun l => ~ starts_with_number pf c l) hdr /\ (List.length hdr <= 100)%nat /\
  (body = [] \/ List.length hdr = 100%nat \/ exists l rest, body = l :: rest /\ starts_with_number pf c l).

(** the columns of the dataset are replaced by new ones holding the points; mask and flag stay *)
Definition fills (h : heap) (d : dataset) (r : result (dataset * heap)) (pts : list point) : Prop :=
  exists d' h', r = Ok (d', h') /\ holds h' d' pts /\ ds_mask d' = ds_mask d /\ ds_flipped d' = ds_flipped d /\
    (forall a, (a < List.length h)%nat -> nth_error h' a = nth_error h a).

(** ** EP4 time series of maps *)

(** the measurements with their row numbers; those of one moment *)
Definition numbered (ms : list meas) : list (nat * meas) := combine (seq 0 (List.length ms)) ms.
Definition step_of (t : R) (ms : list meas) : list (nat * meas) :=
  filter (fun km => if Req_EM_T (me_t (snd km)) t then true else false) (numbered ms).
(** measurements averaged into one dataset; [true]: with a position *)
Definition group := (bool * list meas)%type.
Definition area (b : list (nat * meas)) : group := (true, map snd b).
(** what is made of the rows [st] of one moment: of the last area only the rows whose number is
    less than the number of rows of the moment *)
Definition yields (st : list (nat * meas)) (l : list group) : Prop :=
  (~ scattered (map snd st) /\ l = [(false, map snd st)]) \/
  (scattered (map snd st) /\ exists areas final kept_rows,
     st = List.concat (areas ++ [final]) /\ blocks (map (map snd) (areas ++ [final])) /\
     those (fun km => (fst km < List.length st)%nat) final kept_rows /\
     (kept_rows = [] -> l = map area areas) /\ (kept_rows <> [] -> l = map area (areas ++ [kept_rows]))).
(** the time written to each group: that of its moment, unless nothing is made of the moments
    after it *)
Inductive labelled : list (R * list group) -> list (group * R) -> Prop :=
| labelled_last t g : labelled [(t, [g])] [(g, t)]
| labelled_empty t g u l out : labelled ((u, [g]) :: l) out -> labelled ((t, [g]) :: (u, []) :: l) out
| labelled_next t g u g' l out : labelled ((u, [g']) :: l) out ->
    labelled ((t, [g]) :: (u, [g']) :: l) ((g, t) :: out).
Definition summarised (g : group) (s : summary) : Prop :=
  averaged (snd g) s /\ (fst g = false -> sm_pos s = None) /\ (fst g = true -> area_position (snd g) s).
