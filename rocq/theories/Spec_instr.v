(** * Specification of instrument files *)

Require Import Reals ZArith List Bool String Ascii Sorting.Sorted.
From Verif Require Import Base M_data Spec_data M_ep4 M_instr Spec_ep4.
Import ListNotations.
Open Scope list_scope.
Open Scope R_scope.

(** ** Lines *)

(** the character [c] does not occur in [s] *)
Fixpoint free (c : ascii) (s : string) : Prop :=
  match s with EmptyString => True | String x s' => x <> c /\ free c s' end.
(** the line consists of the fields [fs], separated by [c] *)
Definition fields (c : ascii) (line : string) (fs : list string) : Prop :=
  fs <> [] /\ Forall (free c) fs /\ line = join c fs.
(** the fields number [is] hold the numbers [vs] *)
Definition numbers (pf : string -> option num) (fs : list string) (is : list nat) (vs : list num) : Prop :=
  Forall2 (fun i v => exists t, nth_error fs i = Some t /\ pf t = Some v) is vs.

(** [r]: every n-th member of [l], beginning with the first *)
Definition every {A} (n : nat) (l r : list A) : Prop := forall i, nth_error r i = nth_error l (i * n).

(** the dataset holds the points *)
Definition stores (x : loaded) (refl : bool) (pts : list point) : Prop :=
  ld_wav x = map p_wav pts /\ ld_aoi x = map p_aoi pts /\ ld_psi x = map p_psi pts /\
  ld_delta x = map p_delta pts /\ ld_reflect x = refl.

(** ** M2000 *)

(** three lines: wavelength, angle, psi, delta and two errors; two lines with three more numbers *)
Definition record (pf : string -> option num) (ls : list string) (x : point) : Prop :=
  exists l1 l2 l3 f1 f2 f3 e1 e2 v2 v3, ls = [l1; l2; l3] /\
    fields tab l1 f1 /\ fields tab l2 f2 /\ fields tab l3 f3 /\
    numbers pf f1 [0; 1; 2; 3; 4; 5]%nat [p_wav x; p_aoi x; p_psi x; p_delta x; e1; e2] /\
    numbers pf f2 [2; 3; 4]%nat v2 /\ numbers pf f3 [2; 3; 4]%nat v3.
(** what may follow the last record: nothing, or a line without a tab *)
Definition ends (rest : list string) : Prop :=
  match rest with [] => True | l :: _ => free tab l end.

(** the line "VASEmethod[k1=v1, k2=v2, ...]" *)
Fixpoint no_comma_space (s : string) : Prop :=
  match s with
  | EmptyString => True
  | String c s' => match s' with String d _ => ~ (c = "," /\ d = " ")%char | EmptyString => c <> ","%char end /\
                   no_comma_space s'
  end.
Definition item (kv : string * string) : string := (fst kv ++ String "=" (snd kv))%string.
Fixpoint items (kvs : list (string * string)) : string :=
  match kvs with
  | [] => EmptyString
  | [kv] => item kv
  | kv :: kvs' => (item kv ++ ", " ++ items kvs')%string
  end.
Definition vase_line (kvs : list (string * string)) (l : string) : Prop :=
  kvs <> [] /\ l = ("VASEmethod[" ++ items kvs ++ "]" ++ newline)%string /\
  Forall (fun kv => free "=" (fst kv) /\ free "=" (snd kv) /\ no_comma_space (item kv)) kvs.

(** *** time series: rows (point, time in minutes) *)
Definition rows_at (t : R) (rows : list krow) : list point :=
  map fst (filter (fun r => match snd r with Some u => if Req_EM_T u t then true else false | None => false end) rows).
Definition is_times (rows : list krow) (ts : list R) : Prop :=
  StronglySorted Rlt ts /\ forall t, In t ts <-> exists x, In (x, Some t) rows.
(** [k]: the time in seconds, rounded to one decimal *)
Definition seconds (t k : R) : Prop := exists z, k = IZR z / 10 /\ nearest_even (t * 600) z.
(** the dataset of a time step *)
Definition step_data (rows : list krow) (drop : nat) (t : R) (x : loaded) : Prop :=
  exists sel, every drop (rows_at t rows) sel /\ stores x false sel.
(** [k] leads to [x] in a dict *)
Definition maps_to {A} (d : list (R * A)) (k : R) (x : A) : Prop := In (k, x) d /\ NoDup (map fst d).

(** ** FilmSense *)
Definition rad (deg : R) : R := deg * (PI / 180).
(** N, C, S of psi, delta in degrees *)
Definition encoded (N Cc S : num) (psi delta : R) : Prop :=
  0 < psi < 90 /\ 0 <= delta < 360 /\
  N = Some (cos (rad (2 * psi))) /\ Cc = Some (sin (rad (2 * psi)) * cos (rad delta)) /\
  S = Some (sin (rad (2 * psi)) * sin (rad delta)).

(** header line: W, T, nominal angle and the further numbers number [more] *)
Definition fs_head (pf : string -> option num) (pi : string -> option nat) (more : list nat)
    (l : string) (W T : nat) (aoi : num) : Prop :=
  exists fs a b vs c, l = (join tab fs ++ String c EmptyString)%string /\ Forall (free tab) fs /\ fs <> [] /\
    nth_error fs 0 = Some a /\ pi a = Some W /\ nth_error fs 1 = Some b /\ pi b = Some T /\
    numbers pf fs [2]%nat [aoi] /\ numbers pf fs more vs.
(** line of a wavelength *)
Definition fs_wave (pf : string -> option num) (l : string) (w : num) : Prop :=
  exists fs v1 v2 v3, fields tab l fs /\ numbers pf fs [0; 1; 2; 3]%nat [w; v1; v2; v3].
(** line of N, C, S, P, intensity *)
Definition fs_ncs (pf : string -> option num) (l : string) (pd : R * R) : Prop :=
  exists fs N Cc S v3 v4, fields tab l fs /\ numbers pf fs [0; 1; 2; 3; 4]%nat [N; Cc; S; v3; v4] /\
    encoded N Cc S (fst pd) (snd pd).
(** line of a time step: time and five numbers for every wavelength; the last two characters of
    the line do not count *)
Definition fs_step (pf : string -> option num) (l : string) (t : R) (pds : list (R * R)) : Prop :=
  exists fs c c', l = (join tab fs ++ String c (String c' EmptyString))%string /\ Forall (free tab) fs /\ fs <> [] /\
    numbers pf fs [0]%nat [Some t] /\
    forall j pd, nth_error pds j = Some pd -> exists N Cc S v3 v4,
      numbers pf fs [5 * j + 1; 5 * j + 2; 5 * j + 3; 5 * j + 4; 5 * j + 5]%nat [N; Cc; S; v3; v4] /\
      encoded N Cc S (fst pd) (snd pd).
Definition fs_points (aoi : num) (ws : list num) (pds : list (R * R)) (pts : list point) : Prop :=
  List.length ws = List.length pds /\
  pts = map (fun q => (fst q, aoi, Some (fst (snd q)), Some (snd (snd q)))) (combine ws pds).

(** ** Horiba *)
Definition white (c : ascii) : Prop := In c [" "; "009"; "010"; "011"; "012"; "013"]%char.
Fixpoint all_white (s : string) : Prop :=
  match s with EmptyString => True | String c s' => white c /\ all_white s' end.
Fixpoint last_char (c : ascii) (s : string) : ascii :=
  match s with EmptyString => c | String d s' => last_char d s' end.
(** [s] is [raw] without leading and trailing whitespace *)
Definition trimmed (raw s : string) : Prop :=
  (exists a b, raw = (a ++ s ++ b)%string /\ all_white a /\ all_white b) /\
  match s with EmptyString => True | String c s' => ~ white c /\ ~ white (last_char c s') end.

(** section title "# LABEL:" *)
Definition title (raw label : string) : Prop :=
  exists w c, free " " w /\ trimmed raw (String "#" (w ++ String " " (label ++ String c EmptyString)))%string.

(** a section of the file: label, trimmed lines, closed by a blank line? *)
Record section := Section { sec_label : string; sec_lines : list string; sec_closed : bool }.
(** what is filed under the label *)
Definition filed (s : section) : entry :=
  if sec_closed s then match sec_lines s with [] => ENone | [x] => ELine x | l => ELines l end
  else ELines (sec_lines s).

(** the lines [raw], the first of which has number [i], consist of the sections [secs], whose titles
    are in the lines number [ns]; only the last section may lack the blank line *)
Inductive horiba : nat -> list string -> list section -> list nat -> Prop :=
| horiba_end i : horiba i [] [] []
| horiba_junk i l s raw secs ns : trimmed l s -> (forall s', s <> String "#" s') ->
    horiba (S i) raw secs ns -> horiba i (l :: raw) secs ns
| horiba_section i t label body contents blank raw secs ns : title t label ->
    Forall2 trimmed body contents -> ~ In EmptyString contents -> trimmed blank EmptyString ->
    horiba (i + 2 + List.length body) raw secs ns ->
    horiba i (t :: body ++ blank :: raw) (Section label contents true :: secs) (i :: ns)
| horiba_open i t label body contents : title t label ->
    Forall2 trimmed body contents -> ~ In EmptyString contents ->
    horiba i (t :: body) [Section label contents false] [i].

(** a line of the DATA table under the column names [names] *)
Definition data_row (pf : string -> option num) (names : list string) (s : string) (x : num * num * num) : Prop :=
  exists fs vs, fields " " s fs /\ List.length fs = List.length names /\ Forall2 (fun f v => pf f = Some v) fs vs /\
    (exists i, nth_error names i = Some "nm"%string /\ nth_error vs i = Some (fst (fst x))) /\
    (exists i, nth_error names i = Some "Psi"%string /\ nth_error vs i = Some (snd (fst x))) /\
    (exists i, nth_error names i = Some "Delta"%string /\ nth_error vs i = Some (snd x)).
(** a wavelength between the cut-offs (None: no cut-off) *)
Definition between (lo hi : option R) (v : num) : Prop :=
  exists x, v = Some x /\ match lo with Some l => l < x | None => True end /\ match hi with Some h => x < h | None => True end.
(** the members of [l] that satisfy [P], in order *)
Inductive those {A} (P : A -> Prop) : list A -> list A -> Prop :=
| those_nil : those P [] []
| those_yes x l r : P x -> those P l r -> those P (x :: l) (x :: r)
| those_no x l r : ~ P x -> those P l r -> those P (x :: l) r.
