(** * Specification of EP4 tables *)

Require Import Reals ZArith List Bool String Sorting.Sorted.
From Verif Require Import Base M_data M_ep4.
Import ListNotations.
Open Scope list_scope.
Open Scope R_scope.

(** ** Reading a table *)

(** the entry of a row in the column called [name] *)
Definition field (cols : list string) (row : list R) (name : string) (v : R) : Prop :=
  exists i, nth_error cols i = Some name /\ nth_error row i = Some v.

(** a measurement *)
Record meas := Meas { me_lam : R; me_aoi : R; me_psi : R; me_delta : R; me_x : R; me_y : R; me_t : R }.
Definition optics (cols : list string) (row : list R) (m : meas) : Prop :=
  field cols row "#Lambda" (me_lam m) /\ field cols row "AOI" (me_aoi m) /\
  field cols row "Psi" (me_psi m) /\ field cols row "Delta" (me_delta m).
Definition place (cols : list string) (row : list R) (m : meas) : Prop :=
  field cols row "X_pos" (me_x m) /\ field cols row "Y_pos" (me_y m).
Definition moment (cols : list string) (row : list R) (m : meas) : Prop :=
  field cols row "Time" (me_t m).

(** a table: distinct column names, equally long rows *)
Definition rectangular (t : table) : Prop :=
  NoDup (tb_cols t) /\ Forall (fun r => List.length r = List.length (tb_cols t)) (tb_rows t).

(** the rows without a missing entry *)
Inductive complete : list (list num) -> list (list R) -> Prop :=
| complete_nil : complete [] []
| complete_keep r raw rows : complete raw rows -> complete (map Some r :: raw) (r :: rows)
| complete_drop r raw rows : In None r -> complete raw rows -> complete (r :: raw) rows.

(** a column that is missing or has at most one value *)
Definition no_change (cols : list string) (rows : list (list R)) (name : string) : Prop :=
  ~ In name cols \/
  forall r r' v v', In r rows -> In r' rows -> field cols r name v -> field cols r' name v' -> v = v'.

(** positions not recorded, or all equal *)
Definition one_place (cols : list string) (rows : list (list R)) : Prop :=
  ~ In "X_pos"%string cols \/ ~ In "Y_pos"%string cols \/
  (no_change cols rows "X_pos" /\ no_change cols rows "Y_pos").
Definition four_columns (cols : list string) : Prop :=
  In "#Lambda"%string cols /\ In "AOI"%string cols /\ In "Psi"%string cols /\ In "Delta"%string cols.

(** ** Averages *)
Definition at_key (a l : R) (ms : list meas) : list meas :=
  filter (fun m => if Req_EM_T (me_aoi m) a then if Req_EM_T (me_lam m) l then true else false else false) ms.
Definition mean_of (l : list R) (x : R) : Prop :=
  l <> [] /\ x * INR (List.length l) = fold_right Rplus 0 l.
Definition before (k k' : R * R) : Prop := fst k < fst k' \/ (fst k = fst k' /\ snd k < snd k').

(** [s] holds one averaged point for every (AOI, wavelength) among [ms] *)
Definition averaged (ms : list meas) (s : summary) : Prop :=
  let keys := combine (sm_aoi s) (sm_lambda s) in
  List.length (sm_aoi s) = List.length (sm_lambda s) /\
  List.length (sm_psi s) = List.length (sm_lambda s) /\
  List.length (sm_delta s) = List.length (sm_lambda s) /\
  StronglySorted before keys /\
  (forall a l, In (a, l) keys <-> exists m, In m ms /\ me_aoi m = a /\ me_lam m = l) /\
  (forall i a l p d, nth_error keys i = Some (a, l) ->
     nth_error (sm_psi s) i = Some p -> nth_error (sm_delta s) i = Some d ->
     mean_of (map me_psi (at_key a l ms)) p /\ mean_of (map me_delta (at_key a l ms)) d).

(** the dataset of a summary *)
Definition stored (s : summary) (refl : bool) (d : loaded) : Prop :=
  ld_wav d = map Some (sm_lambda s) /\ ld_aoi d = map Some (sm_aoi s) /\
  ld_psi d = map Some (sm_psi s) /\ ld_delta d = map Some (sm_delta s) /\ ld_reflect d = refl.

(** what is returned for a list of datasets *)
Definition delivered (r : one_or_many (string * summary * loaded)) (refl : bool) (ss : list summary) : Prop :=
  exists ds, Forall2 (fun s d => snd (fst d) = s /\ stored s refl (snd d)) ss ds /\
    r = match ds with [d] => One d | _ => Many ds end.

(** ** Areas *)

(** within the tolerance of a reference value *)
Definition close (a b : R) : Prop := Rabs (a - b) <= 2 / 10 + / 100000 * Rabs b.
Definition near (m m' : meas) : Prop := close (me_x m) (me_x m') /\ close (me_y m) (me_y m').

(** consecutive non-empty blocks; the members of a block are near its first member, the first
    member of the next block is not *)
Inductive blocks : list (list meas) -> Prop :=
| blocks_one m b : Forall (near m) b -> blocks [m :: b]
| blocks_cons m b m' b' bs : Forall (near m) b -> ~ near m m' -> blocks ((m' :: b') :: bs) ->
    blocks ((m :: b) :: (m' :: b') :: bs).

(** the position of an area: the mean, over the points, of the mean over the rows of the point,
    rounded *)
Definition area_position (ms : list meas) (s : summary) : Prop :=
  exists xs ys x y, sm_pos s = Some (round2 x, round2 y) /\
    mean_of xs x /\ mean_of ys y /\
    Forall2 (fun k v => mean_of (map me_x (at_key (fst k) (snd k) ms)) v) (combine (sm_aoi s) (sm_lambda s)) xs /\
    Forall2 (fun k v => mean_of (map me_y (at_key (fst k) (snd k) ms)) v) (combine (sm_aoi s) (sm_lambda s)) ys.

(** ** Times: the values of a list in the order of their first appearance *)
Definition in_order (l ts : list R) : Prop :=
  NoDup ts /\ (forall t, In t ts <-> In t l) /\
  (forall ts1 t ts2, ts = ts1 ++ t :: ts2 ->
     exists l1 l2, l = l1 ++ t :: l2 /\ forall u, In u l1 <-> In u ts1).
Definition at_time (t : R) (ms : list meas) : list meas :=
  filter (fun m => if Req_EM_T (me_t m) t then true else false) ms.

(** positions constant within every time step *)
Definition steady (cols : list string) (rows : list (list R)) (name : string) : Prop :=
  forall r r' t v v', In r rows -> In r' rows -> field cols r "Time" t -> field cols r' "Time" t ->
    field cols r name v -> field cols r' name v' -> v = v'.

(** the positions in a list of measurements are not all equal *)
Definition scattered (ms : list meas) : Prop :=
  exists m m', In m ms /\ In m' ms /\ (me_x m <> me_x m' \/ me_y m <> me_y m').

(** ** Rounding *)
Definition nearest_multiple (base x y : R) : Prop :=
  (exists k : Z, y = IZR k * base) /\ forall k : Z, Rabs (x - y) <= Rabs (x - IZR k * base).
(** nearest integer, ties to the even one *)
Definition nearest_even (x : R) (k : Z) : Prop :=
  Rabs (x - IZR k) <= 1 / 2 /\ (Rabs (x - IZR k) = 1 / 2 -> Z.even k = true).

(** consecutive scans of [n] rows each, scan number i at time [ts i], each recorded at positions
    that differ, but within the tolerance of the first one *)
Definition scans (n : nat) (ts : list R) (steps : list (list meas)) : Prop :=
  NoDup ts /\
  Forall2 (fun t st => List.length st = n /\ Forall (fun m => me_t m = t) st /\ blocks [st] /\ scattered st) ts steps.
