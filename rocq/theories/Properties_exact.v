(** * Exactly which files DataSE.load and open_EP4file read, and what they make of them.

    [header pf c lines hdr body]: hdr are the lines before the first one that starts with a number,
    at most 100.  [table_of pf c body pts]: apart from comments and empty lines, every line of body
    has four fields holding the numbers of one of the points.  [fills h d r pts]: r is the dataset
    d with new columns that hold the points.
    [yields st l]: the groups of measurements that are averaged for the rows st of one moment of a
    time series.  [labelled steps out]: the groups with the times written to them. *)

Require Import Reals ZArith List Bool String Ascii.
From Verif Require Import Base M_data Spec_data P_data M_ep4 M_instr Spec_ep4 Spec_instr P_ep4e Spec_exact P_exact P_exact2 P_exact3.
Import ListNotations.
Open Scope list_scope.
Open Scope R_scope.

(** ** C127: text files *)
Theorem C127_header : forall pf c lines, exists hdr body, header pf c lines hdr body /\
  forall hdr' body', header pf c lines hdr' body' -> hdr' = hdr /\ body' = body.
Proof. exact header_exact. Qed.
Print Assumptions C127_header.

Theorem C127_load : forall pf h d lines hdr body, header pf (ds_delim d) lines hdr body ->
  (forall pts, fills h d (load pf h d (ByName lines)) pts <->
     (2 <= List.length pts)%nat /\ table_of pf (ds_delim d) body pts) /\
  (forall o, load pf h d (ByName lines) = Ok o -> exists pts, fills h d (load pf h d (ByName lines)) pts) /\
  (forall e, load pf h d (ByName lines) = Raise e -> e = ValueError \/ exists x, one_point pf (ds_delim d) body x).
Proof. exact load_name_exact. Qed.
Print Assumptions C127_load.

(** an open file: the lines read when looking for the header are gone, and as many again are skipped *)
Theorem C127_load_handle : forall pf h d lines hdr body, header pf (ds_delim d) lines hdr body ->
  let rest := skipn (List.length hdr) (if Nat.eqb (List.length hdr) 100 then body else tl body) in
  (forall pts, fills h d (load pf h d (ByHandle lines)) pts <->
     (2 <= List.length pts)%nat /\ table_of pf (ds_delim d) rest pts) /\
  (forall o, load pf h d (ByHandle lines) = Ok o -> exists pts, fills h d (load pf h d (ByHandle lines)) pts) /\
  (forall e, load pf h d (ByHandle lines) = Raise e -> e = ValueError \/ exists x, one_point pf (ds_delim d) rest x).
Proof. exact load_handle_exact. Qed.
Print Assumptions C127_load_handle.

Example C127_example_load : header digit tab text2 [header_line] (tl text2) /\
  table_of digit tab (tl text2) (map pt1 [1; 2; 3]%nat).
Proof. exact (conj text2_header text2_table). Qed.

(** ** C127: EP4 time series *)
Theorem C127_series : forall pr fname t refl rows ms,
  rectangular t -> complete (tb_rows t) rows ->
  Forall2 (optics (tb_cols t)) rows ms -> Forall2 (place (tb_cols t)) rows ms ->
  Forall2 (moment (tb_cols t)) rows ms -> ~ no_change (tb_cols t) rows "Time" ->
  exists ts ys, in_order (map me_t ms) ts /\ Forall2 (fun u y => yields (step_of u ms) y) ts ys /\
    ((Exists (fun y => (2 <= List.length y)%nat) ys /\ open_EP4file pr fname t refl = Raise KeyError) \/
     (exists out r ss, labelled (combine ts ys) out /\ open_EP4file pr fname t refl = Ok r /\ delivered r refl ss /\
        Forall2 (fun o s => summarised (fst o) s /\ sm_time s = Some (Some (snd o))) out ss)).
Proof. exact open_series. Qed.
Print Assumptions C127_series.

Theorem C127_series_determined : forall ms ts ts' ys ys' out out',
  in_order (map me_t ms) ts -> in_order (map me_t ms) ts' ->
  Forall2 (fun u y => yields (step_of u ms) y) ts ys -> Forall2 (fun u y => yields (step_of u ms) y) ts' ys' ->
  labelled (combine ts ys) out -> labelled (combine ts' ys') out' -> ts = ts' /\ ys = ys' /\ out = out'.
Proof. exact series_determined. Qed.
Print Assumptions C127_series_determined.

(** every dataset averages measurements of one moment and carries that time or a later one *)
Theorem C127_series_members : forall pr fname t refl rows ms r,
  rectangular t -> complete (tb_rows t) rows ->
  Forall2 (optics (tb_cols t)) rows ms -> Forall2 (place (tb_cols t)) rows ms ->
  Forall2 (moment (tb_cols t)) rows ms -> ~ no_change (tb_cols t) rows "Time" ->
  open_EP4file pr fname t refl = Ok r ->
  exists ts ss, in_order (map me_t ms) ts /\ delivered r refl ss /\
    Forall (fun s => exists g u v before after, ts = before ++ u :: after /\ In v (u :: after) /\
      sm_time s = Some (Some v) /\ averaged g s /\ g <> [] /\ Forall (fun m => In m ms /\ me_t m = u) g) ss.
Proof. exact series_members. Qed.
Print Assumptions C127_series_members.

Theorem C127_errors : forall pr fname t refl e, open_EP4file pr fname t refl = Raise e -> e = KeyError.
Proof. exact open_errors. Qed.
Print Assumptions C127_errors.

(** an area can be missing without an error: [lost1] is the second area of the second moment *)
Theorem C127_every_area_refuted : forall pr fname, exists s1 s2 d1 d2,
  open_EP4file pr fname (ep4_table ms_lost) false = Ok (Many [d1; d2]) /\ snd (fst d1) = s1 /\ snd (fst d2) = s2 /\
  In lost1 ms_lost /\ averaged [Meas 633 50 30 100 0 0 1; Meas 700 50 31 101 0 0 1] s1 /\
  averaged [Meas 633 50 40 110 0 0 2] s2 /\ sm_time s1 = Some (Some 1) /\ sm_time s2 = Some (Some 2).
Proof. exact area_missing. Qed.
Print Assumptions C127_every_area_refuted.

Example C127_example_series : rectangular (ep4_table ms_lost) /\ complete (tb_rows (ep4_table ms_lost)) (map meas_row ms_lost) /\
  Forall2 (optics cols6) (map meas_row ms_lost) ms_lost /\ Forall2 (place cols6) (map meas_row ms_lost) ms_lost /\
  Forall2 (moment cols6) (map meas_row ms_lost) ms_lost /\ ~ no_change cols6 (map meas_row ms_lost) "Time" /\
  in_order (map me_t ms_lost) [1; 2] /\ yields (step_of 1 ms_lost) [g1] /\ yields (step_of 2 ms_lost) [g2] /\
  labelled [(1, [g1]); (2, [g2])] [(g1, 1); (g2, 2)].
Proof. exact lost_example. Qed.
