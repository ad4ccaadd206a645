(** * Datasets of one point read from a file (dataSE.py:60-255)

    [xdata]: a DataSE whose columns are arrays or numpy scalars (M_onepoint).  [one_point pf c lines x]: the
    lines hold the four numbers of x in one line, or in four lines of one number (Spec_exact).
    [scalars d x]: the columns of d are the scalars of x.  [header]: Spec_exact. *)

Require Import Reals List Bool String Ascii.
From Verif Require Import Base M_data Spec_data P_data Spec_exact M_onepoint Spec_onepoint P_onepoint.
Import ListNotations.
Open Scope list_scope.
Open Scope R_scope.

(** ** C145: on arrays the model is that of M_data, and M_data gives up exactly for one point *)
Theorem C145_arrays : forall pf h d f,
  (xget_data h (of_dataset d) = get_data h d /\ xlen h (of_dataset d) = ds_len h d /\
   xunique_wavelength_data h (of_dataset d) = unique_wavelength_data h d) /\
  (forall pr, xsave pr h (of_dataset d) = save pr h d) /\
  (forall d' h', load pf h d f = Ok (d', h') -> xload pf h (of_dataset d) f = Ok (of_dataset d', h')) /\
  (load pf h d f = Raise ValueError <-> xload pf h (of_dataset d) f = Raise ValueError) /\
  (forall e, load pf h d f = Raise e -> e = ValueError \/ exists x, becomes h (of_dataset d) (xload pf h (of_dataset d) f) x).
Proof. exact (fun pf h d f => conj (x_getters h d) (conj (fun pr => x_save pr h d) (x_load pf h d f))). Qed.
Print Assumptions C145_arrays.

Theorem C145_arrays_new : forall pf h c s refl d h', new_dataset pf h c s refl = Ok (d, h') ->
  xnew_dataset pf h c (xsource_of s) refl = Ok (of_dataset d, h').
Proof. exact x_new. Qed.
Print Assumptions C145_arrays_new.

(** ** exactly which files are read as one point, by name and through an open file *)
Theorem C145_load : forall pf h d lines hdr body x, header pf (x_delim d) lines hdr body ->
  let rest := skipn (List.length hdr) (if Nat.eqb (List.length hdr) 100 then body else tl body) in
  (becomes h d (xload pf h d (ByName lines)) x <-> one_point pf (x_delim d) body x) /\
  (becomes h d (xload pf h d (ByHandle lines)) x <-> one_point pf (x_delim d) rest x).
Proof. exact load_one. Qed.
Print Assumptions C145_load.

(** ** such a file gives a dataset of one point; with reflect_delta it raises TypeError, whatever delta is *)
Theorem C145_new : forall pf h c name lines hdr body x, header pf c lines hdr body -> one_point pf c body x ->
  (exists d, xnew_dataset pf h c (XFile name lines) false = Ok (d, h) /\ scalars d x /\ x_mask d = X0 true /\
     x_flipped d = false /\ x_file d = Some name /\ x_delim d = c /\
     xget_data h d = Ok (columns [x]) /\ xlen h d = Ok 1%nat) /\
  xnew_dataset pf h c (XFile name lines) true = Raise TypeError.
Proof. exact new_one. Qed.
Print Assumptions C145_new.

Theorem C145_reflect_refuted : exists pf lines d x,
  xnew_dataset pf [] tab (XFile "f.txt" lines) false = Ok (d, []) /\ xget_data [] d = Ok (columns [x]) /\
  xnew_dataset pf [] tab (XFile "f.txt" lines) true = Raise TypeError.
Proof. exact reflect_needs_two. Qed.
Print Assumptions C145_reflect_refuted.

Theorem C145_copy : forall pf h c d x, scalars d x ->
  xnew_dataset pf h c (XCopy d) true = Raise TypeError /\
  exists d', xnew_dataset pf h c (XCopy d) false = Ok (d', h) /\ scalars d' x /\ x_mask d' = X0 true.
Proof. exact copy_one. Qed.
Print Assumptions C145_copy.

Theorem C145_wavelengths : forall h d x w, scalars d x -> x_mask d = X0 true -> p_wav x = Some w ->
  xunique_wavelength_data h d = Ok [(Some w, [p_aoi x], [p_psi x], [p_delta x])].
Proof. exact scalars_unique. Qed.
Print Assumptions C145_wavelengths.

(** ** masks: True and None show the point, False hides it, boolean arrays of any length are refused *)
Theorem C145_mask : forall h d x, scalars d x ->
  (forall m, m = X0 true \/ m = XM MNone ->
     xget_data h (xset_mask d m) = Ok (columns [x]) /\ xlen h (xset_mask d m) = Ok 1%nat) /\
  xget_data h (xset_mask d (X0 false)) = Ok (columns []) /\
  (forall m, let d' := xset_mask d (XM (MBool m)) in
     xget_wavelength h d' = Raise IndexError /\ xget_aoi h d' = Raise IndexError /\ xget_psi h d' = Raise IndexError /\
     xget_delta h d' = Raise IndexError /\ xlen h d' = Raise IndexError).
Proof.
  exact (fun h d x S => conj (fun m M => scalars_data h (xset_mask d m) x S M)
    (conj (proj1 (scalars_hidden h (xset_mask d (X0 false)) x S eq_refl)) (fun m => scalars_bool h d x m S))).
Qed.
Print Assumptions C145_mask.

(** ** saving a dataset of one point and loading the file: the same point and the same file again *)
Theorem C145_save_load : forall pf pr h d x h0 c name,
  holds h d [x] -> point_survives pf pr x -> pf "# wavelength"%string = None -> c = tab ->
  exists lines, save pr h d = Ok lines /\
    (exists d', xnew_dataset pf h0 c (XFile name lines) false = Ok (d', h0) /\ scalars d' x /\
       xget_data h0 d' = Ok (columns [x]) /\ xlen h0 d' = Ok 1%nat /\ xsave pr h0 d' = Ok lines) /\
    xnew_dataset pf h0 c (XFile name lines) true = Raise TypeError.
Proof. exact save_load_one. Qed.
Print Assumptions C145_save_load.

(** ** d.data = d.data makes arrays of the scalars *)
Theorem C145_data_setter : forall h d x, exists d1 h1,
  xset_data h d [p_wav x] [p_aoi x] [p_psi x] [p_delta x] = (of_dataset d1, h1) /\
  holds h1 d1 [x] /\ ds_mask d1 = MBool [true] /\ ds_flipped d1 = x_flipped d.
Proof. exact set_data_one. Qed.
Print Assumptions C145_data_setter.

(** ** refresh: if the file has grown the getters return arrays with one row; if it has shrunk to one
    point they raise IndexError *)
Theorem C145_refresh_grown : forall pf h d x content hdr body name pts,
  scalars d x -> x_mask d = X0 true -> x_file d = Some name ->
  header pf (x_delim d) content hdr body -> (2 <= List.length pts)%nat ->
  table_of pf (x_delim d) (skipn (List.length hdr) (if Nat.eqb (List.length hdr) 100 then body else tl body)) pts ->
  exists d' h', xrefresh pf h d content = Ok (d', h') /\ xget_data h' d' = Ok (one_row pts) /\
    xlen h' d' = Ok (List.length pts).
Proof. exact refresh_grown. Qed.
Print Assumptions C145_refresh_grown.

Theorem C145_refresh_shrunk : forall pf h d content hdr body name m x,
  ds_file d = Some name -> ds_mask d = MBool m -> header pf (ds_delim d) content hdr body ->
  one_point pf (ds_delim d) (skipn (List.length hdr) (if Nat.eqb (List.length hdr) 100 then body else tl body)) x ->
  exists d', xrefresh pf h (of_dataset d) content = Ok (d', h) /\ scalars d' x /\
    xget_data h d' = Raise IndexError /\ xlen h d' = Raise IndexError.
Proof. exact refresh_shrunk. Qed.
Print Assumptions C145_refresh_shrunk.

(** a file with one line of four numbers, and one with four lines of one number *)
Example C145_example : header digit tab line7 [header_line] [row1 "7"] /\ one_point digit tab [row1 "7"] (pt1 7) /\
  header digit tab column7 [] column7 /\ one_point digit tab column7 pt6543.
Proof. exact (conj line7_header (conj line7_point (conj column7_header column7_point))). Qed.

(** the hypotheses of [C145_save_load] *)
Example C145_save_example : point_survives digit print1 (pt1 1) /\ digit "# wavelength"%string = None.
Proof. split; [|reflexivity]. pose proof survive_pts as F. inversion F; assumption. Qed.

(** a file read through a handle: of three lines of data the first is lost *)
Example C145_refresh_example : header digit tab [row1 "7"; row1 "1"; row1 "2"] [] [row1 "7"; row1 "1"; row1 "2"] /\
  table_of digit tab (skipn 0 (tl [row1 "7"; row1 "1"; row1 "2"])) [pt1 1; pt1 2].
Proof. exact refresh_ex. Qed.
