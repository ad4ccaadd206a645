(** * Specification of slab tables and of structures.
    Uses the data types of the model (components, structures, rows), none of its functions on
    tables. *)

Require Import Reals List Bool ZArith String.
From Coquelicot Require Import Complex.
From Verif Require Import Base M_ema M_disp M_struct.
Import ListNotations.
Open Scope list_scope.
Open Scope R_scope.

Definition row0 : slab := mkSlab 0 None 0 0.

Definition is_SlabSE (c : component) : Prop := exists t m r v, c_kind c = Slab t m r v.

(** first and last component are SlabSE *)
Definition slab_ends (l : list component) : Prop :=
  exists c0 cl, hd_error l = Some c0 /\ hd_error (rev l) = Some cl /\ is_SlabSE c0 /\ is_SlabSE cl.

(** the index of a material inside a structure of wavelength [w] *)
Definition index_at (m : material) (w : option R) (n : option C) : Prop :=
  sc_complex (m_scat m) (if m_dispersive m then w else None) = Ok n.

(** the rows that a component contributes to the table of a structure *)
Definition rows_of (s : structure) (c : component) (rs : list slab) : Prop :=
  match c_kind c with
  | Slab t m ro v => exists n, rs = [mkSlab t n ro v] /\ index_at m (st_wavelength s) n
  | MixedSlab t mA mB v ro =>
      exists a b n, rs = [mkSlab t (Some n) ro 0] /\
        index_at mA (st_wavelength s) (Some a) /\ index_at mB (st_wavelength s) (Some b) /\
        overall_ri a b v (st_ema s) (st_dep s) = Ok n
  | Custom f =>
      f (Settings (st_wavelength s) (st_ema s) (st_dep s)) = Ok (Some rs) \/
      f (Settings (st_wavelength s) (st_ema s) (st_dep s)) = Ok None /\ rs = []
  end.

(** the structure after slabs(wavelength=kw) *)
Definition with_wavelength (s : structure) (kw : option R) : structure :=
  match kw with
  | None => s
  | Some w => Structure (st_data s) (st_name s) (st_solvent s) (st_reverse s) (st_contract s)
                        (Some w) (st_ema s) (st_dep s)
  end.

(** [b] is [a] in reverse order; each roughness stays with its interface.  Row i carries the
    roughness between rows i-1 and i. *)
Definition reversed_table (a b : list slab) : Prop :=
  List.length b = List.length a /\
  s_rough (nth 0 b row0) = 0 /\
  (forall i, (i < List.length a)%nat ->
     s_thick (nth i b row0) = s_thick (nth (List.length a - 1 - i) a row0) /\
     s_ri (nth i b row0) = s_ri (nth (List.length a - 1 - i) a row0) /\
     s_vf (nth i b row0) = s_vf (nth (List.length a - 1 - i) a row0)) /\
  (forall i, (0 < i < List.length a)%nat ->
     s_rough (nth i b row0) = s_rough (nth (List.length a - i) a row0)).

(** the solvent's index *)
Definition solvent_index (s : structure) (tbl : list slab) (v : option C) : Prop :=
  match st_solvent s with
  | Some sc => sc_complex sc (st_wavelength s) = Ok v
  | None => v = s_ri (nth (List.length tbl - 1) tbl row0)
  end.

Definition some_solvated (tbl : list slab) : Prop := exists r, In r tbl /\ 0 < s_vf r.

(** [rows] is [tbl] with the inner rows mixed with solvent of index [y].  An undefined (nan)
    index stays undefined, except that the Bruggeman rule turns it into 0. *)
Definition solvated (s : structure) (tbl : list slab) (y : C) (rows : list slab) : Prop :=
  List.length rows = List.length tbl /\
  forall i, (i < List.length tbl)%nat ->
    s_thick (nth i rows row0) = s_thick (nth i tbl row0) /\
    s_rough (nth i rows row0) = s_rough (nth i tbl row0) /\
    s_vf (nth i rows row0) = s_vf (nth i tbl row0) /\
    (i = 0%nat \/ i = (List.length tbl - 1)%nat -> nth i rows row0 = nth i tbl row0) /\
    ((0 < i < List.length tbl - 1)%nat -> forall n, s_ri (nth i tbl row0) = Some n ->
       exists m, overall_ri n y (s_vf (nth i tbl row0)) (st_ema s) (st_dep s) = Ok m /\
                 s_ri (nth i rows row0) = Some m) /\
    ((0 < i < List.length tbl - 1)%nat -> s_ri (nth i tbl row0) = None ->
       s_ri (nth i rows row0) = if String.eqb (st_ema s) "bruggeman" then Some (RtoC 0) else None).

(** ** building structures *)

(** a scatterer used as a component: a slab of zero thickness, roughness and solvation *)
Definition zero_slab (m : material) : component := Component (Slab 0 m 0 0) true.

(** the components an operand of [|] stands for, in a world *)
Definition operand (w : list structure) (o : pyobj) (cs : list component) : Prop :=
  match o with
  | PComp c => cs = [c]
  | PScat m => cs = [zero_slab m]
  | PStruct a => exists s, nth_error w a = Some s /\ cs = st_data s
  | POther => False
  end.

Definition same_settings (s t : structure) : Prop :=
  st_solvent s = st_solvent t /\ st_reverse s = st_reverse t /\ st_contract s = st_contract t /\
  st_wavelength s = st_wavelength t /\ st_ema s = st_ema t /\ st_dep s = st_dep t.

(** settings of StructureSE() *)
Definition default_settings (s : structure) : Prop :=
  st_name s = EmptyString /\ st_solvent s = None /\ st_reverse s = false /\ st_contract s = 0 /\
  st_wavelength s = None /\ st_ema s = "linear"%string /\ st_dep s = 1 / 3.

(** ** alignment of a profile: distance from the fronting medium to the front of slab [i];
    fronting and backing have no thickness *)
Definition depth (rows : list slab) (i : nat) : R :=
  fold_right Rplus 0 (map s_thick (firstn (Nat.min i (List.length rows - 1) - 1) (tl rows))).

(** the slab that [align] puts at zero, among [n] rows: python counts negative indices from
    the end; [align >= 0] names the interface behind slab [align] *)
Definition aligned_slab (n : nat) (align : Z) : nat :=
  if (0 <=? align)%Z then Z.to_nat (align + 1) else Z.to_nat (Z.of_nat n + align).

(** [tbl] is [base] in the order the structure asks for *)
Definition in_order (s : structure) (base tbl : list slab) : Prop :=
  if st_reverse s then reversed_table base tbl else tbl = base.

(** histories: a sequence of assignments (exceptions caught), a sequence of appends (up to the
    first exception) *)
Definition assign_all (s : structure) (vs : list pyval) : structure :=
  fold_left (fun s v => snd (set_depolarisation s v)) vs s.
Fixpoint append_all (w : world) (a : nat) (l : list pyobj) : result unit * world :=
  match l with
  | [] => (Ok tt, w)
  | o :: l' => match append w a o with
               | (Ok _, w') => append_all w' a l'
               | (Raise e, w') => (Raise e, w')
               end
  end.

(** [l] is what remains of [m] after dropping some members *)
Inductive subsequence {A} : list A -> list A -> Prop :=
| sub_nil : subsequence [] []
| sub_keep x l m : subsequence l m -> subsequence (x :: l) (x :: m)
| sub_drop x l m : subsequence l m -> subsequence l (x :: m).

Definition count_components (l : list pyobj) : nat :=
  List.length (filter (fun o => match o with PComp _ => true | _ => false end) l).
