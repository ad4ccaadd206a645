(** * Specification: the lines of a file, whatever numbers they hold *)

Require Import Reals ZArith List Bool String Ascii.
From Verif Require Import Base M_data Spec_data M_ep4 M_instr Spec_ep4 Spec_instr.
Import ListNotations.
Open Scope list_scope.
Open Scope R_scope.

(** psi (degrees) of N = cos(2 psi); not a number outside [-1, 1] *)
Definition psi_from (N psi : num) : Prop :=
  match N with
  | None => psi = None
  | Some n => (Rabs n <= 1 -> exists a, psi = Some a /\ 0 <= a <= 90 /\ cos (rad (2 * a)) = n) /\
              (1 < Rabs n -> psi = None)
  end.
(** delta (degrees): direction of (C, S), reversed for N < -1; 0 if there is no direction *)
Definition delta_from (N Cc S delta : num) : Prop :=
  match N, Cc, S with
  | Some n, Some c, Some s =>
      (1 + n <> 0 -> exists a r, delta = Some a /\ 0 <= a < 360 /\ 0 <= r /\
         c = r * (1 + n) * cos (rad a) /\ s = r * (1 + n) * sin (rad a) /\ (r = 0 -> a = 0)) /\
      (1 + n = 0 -> (c = 0 \/ s = 0 -> delta = None) /\
         (c <> 0 -> s <> 0 -> exists a, delta = Some a /\ 0 <= a < 360 /\ 0 < c * cos (rad a) /\ 0 < s * sin (rad a) /\
            cos (rad a) ^ 2 = sin (rad a) ^ 2))
  | _, _, _ => delta = None
  end.
(** N, C, S *)
Definition ncs := (num * num * num)%type.
Definition decoded (x : ncs) (psi delta : num) : Prop :=
  psi_from (fst (fst x)) psi /\ delta_from (fst (fst x)) (snd (fst x)) (snd x) delta.
(** line of N, C, S and two more numbers *)
Definition ncs_line (pf : string -> option num) (l : string) (x : ncs) : Prop :=
  exists fs v3 v4, fields tab l fs /\ numbers pf fs [0; 1; 2; 3; 4]%nat [fst (fst x); snd (fst x); snd x; v3; v4].
(** line of a time step: time and five numbers for every wavelength; the last two characters of
    the line do not count *)
Definition step_line (pf : string -> option num) (W : nat) (l : string) (t : R) (xs : list ncs) : Prop :=
  List.length xs = W /\
  exists fs c c', l = (join tab fs ++ String c (String c' EmptyString))%string /\ Forall (free tab) fs /\ fs <> [] /\
    numbers pf fs [0]%nat [Some t] /\
    forall j x, nth_error xs j = Some x -> exists v3 v4,
      numbers pf fs [5 * j + 1; 5 * j + 2; 5 * j + 3; 5 * j + 4; 5 * j + 5]%nat [fst (fst x); snd (fst x); snd x; v3; v4].
(** the points at the wavelengths [ws] *)
Definition points_of (aoi : num) (ws : list num) (xs : list ncs) (pts : list point) : Prop :=
  map p_wav pts = ws /\ map p_aoi pts = map (fun _ => aoi) ws /\
  Forall2 (fun x p => decoded x (p_psi p) (p_delta p)) xs pts.
(** [contents]: the trimmed lines of [raw] that are not blank *)
Definition nonblank (raw contents : list string) : Prop :=
  exists all, Forall2 trimmed raw all /\ those (fun s => s <> EmptyString) all contents.
