(** * Example files *)

Require Import Reals ZArith Lra Lia List Bool String Ascii Sorting.Sorted.
From Verif Require Import Base M_disp M_model P_model M_data Spec_data P_data P_struct M_ep4 Spec_ep4 P_ep4 P_ep4b P_ep4e
  M_instr Spec_instr P_instr P_instr2 P_instr3.
Import ListNotations.
Open Scope list_scope.
Open Scope R_scope.

Definition nl (s : string) : string := (s ++ newline)%string.
(** float() on the strings of the examples *)
Definition ex_pf (s : string) : option num :=
  dict_get String.eqb s
    [("0"%string, Some 0); (nl "0", Some 0); ("1"%string, Some 1); ("2"%string, Some 2); ("70"%string, Some 70); ("500"%string, Some 500); ("600"%string, Some 600);
     ("400"%string, Some 400); ("20"%string, Some 20); ("30"%string, Some 30); ("100"%string, Some 100); ("110"%string, Some 110);
     ("70.00"%string, Some 70); ("n"%string, Some (cos (rad (2 * 30)))); ("c"%string, Some (sin (rad (2 * 30)) * cos (rad 200)));
     ("s"%string, Some (sin (rad (2 * 30)) * sin (rad 200)))].
Definition ex_pi (s : string) : option nat :=
  dict_get String.eqb s [("1"%string, 1%nat); ("2"%string, 2%nat)].

Ltac freeness := repeat first [split | constructor | discriminate].
Ltac nums := repeat constructor; eexists; split; reflexivity.

(** ** M2000 *)
Definition ex_rec (w p : string) : list string :=
  [join tab [w; "70"; p; "100"; "0"; nl "0"]%string; join tab [""; "x"; "0"; "0"; nl "0"]%string; join tab [""; "x"; "0"; "0"; nl "0"]%string].
Definition ex_pts : list point := [(Some 500, Some 70, Some 20, Some 100); (Some 600, Some 70, Some 30, Some 100)].
Definition ex_vase : string := ("VASEmethod[" ++ "Original=a, b=x y" ++ "]" ++ newline)%string.
Definition ex_kvs : list (string * string) := [("Original", "a"); ("b", "x y")]%string.
Lemma ex_vase_line : vase_line ex_kvs ex_vase.
Proof.
  split; [discriminate|]. split; [reflexivity|]. unfold ex_kvs. repeat constructor; cbn; try discriminate; intros (A & B); discriminate.
Qed.
Lemma ex_record w p x y : In w ["500"; "600"]%string -> In p ["20"; "30"]%string -> ex_pf w = Some x -> ex_pf p = Some y ->
  record ex_pf (ex_rec w p) (x, Some 70, y, Some 100).
Proof.
  intros Hw Hp Ew Ep.
  exists (join tab [w; "70"; p; "100"; "0"; nl "0"]%string), (join tab [""; "x"; "0"; "0"; nl "0"]%string), (join tab [""; "x"; "0"; "0"; nl "0"]%string),
    [w; "70"; p; "100"; "0"; nl "0"]%string, [""; "x"; "0"; "0"; nl "0"]%string, [""; "x"; "0"; "0"; nl "0"]%string,
    (Some 0), (Some 0), [Some 0; Some 0; Some 0], [Some 0; Some 0; Some 0].
  assert (fields tab (join tab [""; "x"; "0"; "0"; nl "0"]%string) [""; "x"; "0"; "0"; nl "0"]%string) as F.
  { split; [discriminate|]. split; [|reflexivity]. repeat constructor; discriminate. }
  assert (numbers ex_pf [""; "x"; "0"; "0"; nl "0"]%string [2; 3; 4]%nat [Some 0; Some 0; Some 0]) as N by nums.
  split; [reflexivity|]. split; [|split; [exact F|split; [exact F|split; [|split; exact N]]]].
  - split; [discriminate|]. split; [|reflexivity].
    destruct Hw as [<-|[<-|[]]], Hp as [<-|[<-|[]]]; repeat constructor; discriminate.
  - repeat constructor; eexists; (split; [reflexivity|]); try reflexivity; assumption.
Qed.
Lemma ex_static : vase_line ex_kvs ex_vase /\ Forall2 (record ex_pf) [ex_rec "500" "20"; ex_rec "600" "30"] ex_pts /\ ends [""%string].
Proof.
  split; [exact ex_vase_line|]. split; [|exact I].
  repeat constructor; apply ex_record; simpl; auto.
Qed.
Lemma ex_other : (forall c, "Map"%string <> ("nm" ++ String c EmptyString)%string) /\
  (forall c, "Map"%string <> ("Dynamic" ++ String c EmptyString)%string).
Proof. split; intros c E; discriminate. Qed.

(** a handle: the file has two records, the dataset one point *)
Lemma handle_loss : exists file recs x, file = ""%string :: ex_vase :: ("nm" ++ newline)%string :: List.concat recs /\
  List.length recs = 2%nat /\ open_M2000file ex_pf (ByHandle file) [] 1 1 = Ok (ex_kvs, OneSet x) /\ ld_wav x = [Some 600] /\
  exists x', open_M2000file ex_pf (ByName file) [] 1 1 = Ok (ex_kvs, OneSet x') /\ ld_wav x' = [Some 500; Some 600].
Proof.
  set (recs := [ex_rec "500" "20"; ex_rec "600" "30"]).
  destruct ex_static as (Hv & Hr & _).
  assert (forall A (l : list A) r, every 1 l r -> r = l) as E1.
  { intros A l r H. apply nth_error_ext. intros i. rewrite H, Nat.mul_1_r. reflexivity. }
  destruct (open_handle ex_pf 1 1 "" ex_vase ex_kvs (ex_rec "500" "20") [ex_rec "600" "30"] [(Some 600, Some 70, Some 30, Some 100)] [] [])
    as (x & sel & E & V & S); auto.
  { inversion Hr; auto. } { discriminate. } { exact I. }
  destruct (open_static ex_pf 1 1 "" ex_vase ex_kvs recs ex_pts [] []) as (x' & sel' & E' & V' & S'); auto.
  { discriminate. } { exact I. }
  rewrite app_nil_r in E, E'. apply E1 in V, V'. subst sel sel'.
  exists (""%string :: ex_vase :: ("nm" ++ newline)%string :: List.concat recs), recs, x.
  split; [reflexivity|]. split; [reflexivity|]. split; [exact E|]. split; [exact (proj1 S)|].
  exists x'. split; [exact E'|exact (proj1 S')].
Qed.

(** *** time series *)
Definition ex_row (w p t : R) : krow := ((Some w, Some 70, Some p, Some 100), Some t).
Definition ex_rows : list krow := [ex_row 500 20 1; ex_row 600 30 1; ex_row 500 21 2; ex_row 600 31 2; ex_row 500 22 3].
Lemma ex_times : is_times ex_rows [1; 2; 3] /\ every 2 [1; 2; 3] [1; 3] /\ Forall2 seconds [1; 3] [60; 180] /\ NoDup [60; 180].
Proof.
  split; [|split; [|split]].
  - split; [repeat constructor; lra|]. intros t. unfold ex_rows, ex_row. split.
    + intros [<-|[<-|[<-|[]]]]; eexists; simpl; auto 6.
    + intros (x & H). simpl in H. decompose [or] H; try contradiction;
        match goal with E : _ = (x, Some t) |- _ => injection E as _ <- end; simpl; auto.
  - intros [|[|[|i]]]; reflexivity.
  - repeat constructor.
    + exists 600%Z. split; [lra|]. split; [|reflexivity]. replace (1 * 600 - 600) with 0 by lra. rewrite Rabs_R0. lra.
    + exists 1800%Z. split; [lra|]. split; [|reflexivity]. replace (3 * 600 - 1800) with 0 by lra. rewrite Rabs_R0. lra.
  - repeat constructor; simpl; lra.
Qed.
Definition ex_close : list krow := [ex_row 500 20 (1 / 1000); ex_row 500 30 (15 / 10000)].
Lemma close_seconds : seconds (1 / 1000) (1 / 10) /\ seconds (15 / 10000) (1 / 10).
Proof.
  split; exists 1%Z; (split; [lra|]).
  - replace (1 / 1000 * 600) with (6 / 10) by lra. split; unfold Rabs; destruct Rcase_abs; lra.
  - replace (15 / 10000 * 600) with (9 / 10) by lra. split; unfold Rabs; destruct Rcase_abs; lra.
Qed.
Lemma steps_lost : exists rows ts d x, is_times rows ts /\ List.length ts = 2%nat /\ M2000_kinetic 1 1 rows = Ok d /\ d = [(1 / 10, x)] /\
  ld_psi x = [Some 30].
Proof.
  assert (is_times ex_close [1 / 1000; 15 / 10000]) as T.
  { split; [repeat constructor; lra|]. intros t. unfold ex_close, ex_row. split.
    + intros [<-|[<-|[]]]; eexists; simpl; auto 6.
    + intros (x & H). simpl in H. decompose [or] H; try contradiction;
        match goal with E : _ = (x, Some t) |- _ => injection E as _ <- end; simpl; auto. }
  assert (every 1 [1 / 1000; 15 / 10000] [1 / 1000; 15 / 10000]) as V by (intros i; rewrite Nat.mul_1_r; reflexivity).
  destruct (kinetic_general 1 1 _ _ _ ltac:(lia) ltac:(lia) T V) as (d & E & N & K & L).
  destruct close_seconds as (S1 & S2).
  destruct (L [1 / 1000] (15 / 10000) [] (1 / 10) eq_refl S2) as (x & I & sel & Ve & St); [intros t' []|].
  exists ex_close, [1 / 1000; 15 / 10000], d, x. split; [exact T|]. split; [reflexivity|]. split; [exact E|].
  assert (forall k, In k (map fst d) -> k = 1 / 10) as U.
  { intros k Hk. apply K in Hk. destruct Hk as (t & [<-|[<-|[]]] & S); eapply seconds_unique; eauto. }
  split.
  - destruct d as [|(k1, x1) [|(k2, x2) d]]; [contradiction| |].
    + destruct I as [I|[]]. injection I as -> ->. reflexivity.
    + exfalso. cbn [map fst] in N, U. inversion N as [|? ? N1 _]. apply N1. left.
      rewrite (U k1), (U k2); simpl; auto.
  - assert (sel = rows_at (15 / 10000) ex_close) as ->.
    { apply nth_error_ext. intros i. rewrite Ve, Nat.mul_1_r. reflexivity. }
    destruct St as (_ & _ & -> & _). unfold rows_at, ex_close, ex_row. cbn [filter snd].
    destruct (Req_EM_T (1 / 1000) (15 / 10000)); [lra|]. destruct (Req_EM_T (15 / 10000) (15 / 10000)); [reflexivity|lra].
Qed.

(** ** FilmSense *)
Definition ex_head : string := nl (join tab ["1"; "2"; "70"; "0"; "0"; "0"]%string).
Definition ex_wave : string := join tab ["500"; "0"; "0"; nl "0"]%string.
Definition ex_ncs : string := join tab ["n"; "c"; "s"; "0"; nl "0"]%string.
Definition ex_step (t : string) : string := (join tab [t; "n"; "c"; "s"; "0"; "0"] ++ String tab newline)%string.
Lemma ex_encoded : encoded (Some (cos (rad (2 * 30)))) (Some (sin (rad (2 * 30)) * cos (rad 200)))
  (Some (sin (rad (2 * 30)) * sin (rad 200))) 30 200.
Proof. unfold encoded. repeat split; lra. Qed.
Lemma ex_fs_head more : more = [3]%nat \/ more = [3; 4; 5]%nat -> fs_head ex_pf ex_pi more ex_head 1 2 (Some 70).
Proof.
  intros H. exists ["1"; "2"; "70"; "0"; "0"; "0"]%string, "1"%string, "2"%string.
  destruct H as [-> | ->]; [exists [Some 0]|exists [Some 0; Some 0; Some 0]]; exists "010"%char;
    (split; [reflexivity|]); (split; [repeat constructor; discriminate|]); (split; [discriminate|]);
    repeat (split; [reflexivity|]); split; nums.
Qed.
Lemma ex_fs_wave : fs_wave ex_pf ex_wave (Some 500).
Proof.
  exists ["500"; "0"; "0"; nl "0"]%string, (Some 0), (Some 0), (Some 0). split.
  - split; [discriminate|]. split; [repeat constructor; discriminate|reflexivity].
  - nums.
Qed.
Lemma ex_fs_ncs : fs_ncs ex_pf ex_ncs (30, 200).
Proof.
  exists ["n"; "c"; "s"; "0"; nl "0"]%string. do 5 eexists. split; [|split; [|exact ex_encoded]].
  - split; [discriminate|]. split; [repeat constructor; discriminate|reflexivity].
  - nums.
Qed.
Lemma ex_fs_step t v : In t ["0"; "1"]%string -> ex_pf t = Some (Some v) -> fs_step ex_pf (ex_step t) v [(30, 200)].
Proof.
  intros Ht E. exists [t; "n"; "c"; "s"; "0"; "0"]%string, tab, "010"%char. split; [reflexivity|]. split.
  - destruct Ht as [<-|[<-|[]]]; repeat constructor; discriminate.
  - split; [discriminate|]. split; [repeat constructor; exists t; auto|].
    intros [|[|j]] pd H; try discriminate. injection H as <-. do 5 eexists. split; [|exact ex_encoded]. nums.
Qed.

(** ** Horiba *)
Definition ex_horiba : list string :=
  map nl ["created today"; "# SAMPLE:"; "wafer"; ""; "# INCIDENCE ANGLE:"; "70.00 deg"; ""; "# DATA:"; "nm Psi Delta"; "400 20 100"; "500 30 110"; "600 20 100"; ""]%string.
Definition ex_secs : list section :=
  [Section "SAMPLE" ["wafer"%string] true; Section "INCIDENCE ANGLE" ["70.00 deg"%string] true;
   Section "DATA" ["nm Psi Delta"; "400 20 100"; "500 30 110"; "600 20 100"]%string true].
Lemma trim_nl s : match s with EmptyString => True | String c s' => ~ white c /\ ~ white (last_char c s') end -> trimmed (nl s) s.
Proof.
  intros H. split; auto. exists EmptyString, newline. split; [reflexivity|]. split; [exact I|].
  split; [unfold white; simpl; auto 6|exact I].
Qed.
Ltac trim := apply trim_nl; simpl; try exact I; split; unfold white; simpl; intros H; decompose [or] H; try discriminate; auto.
Ltac trims := cbn [map]; repeat (apply Forall2_cons; [trim|]); apply Forall2_nil.
Ltac ttl := exists EmptyString, ":"%char; split; [exact I|trim].
Lemma ex_horiba_file : horiba 0 ex_horiba ex_secs [1; 4; 7]%nat.
Proof.
  apply horiba_junk with "created today"%string; [trim|intros s E; discriminate|].
  apply (horiba_section 1 (nl "# SAMPLE:") "SAMPLE" [nl "wafer"] ["wafer"%string] (nl "")); [ttl|trims|intros [H|[]]; discriminate|trim|].
  apply (horiba_section 4 (nl "# INCIDENCE ANGLE:") "INCIDENCE ANGLE" [nl "70.00 deg"] ["70.00 deg"%string] (nl "")); [ttl|trims|intros [H|[]]; discriminate|trim|].
  apply (horiba_section 7 (nl "# DATA:") "DATA" (map nl ["nm Psi Delta"; "400 20 100"; "500 30 110"; "600 20 100"]%string)
    ["nm Psi Delta"; "400 20 100"; "500 30 110"; "600 20 100"]%string (nl "") []); [ttl|trims|simpl; intros H; decompose [or] H; auto; discriminate|trim|].
  constructor.
Qed.
Lemma ex_horiba_rows : NoDup (map sec_label ex_secs) /\ fields " " "nm Psi Delta" ["nm"; "Psi"; "Delta"]%string /\
  Forall2 (data_row ex_pf ["nm"; "Psi"; "Delta"]%string) ["400 20 100"; "500 30 110"; "600 20 100"]%string
    [(Some 400, Some 20, Some 100); (Some 500, Some 30, Some 110); (Some 600, Some 20, Some 100)] /\
  ex_pf (substring 0 5 "70.00 deg") = Some (Some 70).
Proof.
  split; [repeat constructor; simpl; intros H; decompose [or] H; auto; discriminate|].
  split; [split; [discriminate|]; split; [repeat constructor; discriminate|reflexivity]|].
  split; [|reflexivity].
  assert (forall a b c x y z, free " " a -> free " " b -> free " " c -> ex_pf a = Some x -> ex_pf b = Some y -> ex_pf c = Some z ->
    data_row ex_pf ["nm"; "Psi"; "Delta"]%string (join " " [a; b; c]) (x, y, z)) as G.
  { intros a b c x y z Fa Fb Fc Ea Eb Ec. exists [a; b; c], [x; y; z].
    split; [split; [discriminate|]; split; [repeat constructor; auto|reflexivity]|]. split; [reflexivity|].
    split; [repeat constructor; auto|].
    split; [exists 0%nat|split; [exists 1%nat|exists 2%nat]]; split; reflexivity. }
  constructor; [|constructor; [|constructor; [|constructor]]].
  - apply (G "400" "20" "100")%string; try reflexivity; repeat constructor; discriminate.
  - apply (G "500" "30" "110")%string; try reflexivity; repeat constructor; discriminate.
  - apply (G "600" "20" "100")%string; try reflexivity; repeat constructor; discriminate.
Qed.

(** without a blank line the next title is swallowed *)
Lemma swallowed : exists lines t, In t lines /\ title t "DATA" /\
  forall pf ansi refl lo hi, open_HORIBAfile pf ansi lines refl lo hi = Raise KeyError.
Proof.
  exists (map nl ["# SAMPLE:"; "wafer"; "# DATA:"; "nm Psi Delta"; "400 20 100"; ""]%string), (nl "# DATA:").
  split; [simpl; auto|]. split; [ttl|]. intros pf ansi refl lo hi.
  apply (open_horiba_no_data pf ansi _ [Section "SAMPLE" ["wafer"; "# DATA:"; "nm Psi Delta"; "400 20 100"]%string true] [0]%nat).
  - apply (horiba_section 0 (nl "# SAMPLE:") "SAMPLE" (map nl ["wafer"; "# DATA:"; "nm Psi Delta"; "400 20 100"]%string)
      ["wafer"; "# DATA:"; "nm Psi Delta"; "400 20 100"]%string (nl "") []); [ttl|trims|simpl; intros H; decompose [or] H; auto; discriminate|trim|].
    constructor.
  - repeat constructor; simpl; auto.
  - simpl. intros [H|[]]; discriminate.
Qed.
