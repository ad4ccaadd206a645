(** * Proofs about ObjectiveSE.__str__ *)

Require Import Reals List Bool String Lra Lia.
From Verif Require Import Base M_disp M_struct M_model M_data Spec_data P_data M_objective Spec_objective P_objective P_objective2 P_objective3
  M_summary.
Import ListNotations.
Open Scope list_scope.
Open Scope R_scope.

Lemma frames_none {A} (f : call A) : (forall P, frames P f) -> forall st, (forall q, st_store (snd (f st)) q = st_store st q) /\ st_flips (snd (f st)) = st_flips st.
Proof.
  intros F st. destruct (F (fun _ => False) st) as [A1 A2]. split; [|exact A2]. intros q. apply A1. intros [].
Qed.
Theorem str_spec sy o st : 
  (forall q, st_store (snd (objective_str sy o st)) q = st_store st q) /\
  st_flips (snd (objective_str sy o st)) = st_flips st /\
  match fst (chisqr sy o None st) with
  | Raise e => fst (objective_str sy o st) = Raise e
  | Ok c => exists s, fst (objective_str sy o st) = Ok s /\ su_chi2 s = c /\ su_weighted s = weighted o /\
      su_datapoints s = npoints (sy_heap sy) (ob_data o) /\
      forall i p, nth_error (parameters sy o) i = Some p ->
        exists x, nth_error (su_values s) i = Some x /\ (p_constraint (sy_params sy p) = None -> x = st_store st p)
  end.
Proof.
  destruct (frames_none (chisqr sy o None) (fun P => frames_chisqr P sy o None (frames_setp_none P sy o)) st) as [A B].
  unfold objective_str, bind. destruct (chisqr sy o None st) as [[c|e] st'] eqn:E; cbn [fst snd] in *.
  - split; [exact A|]. split; [exact B|]. eexists. split; [reflexivity|]. cbn [su_chi2 su_weighted su_datapoints su_values].
    split; [reflexivity|]. split; [reflexivity|]. split; [reflexivity|]. intros i p I.
    exists (value sy st' p). split; [apply map_nth_error; exact I|]. intros C. unfold value, read. rewrite C. apply A.
  - auto.
Qed.
Theorem datapoints_all sy o pts m sel : holds (sy_heap sy) (ob_data o) pts -> ds_mask (ob_data o) = MBool m -> kept m pts sel ->
  npoints (sy_heap sy) (ob_data o) = List.length pts /\ ds_len (sy_heap sy) (ob_data o) = Ok (List.length sel).
Proof.
  intros H M K. split; [|apply (getters _ _ _ _ _ H M K)]. unfold npoints. destruct H as (H & _). rewrite (arr_nth _ _ _ H). apply map_length.
Qed.
Theorem datapoints_masked : exists sy o pts sel X, holds (sy_heap sy) (ob_data o) pts /\ has_data sy o sel X /\
  List.length sel = 1%nat /\ npoints (sy_heap sy) (ob_data o) = 2%nat.
Proof.
  exists sys_g, ob_g, [pt_g; (Some 500, Some 60, None, Some 7)], [pt_g], [(633, 0)].
  split; [repeat split|]. split; [exact data_g_has|]. split; reflexivity.
Qed.
Lemma str_example (l x : R) : Rabs (x - 1) <= 180 ->
  exists st, fst (chisqr sys_g ob_g None st) = Ok (Some ((x - 1) ^ 2)).
Proof.
  intros H. pose proof (chisqr_g l x 0 0 None H) as C. unfold chisqr, bind in C. rewrite setp_g in C.
  eexists. unfold chisqr, bind. cbn [setp ret]. exact C.
Qed.
Lemma str_example3 : exists st, fst (chisqr sys_g ob_g None st) = Ok (Some ((3 - 1) ^ 2)) /\
  exists s, fst (objective_str sys_g ob_g st) = Ok s /\ su_chi2 s = Some ((3 - 1) ^ 2) /\ su_datapoints s = 2%nat.
Proof.
  destruct (str_example 0 3) as [st H]; [rewrite Rabs_right; lra|]. exists st. split; [exact H|].
  destruct (str_spec sys_g ob_g st) as (_ & _ & S). rewrite H in S. destruct S as (s & A & B & _ & D & _).
  exists s. split; [exact A|]. split; [exact B|]. rewrite D. reflexivity.
Qed.
