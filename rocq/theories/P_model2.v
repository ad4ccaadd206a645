(** * Concrete instances for ReflectModelSE.model and plot_structure *)

Require Import Reals List Bool ZArith String Lra Lia Sorting.Permutation.
From Coquelicot Require Import Complex.
From Verif Require Import Base Cplx M_tmm Spec_optics P_tmm3 P_psidelta P_psidelta2 P_film P_examples M_ema M_disp M_struct
  Spec_struct P_struct P_struct2 M_model P_model.
Import ListNotations.
Open Scope list_scope.
Open Scope R_scope.

(** glass in air *)
Definition glass : structure := simple [layer_c 0 1 0 0 0; layer_c 0 (3/2) 0 0 0] false "linear".
Definition glass_rows : list slab := [mkSlab 0 (Some (1, 0)) 0 0; mkSlab 0 (Some (3/2, 0)) 0 0].

Lemma glass_slabs ext w : structure_slabs ext (set_wavelength glass w) None = (Ok (Some glass_rows), set_wavelength glass w).
Proof.
  apply (slabs_one_each ext (set_wavelength glass w) None glass_rows); try (simpl; lra); auto.
  - do 2 eexists. split; [reflexivity|]. split; [reflexivity|]. split; do 4 eexists; reflexivity.
  - repeat constructor.
  - repeat constructor; eexists; split; reflexivity.
  - intros (r & [<-|[<-|[]]] & H); simpl in H; lra.
Qed.

Lemma glass_one ext off flip : fst (one_wavelength ext glass off flip 633 [0]) = Ok [(Some 45, Some (180 + off))].
Proof.
  unfold one_wavelength. rewrite glass_slabs. cbn [fst].
  destruct ex_glass_normal as (rs & ts & rp & tp & H1 & H2 & H3).
  exact (table_normal 0 0 0 0 (RtoC 1) (RtoC (3/2)) [] 0 633 off flip rs ts rp tp H1 H2 H3).
Qed.

Lemma glass_model ext off flip : fst (model ext DFloat glass off flip [(633, 0)]) = Ok ([Some 45], [Some (180 + off)]).
Proof.
  assert (F : fine ext glass off flip (633, 0)).
  { unfold fine, val. cbn [fst snd]. rewrite glass_one. reflexivity. }
  rewrite model_single by exact F. unfold val. cbn [fst snd]. rewrite glass_one. reflexivity.
Qed.

(** repeated points in any order *)
Lemma glass_batch ext off flip : fst (model ext DFloat glass off flip [(633, 0); (633, 0)]) =
  Ok ([Some 45; Some 45], [Some (180 + off); Some (180 + off)]).
Proof.
  apply (batch_from_points ext glass off flip [(633, 0); (633, 0)]
    [(Some 45, Some (180 + off)); (Some 45, Some (180 + off))]).
  repeat constructor; apply glass_model.
Qed.

Lemma trunc_180 : trunc (180 + 1 / 2) = 180.
Proof.
  unfold trunc. destruct Rle_dec; [|lra]. unfold Int_part.
  assert (up (180 + 1/2) = 181%Z) as ->.
  { symmetry. apply tech_up; simpl; lra. }
  reflexivity.
Qed.

Lemma int_differs : exists s off w a, forall ext nan,
  fst (model ext DFloat s off false [(IZR w, IZR a)]) = Ok ([Some 45], [Some (180 + 1 / 2)]) /\
  fst (model ext (DInt nan) s off false [(IZR w, IZR a)]) <> fst (model ext DFloat s off false [(IZR w, IZR a)]).
Proof.
  exists glass, (1/2), 633%Z, 0%Z. intros ext nan.
  pose proof (glass_model ext (1/2) false) as G. split; [exact G|].
  rewrite int_truncates. destruct (model ext DFloat glass (1/2) false [(633, 0)]) as [r s'].
  cbn [fst] in G. rewrite G. cbn [fst map store]. rewrite trunc_180. intros E.
  assert (Some 180 = Some (180 + 1/2)) as E' by congruence.
  assert (180 = 180 + 1/2) by congruence. lra.
Qed.

(** the empty structure cannot be evaluated *)
Lemma empty_raises ext t off flip x : fst (model ext t empty_structure off flip [x]) = Raise TypeError.
Proof. reflexivity. Qed.

(** a reversed structure is no longer reversed after plotting *)
Lemma plot_unreverses : exists ext s cs s', 
  plot_structure ext s None false = (Ok cs, s') /\ st_reverse s = true /\ st_reverse s' = false /\
  st_wavelength s = Some 500 /\ st_wavelength s' = Some 658.
Proof.
  exists no_ext, (set_reverse (set_wavelength glass (Some 500)) true), [([], [])],
    (set_wavelength glass (Some 658)).
  split; [|repeat split].
  unfold plot_structure. cbn [plotted_wavelengths plot_loop].
  change (set_wavelength (set_reverse (set_reverse (set_wavelength glass (Some 500)) true) false) (Some 658))
    with (set_wavelength glass (Some 658)).
  unfold ri_profile. rewrite glass_slabs. reflexivity.
Qed.

Lemma plot_effects ext s data reverse cs s' : plot_structure ext s data reverse = (Ok cs, s') ->
  Forall2 (fun w c => ri_profile ext (set_wavelength (set_reverse s reverse) (Some w)) None 0 = Ok c)
          (plotted_wavelengths data) cs /\
  st_data s' = st_data s /\ st_solvent s' = st_solvent s /\ st_contract s' = st_contract s /\
  st_ema s' = st_ema s /\ st_dep s' = st_dep s /\ st_reverse s' = false /\
  st_wavelength s' = match plotted_wavelengths data with
                     | [] => st_wavelength s
                     | ws => Some (List.last ws 0)
                     end.
Proof.
  intros H. destruct (plot_spec _ _ _ _ _ _ H) as [H1 ->]. split; auto.
  unfold final_wavelength. destruct (plotted_wavelengths data); repeat split.
Qed.
