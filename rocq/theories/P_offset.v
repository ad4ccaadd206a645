(** * Chi-squared as a function of delta_offset *)

Require Import Reals List Bool Lra Lia ZArith.
From Coquelicot Require Import Complex.
From Verif Require Import Base M_tmm M_disp M_struct M_model P_model M_data M_objective Spec_data Spec_objective P_objective P_objective2 Spec_offset.
Import ListNotations.
Open Scope list_scope.
Open Scope R_scope.

(** ** the offset is added to delta *)
Lemma delta_moves refl off c (rs rp : C) : delta_of refl (off + c) rs rp = omap (fun x => x + c) (delta_of refl off rs rp).
Proof.
  unfold delta_of. destruct (cdiv (- rp)%C rs) as [q|]; cbn [obind omap]; [|reflexivity].
  destruct (cdiv 1 q); cbn [obind omap]; [|reflexivity]. f_equal. ring.
Qed.

Lemma tmm_moves aoi layers w off c refl : fst (Delta_Psi_TMM aoi layers w (off + c) refl) =
  rmap (map (fun pd => (fst pd, omap (fun x => x + c) (snd pd)))) (fst (Delta_Psi_TMM aoi layers w off refl)).
Proof.
  unfold Delta_Psi_TMM. destruct layers as [|l0 rest]; [reflexivity|]. cbv zeta. cbn [fst].
  destruct (mapM l_ri (drop_k l0 :: rest)) as [RIs|].
  - destruct (coh_tmm RIs _ _) as [a|e]; cbn [rmap]; [|reflexivity]. f_equal. rewrite map_map. apply map_ext. intros x.
    unfold psi_delta. destruct (amp_s x) as [[rs ?]|]; [|reflexivity]. destruct (amp_p x) as [[rp ?]|]; [|reflexivity].
    cbn [fst snd]. f_equal. apply delta_moves.
  - assert (Q : rmap (map (fun pd : option R * option R => (fst pd, omap (fun x => x + c) (snd pd))))
      (if (length (l0 :: rest) <? 2)%nat then Raise IndexError else Ok (map (fun _ : R => (None, None)) aoi)) =
      (if (length (l0 :: rest) <? 2)%nat then Raise IndexError else Ok (map (fun _ : R => (@None R, @None R)) aoi))).
    { destruct (length (l0 :: rest) <? 2)%nat; [reflexivity|]. cbn [rmap]. rewrite map_map. reflexivity. }
    destruct (l_ri l0); [symmetry; exact Q|]. destruct aoi; [symmetry; exact Q|reflexivity].
Qed.

Lemma one_moves ext s off c flip w a : one_wavelength ext s (off + c) flip w a =
  (rmap (map (fun pd => (fst pd, omap (fun x => x + c) (snd pd)))) (fst (one_wavelength ext s off flip w a)), snd (one_wavelength ext s off flip w a)).
Proof.
  unfold one_wavelength. destruct (structure_slabs ext _ None) as [[[rows|]|e] s']; try reflexivity.
  cbn [fst snd]. rewrite tmm_moves. reflexivity.
Qed.

Lemma val_moves ext s off c flip x : fine ext s off flip x ->
  fine ext s (off + c) flip x /\ val ext s (off + c) flip x = (fst (val ext s off flip x), omap (fun y => y + c) (snd (val ext s off flip x))).
Proof.
  unfold fine. intros H. assert (V : val ext s (off + c) flip x = (fst (val ext s off flip x), omap (fun y => y + c) (snd (val ext s off flip x)))).
  { unfold val at 1. rewrite one_moves. cbn [fst]. rewrite H. reflexivity. }
  split; [|exact V]. rewrite V, one_moves. cbn [fst]. rewrite H. reflexivity.
Qed.

Lemma model_moves ext s off c flip X psi delta : fst (model ext DFloat s off flip X) = Ok (psi, delta) ->
  fst (model ext DFloat s (off + c) flip X) = Ok (psi, shifted c delta).
Proof.
  intros H. destruct (model ext DFloat s off flip X) as [r s'] eqn:M. cbn [fst] in H. subst r.
  pose proof (model_fine _ _ _ _ _ _ _ _ M) as F. rewrite model_value in M by exact F.
  assert (F' : forall x, In x X -> fine ext s (off + c) flip x) by (intros x I; apply val_moves, F, I).
  rewrite model_value by exact F'. cbn [fst].
  assert (E : (psi, delta) = (map (fun x => fst (val ext s off flip x)) X, map (fun x => snd (val ext s off flip x)) X)).
  { apply (f_equal (fun r => match fst r with Ok v => v | _ => ([], []) end)) in M. symmetry. exact M. }
  injection E as -> ->. f_equal. f_equal.
  - apply map_ext_in. intros x I. cbn [store]. rewrite (proj2 (val_moves ext s off c flip x (F x I))). reflexivity.
  - unfold shifted. rewrite map_map. apply map_ext_in. intros x I. cbn [store]. rewrite (proj2 (val_moves ext s off c flip x (F x I))). reflexivity.
Qed.

Theorem prediction_moves sy m c st st' X psi delta : moved_offset sy m c st st' -> predicts sy st m X psi delta ->
  predicts sy st' m X psi (shifted c delta).
Proof.
  intros (HV & HO & HF). unfold predicts, call_model. rewrite HO, HF. set (off := value sy st _). set (fl := nth m (st_flips st) false).
  assert (C : current sy st' m = set_wavelength (current sy st m) (st_wavelength (current sy st' m))).
  { unfold current at 1. cbv zeta. rewrite (inst_structure_ext _ (value sy st)) by exact HV. reflexivity. }
  rewrite C. destruct (model_forgets (sy_ext sy) DFloat (current sy st m) (st_wavelength (current sy st' m)) (off + c) fl X) as [E _].
  intros P. destruct (model (sy_ext sy) DFloat (current sy st m) off fl X) as [r s] eqn:M. cbn [fst] in P. subst r.
  pose proof (model_moves (sy_ext sy) (current sy st m) off c fl X psi delta) as Q. rewrite M in Q. specialize (Q eq_refl).
  rewrite Q in E. destruct (model (sy_ext sy) DFloat (set_wavelength _ _) (off + c) fl X) as [r s2]. cbn [fst] in *. exact E.
Qed.
