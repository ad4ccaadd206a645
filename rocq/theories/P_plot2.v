(** * Proofs about plot_ellipsdata, and about what plots leave behind *)

Require Import Reals List Bool ZArith String Lra Lia Sorted FunctionalExtensionality.
From Coquelicot Require Import Complex.
From Verif Require Import Base M_tmm P_tmm M_disp P_disp M_struct M_model P_struct P_model M_data Spec_data P_data
  M_objective Spec_objective P_objective P_objective2 M_plot Spec_plot P_plot.
Import ListNotations.
Open Scope list_scope.
Open Scope R_scope.

Lemma place_self b x : place b (abscissa b x) (other b x) = x.
Proof. destruct b, x; reflexivity. Qed.
Lemma predicts_fun sy st m x p d p' d' : predicts sy st m [x] [p] [d] -> predicts sy st m [x] [p'] [d'] -> p = p' /\ d = d'.
Proof. unfold predicts. intros E E'. rewrite E in E'. injection E' as -> ->. auto. Qed.
Lemma F2_in {A B} (P : A -> B -> Prop) l m a : Forall2 P l m -> In a l -> exists b, In b m /\ P a b.
Proof.
  induction 1 as [|x y l m H F IH]; intros []; [subst; exists y; simpl; auto|].
  destruct IH as (b & I & Q); auto. exists b. simpl; auto.
Qed.

Lemma evenly_ends n a b xs : evenly n a b xs -> (1 < n)%nat ->
  nth_error xs 0 = Some a /\ nth_error xs (n - 1) = Some b.
Proof.
  intros [L H] N. assert (0 < INR (n - 1)) by (apply lt_0_INR; lia).
  destruct (nth_error xs 0) as [u|] eqn:E1; [|apply nth_error_None in E1; lia].
  destruct (nth_error xs (n - 1)) as [v|] eqn:E2; [|apply nth_error_None in E2; lia].
  pose proof (H _ _ E1) as H1. pose proof (H _ _ E2) as H2.
  rewrite Nat.sub_0_r in H1. rewrite Nat.sub_diag in H2. cbn [INR] in H1, H2. rewrite Rmult_0_r in H1, H2.
  split; f_equal; apply (Rmult_eq_reg_r (INR (n - 1))); lra.
Qed.

Theorem plot_ends sy o xaxis st fig st' sel X b psi delta k x p d : has_points sy (ob_data o) sel X ->
  plot_objective sy o xaxis st = (Ok fig, st') -> axis_rule xaxis X b ->
  predicts sy st (ob_model o) X psi delta ->
  nth_error X k = Some x -> nth_error psi k = Some p -> nth_error delta k = Some d ->
  least (map (abscissa b) X) (abscissa b x) \/ greatest (map (abscissa b) X) (abscissa b x) ->
  exists c i, In c (fg_curves fig) /\ nth_error (cv_x c) i = Some (abscissa b x) /\
    nth_error (cv_psi c) i = Some p /\ nth_error (cv_delta c) i = Some d.
Proof.
  intros H E A P Ex Ep Ed End. rewrite (plot_axis _ _ _ _ _ _ _ H A) in E.
  destruct (plot_by_ok _ _ _ _ _ _ _ _ H E) as (_ & (vs & lo & hi & L1 & L2 & _ & Hv & F) & _).
  assert (Iv : In (other b x) vs) by (apply Hv, in_map; eapply nth_error_In; eauto).
  destruct (F2_in _ _ _ _ F Iv) as (c & Ic & Ev & (Lp & Ld & S)).
  destruct (evenly_ends _ _ _ _ Ev ltac:(lia)) as [E0 E1].
  assert (exists i, nth_error (cv_x c) i = Some (abscissa b x)) as [i Ei].
  { destruct End as [[I1 M1]|[I1 M1]].
    - exists 0%nat. rewrite E0. f_equal. apply Rle_antisym; [apply L1; auto|apply M1, L1].
    - exists (50 - 1)%nat. rewrite E1. f_equal. apply Rle_antisym; [apply M1, L2|apply L2; auto]. }
  exists c, i. split; auto. split; auto.
  assert (Li : (i < List.length (cv_x c))%nat) by (apply nth_error_Some; congruence).
  destruct (nth_error (cv_psi c) i) as [p'|] eqn:Ep'; [|apply nth_error_None in Ep'; lia].
  destruct (nth_error (cv_delta c) i) as [d'|] eqn:Ed'; [|apply nth_error_None in Ed'; lia].
  pose proof (S i _ _ _ Ei Ep' Ed') as Q. rewrite place_self in Q.
  destruct (call_model_points _ _ _ _ _ _ P) as (_ & _ & P1). specialize (P1 k x p d Ex Ep Ed).
  destruct (predicts_fun _ _ _ _ _ _ _ _ Q P1) as [-> ->]. auto.
Qed.

Lemma same_results sy o' st st' : st_store st' = st_store st -> st_flips st' = st_flips st ->
  fst (residuals sy o' None st') = fst (residuals sy o' None st) /\
  fst (chisqr sy o' None st') = fst (chisqr sy o' None st) /\
  fst (logl sy o' None st') = fst (logl sy o' None st) /\
  fst (logpost sy o' None st') = fst (logpost sy o' None st).
Proof.
  intros E F. destruct (only_parameters sy o' st' st) as (R1 & R2 & _ & R4 & R5); auto.
  - intros p _. unfold value. rewrite E. reflexivity.
  - rewrite F. reflexivity.
Qed.
Theorem plot_harmless sy o xaxis o' st : let st' := snd (plot_objective sy o xaxis st) in
  (forall p, value sy st' p = value sy st p) /\
  fst (residuals sy o' None st') = fst (residuals sy o' None st) /\
  fst (chisqr sy o' None st') = fst (chisqr sy o' None st) /\
  fst (logl sy o' None st') = fst (logl sy o' None st) /\
  fst (logpost sy o' None st') = fst (logpost sy o' None st).
Proof.
  cbv zeta. destruct (plot_keeps sy o xaxis st) as [E F]. split.
  - intros p. unfold value. rewrite E. reflexivity.
  - apply same_results; auto.
Qed.

(** ** plot_ellipsdata *)
Lemma given_choose data m ob d m' : given data m ob d m' <-> choose data m ob = Ok (d, m').
Proof.
  unfold given, choose. split.
  - intros [(o & -> & -> & -> & -> & ->)|(-> & -> & ->)]; reflexivity.
  - destruct ob as [o|].
    + destruct data; [discriminate|]. destruct m; [discriminate|]. intros E. injection E as <- <-. left. exists o. auto.
    + destruct data as [d0|]; [|discriminate]. intros E. injection E as <- <-. right. auto.
Qed.

Definition curves_by (sy : system) (d : dataset) (m : option nat) (b : bool) : call (list R * list curve) :=
  if b then
    bind (lift (wavelengths_of sy d)) (fun ws =>
    bind (lift (angles_of sy d)) (fun aois =>
    bind (lift (grid aois 5)) (fun xs =>
    bind (match m with
          | Some m => draw_curves sy m xs (pt true) (np_unique ws)
          | None => ret []
          end) (fun cs => ret (aois, cs)))))
  else
    bind (lift (wavelengths_of sy d)) (fun ws =>
    bind (lift (grid ws 50)) (fun xs =>
    bind (match m with
          | Some m =>
              bind (lift (angles_of sy d)) (fun aois =>
              match aois with
              | [] => raise IndexError
              | aoi :: _ => draw_curves sy m xs (pt false) [aoi]
              end)
          | None => ret []
          end) (fun cs => ret (ws, cs)))).
Lemma ellips_unfold sy data m ob d m' b resax st : given data m ob d m' ->
  plot_ellipsdata sy data m ob (axis_name b) resax st =
  bind (curves_by sy d m' b) (fun '(x, cs) =>
  bind (lift (draw_data sy d x cs)) (fun fig =>
  if resax then bind (residual_panel sy ob x) (fun p => ret (fig, Some p))
  else ret (fig, None))) st.
Proof.
  intros G. apply (proj1 (given_choose _ _ _ _ _)) in G. unfold plot_ellipsdata. unfold bind at 1, lift at 1.
  rewrite G. destruct b; reflexivity.
Qed.
Lemma ellips_axis sy data m ob x resax st r : fst (plot_ellipsdata sy data m ob x resax st) = Ok r -> exists b, x = axis_name b.
Proof.
  unfold plot_ellipsdata, bind, lift. destruct (choose data m ob) as [[d m']|e]; [|discriminate].
  destruct (String.eqb x "aoi") eqn:E; [apply String.eqb_eq in E; exists true; auto|].
  destruct (String.eqb x "wavelength") eqn:E2; [apply String.eqb_eq in E2; exists false; auto|]. discriminate.
Qed.

Lemma curves_by_ok sy d m b sel X st x cs st' : has_points sy d sel X -> curves_by sy d m b st = (Ok (x, cs), st') ->
  x = map (abscissa b) X /\ curves_spec sy st X m b cs /\ st_store st' = st_store st /\ st_flips st' = st_flips st.
Proof.
  intros H. destruct (read_points _ _ _ _ H) as (W & A & _). unfold curves_by, bind, lift, ret. rewrite W, A.
  destruct b.
  - destruct (grid (map snd X) 5) as [xs|e] eqn:G; [|discriminate].
    destruct (grid_ok _ _ _ G) as (lo & hi & L1 & L2 & Exs).
    destruct m as [m|].
    + destruct (draw_curves sy m xs (pt true) (np_unique (map fst X)) st) as [[cs1|e] s1] eqn:C; [|discriminate].
      intros E. inversion E. subst x cs1 s1. clear E. destruct (draw_curves_ok _ _ _ _ _ _ _ _ C) as (F & S1 & S2).
      split; auto. split; auto. exists lo, hi. split; auto. split; auto. exists (np_unique (map fst X)).
      split; [apply np_unique_sorted|]. split; [intros v; apply np_unique_In|].
      clear -F Exs. induction F as [|v c vs cs [Hx Hs] F IH]; constructor; auto. split; auto.
      rewrite Hx, Exs. apply linspace_evenly.
    + intros E. inversion E. subst. split; auto. split; auto. exists lo, hi. auto.
  - destruct (grid (map fst X) 50) as [xs|e] eqn:G; [|discriminate].
    destruct (grid_ok _ _ _ G) as (lo & hi & L1 & L2 & Exs).
    destruct m as [m|].
    + destruct X as [|x0 X']; [discriminate|]. cbn [map].
      destruct (draw_curves sy m xs (pt false) [snd x0] st) as [[cs1|e] s1] eqn:C; [|discriminate].
      intros E. inversion E. subst x cs1 s1. clear E. destruct (draw_curves_ok _ _ _ _ _ _ _ _ C) as (F & S1 & S2).
      split; auto. split; auto. exists lo, hi. split; auto. split; auto.
      inversion F as [|v c vs cs' [Hx Hs] F']. inversion F'. exists x0, X', c.
      split; auto. split; auto. split; auto. rewrite Hx, Exs. apply linspace_evenly.
    + intros E. inversion E. subst. split; auto. split; auto. exists lo, hi. auto.
Qed.

Lemma residuals_halves sy o sel X st res : has_data sy o sel X -> fst (residuals sy o None st) = Ok res ->
  List.length res = (List.length X + List.length X)%nat.
Proof.
  intros H E. destruct (fst (call_model sy (ob_model o) X st)) as [[psi delta]|e] eqn:M.
  - destruct (residuals_spec sy o None st st sel X psi delta H eq_refl M) as (rp & rd & E' & L1 & L2 & _).
    rewrite E' in E. injection E as <-. rewrite app_length, L1, L2.
    destruct H as (pts & m & _ & _ & _ & F). rewrite (F2_length _ _ _ F). reflexivity.
  - rewrite (residuals_raise sy o None st st sel X e H eq_refl M) in E. discriminate.
Qed.
Lemma residuals_keeps sy o st : st_store (snd (residuals sy o None st)) = st_store st /\ st_flips (snd (residuals sy o None st)) = st_flips st.
Proof.
  assert (F : frames (fun _ => False) (residuals sy o None)) by (apply frames_after_residuals, frames_setp_none).
  destruct (F st) as [F1 F2]. split; auto. apply functional_extensionality. intros q. apply F1. auto.
Qed.
Lemma chisqr_keeps sy o st : st_store (snd (chisqr sy o None st)) = st_store st /\ st_flips (snd (chisqr sy o None st)) = st_flips st.
Proof.
  assert (F : frames (fun _ => False) (chisqr sy o None)) by (apply frames_chisqr, frames_setp_none).
  destruct (F st) as [F1 F2]. split; auto. apply functional_extensionality. intros q. apply F1. auto.
Qed.

Lemma residual_panel_ok sy o sel X b st p st' : has_points sy (ob_data o) sel X ->
  residual_panel sy (Some o) (map (abscissa b) X) st = (Ok p, st') ->
  panel_spec sy st o X b p /\ st_store st' = st_store st /\ st_flips st' = st_flips st.
Proof.
  intros H. unfold residual_panel, bind, lift, ret.
  pose proof (residuals_keeps sy o st) as [K1 K2].
  destruct (residuals sy o None st) as [[res|e] s1] eqn:E1; [|discriminate]. cbn [snd] in K1, K2.
  assert (L : List.length res = (List.length X + List.length X)%nat).
  { apply (residuals_halves sy o sel X st res H). rewrite E1. reflexivity. }
  assert (D : Nat.div (List.length res) 2 = List.length X).
  { rewrite L. replace (List.length X + List.length X)%nat with (List.length X * 2)%nat by lia. apply Nat.div_mul. lia. }
  rewrite D. destruct (scatter _ (firstn _ res)); [|discriminate]. destruct (scatter _ (skipn _ res)); [|discriminate].
  pose proof (chisqr_keeps sy o s1) as [K3 K4]. destruct (same_results sy o st s1 K1 K2) as (_ & R2 & _).
  destruct (chisqr sy o None s1) as [[c|e] s2]; [|discriminate]. cbn [fst snd] in *. intros E. inversion E. subst p s2.
  split; [|split; congruence]. repeat split; cbn [pn_x pn_psi pn_delta pn_chisqr].
  - rewrite firstn_length. lia.
  - rewrite skipn_length. lia.
  - rewrite E1, firstn_skipn. reflexivity.
  - congruence.
Qed.

Theorem ellips_shows sy data m ob xaxis resax st fig pan st' d m' sel X :
  given data m ob d m' -> has_points sy d sel X ->
  plot_ellipsdata sy data m ob xaxis resax st = (Ok (fig, pan), st') ->
  exists b, xaxis = axis_name b /\ shows_data b sel X fig /\ curves_spec sy st X m' b (fg_curves fig) /\
    (if resax then exists o p, ob = Some o /\ pan = Some p /\ panel_spec sy st o X b p else pan = None) /\
    st_store st' = st_store st /\ st_flips st' = st_flips st.
Proof.
  intros G H E. destruct (ellips_axis sy data m ob xaxis resax st (fig, pan)) as [b Eb]; [rewrite E; reflexivity|].
  exists b. split; auto. rewrite Eb in E. rewrite (ellips_unfold _ _ _ _ _ _ _ _ _ G) in E.
  unfold bind at 1 in E. destruct (curves_by sy d m' b st) as [[[x cs]|e] s1] eqn:C; [|discriminate].
  destruct (curves_by_ok _ _ _ _ _ _ _ _ _ _ H C) as (Ex & CS & S1 & S2).
  destruct (read_points _ _ _ _ H) as (_ & _ & D). unfold bind at 1, lift at 1 in E.
  rewrite D in E by (rewrite Ex, map_length; reflexivity).
  destruct resax.
  - unfold bind in E. destruct ob as [o|]; [|discriminate].
    destruct (residual_panel sy (Some o) x s1) as [[p|e] s2] eqn:PN; [|discriminate].
    inversion E. subst fig pan s2. clear E. cbn [fg_curves].
    assert (Hd : d = ob_data o). { destruct G as [(o' & E & _ & _ & -> & _)|(E & _)]; congruence. }
    subst d x. destruct (residual_panel_ok _ _ _ _ _ _ _ _ H PN) as ((P1 & P2 & P3 & P4 & P5) & T1 & T2).
    split; [repeat split|]. split; auto. split; [|split; congruence].
    exists o, p. split; auto. split; auto. destruct (same_results sy o st s1 S1 S2) as (R1 & R2 & _).
    repeat split; auto; congruence.
  - inversion E. subst fig pan s1. split; [repeat split; auto|]. split; auto.
Qed.

Theorem ellips_refuses sy data m ob xaxis resax st :
  ((~ exists d m', given data m ob d m') -> plot_ellipsdata sy data m ob xaxis resax st = (Raise AssertionError, st)) /\
  ((forall b, xaxis <> axis_name b) -> plot_ellipsdata sy data m ob xaxis resax st = (Raise AssertionError, st)) /\
  (ob = None -> resax = true -> forall fig st', plot_ellipsdata sy data m ob xaxis false st = (Ok (fig, None), st') ->
     plot_ellipsdata sy data m ob xaxis resax st = (Raise AssertionError, st')).
Proof.
  assert (CH : forall e, choose data m ob = Raise e -> e = AssertionError).
  { unfold choose. intros e. destruct ob, data, m; congruence. }
  split; [|split].
  - intros N. unfold plot_ellipsdata, bind at 1, lift at 1. destruct (choose data m ob) as [[d m']|e] eqn:C.
    + exfalso. apply N. exists d, m'. apply given_choose; auto.
    + rewrite (CH e eq_refl). reflexivity.
  - intros N. unfold plot_ellipsdata, bind at 1, lift at 1. destruct (choose data m ob) as [[d m']|e] eqn:C.
    + pose proof (N true) as N1. pose proof (N false) as N2. cbn [axis_name] in *. apply String.eqb_neq in N1, N2.
      unfold bind at 1. rewrite N1, N2. reflexivity.
    + rewrite (CH e eq_refl). reflexivity.
  - intros -> -> fig st' E. destruct (ellips_axis sy data m None xaxis false st (fig, None)) as [b ->]; [rewrite E; reflexivity|].
    destruct (choose data m None) as [[d m']|e] eqn:C.
    + apply given_choose in C. rewrite (ellips_unfold _ _ _ _ _ _ _ _ _ C) in E. rewrite (ellips_unfold _ _ _ _ _ _ _ _ _ C). unfold bind in *.
      destruct (curves_by sy d m' b st) as [[[x cs]|e] s1]; [|discriminate]. unfold lift in *.
      destruct (draw_data sy d x cs) as [f|e]; [|discriminate]. unfold ret in *. inversion E. reflexivity.
    + exfalso. unfold plot_ellipsdata, bind at 1, lift at 1 in E. rewrite C in E. discriminate.
Qed.
