(** * Property theorems: circular_distance and ObjectiveSE (C01-C12, C84, C85) *)

Require Import Reals List Bool ZArith String.
From Verif Require Import Base M_model M_data Spec_data M_objective Spec_objective P_objective P_objective2 P_objective3.
Import ListNotations.
Open Scope list_scope.
Open Scope R_scope.

(** C01 *)
Theorem C01_circular_distance a b per (positive : 0 < per) (within_period : Rabs (a - b) <= per) :
  circle_distance per a b (circular_distance a b per) /\
  0 <= circular_distance a b per <= per / 2 /\
  circular_distance b a per = circular_distance a b per /\
  (circular_distance a b per = 0 <-> exists k : Z, a - b = IZR k * per).
Proof. exact (circ_is_distance a b per positive within_period). Qed.
Print Assumptions C01_circular_distance.

(** C02 *)
Theorem C02_outside_one_period a b per (positive : 0 < per) (beyond : per < Rabs (a - b)) :
  circular_distance a b per < 0 /\
  (Rabs (a - b) <= 3 / 2 * per -> forall d, circle_distance per a b d -> (circular_distance a b per) ^ 2 = d ^ 2) /\
  (3 / 2 * per < Rabs (a - b) -> forall d, circle_distance per a b d -> d ^ 2 < (circular_distance a b per) ^ 2).
Proof. exact (circ_outside a b per positive beyond). Qed.
Print Assumptions C02_outside_one_period.

(** the docstring's claim without a restriction of the angles *)
Theorem C02_docstring_refuted : exists a b per, 0 < per /\ ~ circle_distance per a b (circular_distance a b per).
Proof. exact circ_refuted. Qed.
Print Assumptions C02_docstring_refuted.

(** C03 *)
Theorem C03_residuals sy o v st st1 sel X psi delta
    (data : has_data sy o sel X) (parameters_set : setp sy o v st = (Ok tt, st1))
    (model_values : predicts sy st1 (ob_model o) X psi delta) :
  exists rpsi rdelta, fst (residuals sy o v st) = Ok (rpsi ++ rdelta) /\
    List.length rpsi = List.length sel /\ List.length rdelta = List.length sel /\
    List.length psi = List.length sel /\ List.length delta = List.length sel /\
    forall i x p d, nth_error sel i = Some x -> nth_error psi i = Some p -> nth_error delta i = Some d ->
      exists a b, nth_error rpsi i = Some a /\ minus p (p_psi x) a /\
                  nth_error rdelta i = Some b /\ distance d (p_delta x) b.
Proof. exact (residuals_spec sy o v st st1 sel X psi delta data parameters_set model_values). Qed.
Print Assumptions C03_residuals.

Theorem C03_residuals_raise sy o v st st1 sel X e
    (data : has_data sy o sel X) (parameters_set : setp sy o v st = (Ok tt, st1))
    (model_raises : fst (call_model sy (ob_model o) X st1) = Raise e) :
  fst (residuals sy o v st) = Raise e.
Proof. exact (residuals_raise sy o v st st1 sel X e data parameters_set model_raises). Qed.
Print Assumptions C03_residuals_raise.

(** glass in air: offset x, datum 181 degrees; one of two points is masked *)
Example C03_example l x : has_data sys_g ob_g [pt_g] [(633, 0)] /\
  exists st1, setp sys_g ob_g (Some [l; x]) (st_g 0 0 None) = (Ok tt, st1) /\
  predicts sys_g st1 0%nat [(633, 0)] [Some 45] [Some (180 + x)] /\ value sys_g st1 2%nat = l.
Proof. exact (conj data_g_has (predicts_g l x 0 0 None)). Qed.

(** C04 *)
Theorem C04_chisqr sy o v st :
  (forall r, fst (residuals sy o v st) = Ok (map Some r) ->
     fst (chisqr sy o v st) = Ok (Some (sum (map (fun x => x ^ 2) r)))) /\
  (forall r, fst (residuals sy o v st) = Ok r -> In None r -> fst (chisqr sy o v st) = Ok None) /\
  (forall e, fst (residuals sy o v st) = Raise e -> fst (chisqr sy o v st) = Raise e) /\
  (forall c, fst (chisqr sy o v st) = Ok (Some c) -> 0 <= c).
Proof. exact (chisqr_spec sy o v st). Qed.
Print Assumptions C04_chisqr.

Theorem C04_perfect_fit sy o v st st1 sel X psi delta c
    (data : has_data sy o sel X) (parameters_set : setp sy o v st = (Ok tt, st1))
    (model_values : predicts sy st1 (ob_model o) X psi delta)
    (finite : fst (chisqr sy o v st) = Ok (Some c))
    (within_turn : forall i x y d, nth_error sel i = Some x -> p_delta x = Some y ->
       nth_error delta i = Some (Some d) -> Rabs (d - y) <= 360) :
  c = 0 <-> forall i x, nth_error sel i = Some x -> exists p d y,
     nth_error psi i = Some (Some p) /\ p_psi x = Some p /\
     nth_error delta i = Some (Some d) /\ p_delta x = Some y /\ exists k : Z, d - y = IZR k * 360.
Proof. exact (chisqr_zero sy o v st st1 sel X psi delta c data parameters_set model_values finite within_turn). Qed.
Print Assumptions C04_perfect_fit.

Example C04_example l x (near : Rabs (x - 1) <= 180) :
  fst (residuals sys_g ob_g (Some [l; x]) (st_g 0 0 None)) = Ok [Some 0; Some (Rabs (x - 1))] /\
  fst (chisqr sys_g ob_g (Some [l; x]) (st_g 0 0 None)) = Ok (Some ((x - 1) ^ 2)).
Proof. exact (conj (residuals_g l x 0 0 None near) (chisqr_g l x 0 0 None near)). Qed.

(** C05 *)
Theorem C05_logl sy o v st st1 sel X psi delta
    (data : has_data sy o sel X) (parameters_set : setp sy o v st = (Ok tt, st1))
    (model_values : predicts sy st1 (ob_model o) X psi delta) :
  (forall ms rs, psi ++ delta = map Some ms -> fst (residuals sy o v st) = Ok (map Some rs) ->
     fst (logl sy o v st) = Ok (- (1 / 2) * sum (map (fun mr => term sy st1 o (fst mr) (snd mr)) (combine ms rs)))) /\
  (forall r, fst (residuals sy o v st) = Ok r -> In None r -> fst (logl sy o v st) = Raise RuntimeError).
Proof. exact (logl_spec sy o v st st1 sel X psi delta data parameters_set model_values). Qed.
Print Assumptions C05_logl.

Theorem C05_logl_plain sy o v st (no_lnsigma : ob_lnsigma o = None) (unweighted : weighted o = false) :
  (forall c, fst (chisqr sy o v st) = Ok (Some c) -> fst (logl sy o v st) = Ok (- c / 2)) /\
  (fst (chisqr sy o v st) = Ok None -> fst (logl sy o v st) = Raise RuntimeError).
Proof. exact (logl_plain sy o v st no_lnsigma unweighted). Qed.
Print Assumptions C05_logl_plain.

Example C05_example : fst (logl sys_g ob_g (Some [0; 1]) (st_g 0 0 None)) =
  Ok (- (1 / 2) * (ln (2 * PI * (1 + 45 ^ 2)) + ln (2 * PI * (1 + 181 ^ 2)))).
Proof. exact logl_g. Qed.
Example C05_example_nan : exists sy o st r, fst (residuals sy o None st) = Ok r /\ In None r /\
  has_data sy o [(Some 633, Some 0, None, Some 7)] [(633, 0)].
Proof. exact nan_g. Qed.

(** C06 *)
Theorem C06_logpost sy o v st :
  (forall a b, fst (logp sy o v st) = Ok (Some a) -> fst (logl sy o v st) = Ok b ->
     fst (logpost sy o v st) = Ok (Some (a + b))) /\
  (forall a e, fst (logp sy o v st) = Ok (Some a) -> fst (logl sy o v st) = Raise e ->
     fst (logpost sy o v st) = Raise e) /\
  (fst (logp sy o v st) = Ok None ->
     fst (logpost sy o v st) = Ok None /\ st_wavelengths (snd (logpost sy o v st)) = st_wavelengths st /\
     forall ext h, logpost (other_model sy ext h) o v st = logpost sy o v st) /\
  (forall e, fst (logp sy o v st) = Raise e -> fst (logpost sy o v st) = Raise e).
Proof. exact (logpost_spec sy o v st). Qed.
Print Assumptions C06_logpost.

(** a value outside the bounds *)
Example C06_example : fst (logp sys_g ob_g (Some [11; 1]) (st_g 0 0 None)) = Ok None.
Proof. exact logp_out. Qed.

(** C85 *)
Theorem C85_logp sy o bs v st (wf : well_formed sy) (bounds : intervals sy o bs)
    (proper : forall b, In b bs -> fst b < snd b)
    (complete : List.length v = List.length (varying_parameters sy o)) :
  (Forall2 (fun x b => fst b <= x <= snd b) v bs ->
     fst (logp sy o (Some v) st) = Ok (Some (- sum (map (fun b => ln (snd b - fst b)) bs)))) /\
  (~ Forall2 (fun x b => fst b <= x <= snd b) v bs -> fst (logp sy o (Some v) st) = Ok None).
Proof. exact (logp_spec sy o bs v st wf bounds proper complete). Qed.
Print Assumptions C85_logp.

Example C85_example : well_formed sys_g /\ intervals sys_g ob_g [(-10, 10); (-10, 10)].
Proof. exact (conj (wf_ex 1 (3 / 2) heap_g) intervals_g). Qed.

(** C07 *)
Theorem C07_extra_ignored sy o f v st :
  residuals sy (with_extra o f) v st = residuals sy o v st /\ chisqr sy (with_extra o f) v st = chisqr sy o v st /\
  logp sy (with_extra o f) v st = logp sy o v st /\ logl sy (with_extra o f) v st = logl sy o v st /\
  logpost sy (with_extra o f) v st = logpost sy o v st.
Proof. exact (extra_ignored sy o f v st). Qed.
Print Assumptions C07_extra_ignored.

(** the documented contribution (here 1) is missing *)
Theorem C07_documentation_refuted : exists sy o v st a,
  fst (logpost sy (with_extra o None) v st) = Ok (Some a) /\
  fst (logpost sy (with_extra o (Some (fun _ _ => 1))) v st) = Ok (Some a).
Proof. exact extra_example. Qed.
Print Assumptions C07_documentation_refuted.

(** C08 *)
Theorem C08_setp_varying sy o v st (wf : well_formed sy)
    (complete : List.length v = List.length (varying_parameters sy o)) :
  exists st', setp sy o (Some v) st = (Ok tt, st') /\
    (forall i p x, nth_error (varying_parameters sy o) i = Some p -> nth_error v i = Some x -> value sy st' p = x) /\
    (forall q, ~ In q (varying_parameters sy o) -> st_store st' q = st_store st q) /\
    st_wavelengths st' = st_wavelengths st /\ st_flips st' = st_flips st.
Proof. exact (setp_varying sy o v st wf complete). Qed.
Print Assumptions C08_setp_varying.

Theorem C08_varying_parameters sy o :
  (forall p, In p (varying_parameters sy o) <-> In p (parameters sy o) /\ p_vary (sy_params sy p) = true) /\
  NoDup (varying_parameters sy o) /\
  (forall i j p q, nth_error (varying_parameters sy o) i = Some p -> nth_error (varying_parameters sy o) j = Some q ->
     (i < j)%nat -> exists l1 l2, parameters sy o = l1 ++ p :: l2 /\ ~ In p l1 /\ ~ In q l1).
Proof. exact (varying_spec sy o). Qed.
Print Assumptions C08_varying_parameters.

Theorem C08_setp_full sy o v st (full : List.length v = List.length (parameters sy o))
    (not_varying : List.length v <> List.length (varying_parameters sy o)) :
  exists st', setp sy o (Some v) st = (Ok tt, st') /\
    (forall i p x, last_at (parameters sy o) p i -> nth_error v i = Some x -> st_store st' p = x) /\
    (forall q, ~ In q (parameters sy o) -> st_store st' q = st_store st q) /\
    st_wavelengths st' = st_wavelengths st /\ st_flips st' = st_flips st.
Proof. exact (setp_full sy o v st full not_varying). Qed.
Print Assumptions C08_setp_full.

Theorem C08_setp_wrong sy o v st (not_full : List.length v <> List.length (parameters sy o))
    (not_varying : List.length v <> List.length (varying_parameters sy o)) :
  setp sy o (Some v) st = (Raise ValueError, st).
Proof. exact (setp_wrong sy o v st not_full not_varying). Qed.
Print Assumptions C08_setp_wrong.

Example C08_example : parameters sys_g ob_g = [2; 1; 0; 0; 0; 0; 0; 0]%nat /\ varying_parameters sys_g ob_g = [2; 1]%nat.
Proof. exact (conj params_g varying_g). Qed.

(** C09 *)
Theorem C09_history_irrelevant sy o es st v (wf : well_formed sy) (history : Forall (allowed sy o) es)
    (complete : List.length v = List.length (varying_parameters sy o)) :
  let st' := fold_left (step sy) es st in
  fst (residuals sy o (Some v) st') = fst (residuals sy o (Some v) st) /\
  fst (chisqr sy o (Some v) st') = fst (chisqr sy o (Some v) st) /\
  fst (logp sy o (Some v) st') = fst (logp sy o (Some v) st) /\
  fst (logl sy o (Some v) st') = fst (logl sy o (Some v) st) /\
  fst (logpost sy o (Some v) st') = fst (logpost sy o (Some v) st).
Proof. exact (history_irrelevant sy o es st v wf history complete). Qed.
Print Assumptions C09_history_irrelevant.

Example C09_example : well_formed sys_g /\ Forall (allowed sys_g ob_g) history_g.
Proof. exact (conj (wf_ex 1 (3 / 2) heap_g) history_g_allowed). Qed.

(** C10 *)
Theorem C10_covar_restores sy o a1 a2 alg st (wf : well_formed sy)
    (same_length : forall v, visits (List.length v) (a1 v) /\ visits (List.length v) (a2 v)) :
  st_store (snd (covar sy o a1 a2 alg st)) = st_store st /\
  st_flips (snd (covar sy o a1 a2 alg st)) = st_flips st.
Proof. exact (covar_restores sy o a1 a2 alg st wf same_length). Qed.
Print Assumptions C10_covar_restores.

Example C10_example v : visits (List.length v) (Probe v (fun _ => Throw FloatingPointError)) /\
  visits (List.length v) (Probe v (fun _ => Return [[1; 1]; [0; 1]])).
Proof. exact (visits_ex v). Qed.

(** C11 *)
Theorem C11_prior_transform sy o bs u (bounds : intervals sy o bs)
    (complete : List.length u = List.length (varying_parameters sy o)) :
  exists xs, prior_transform sy o u = Ok xs /\ List.length xs = List.length (varying_parameters sy o) /\
    forall i b q x, nth_error bs i = Some b -> nth_error u i = Some q -> nth_error xs i = Some x ->
      (fst b <= snd b -> 0 <= q <= 1 -> fst b <= x <= snd b) /\ (q = 0 -> x = fst b) /\ (q = 1 -> x = snd b).
Proof. exact (prior_spec sy o bs u bounds complete). Qed.
Print Assumptions C11_prior_transform.

Theorem C11_increasing sy o bs u u' xs xs' i b q q' x x' (bounds : intervals sy o bs)
    (value_u : prior_transform sy o u = Ok xs) (value_u' : prior_transform sy o u' = Ok xs')
    (bound_i : nth_error bs i = Some b) (proper : fst b < snd b)
    (u_i : nth_error u i = Some q) (u'_i : nth_error u' i = Some q')
    (x_i : nth_error xs i = Some x) (x'_i : nth_error xs' i = Some x') : q < q' <-> x < x'.
Proof. exact (prior_increasing sy o bs u u' xs xs' i b q q' x x' bounds value_u value_u' bound_i proper u_i u'_i x_i x'_i). Qed.
Print Assumptions C11_increasing.

Theorem C11_short sy o u (short : (List.length u < List.length (varying_parameters sy o))%nat) :
  prior_transform sy o u = Raise IndexError.
Proof. exact (prior_short sy o u short). Qed.
Print Assumptions C11_short.

Example C11_example : intervals sys_g ob_g [(-10, 10); (-10, 10)].
Proof. exact intervals_g. Qed.

(** C12 *)
Theorem C12_second_objective sy m1 d1 l1 w1 x1 m2 d2 l2 w2 x2 st
    (other_model_or_same_convention : m1 <> m2 \/ ds_flipped d1 = ds_flipped d2) :
  let '(o1, st1) := new_objective m1 d1 l1 w1 x1 st in
  let '(o2, st2) := new_objective m2 d2 l2 w2 x2 st1 in
  fst (residuals sy o1 None st2) = fst (residuals sy o1 None st1) /\
  fst (chisqr sy o1 None st2) = fst (chisqr sy o1 None st1) /\
  fst (logp sy o1 None st2) = fst (logp sy o1 None st1) /\
  fst (logl sy o1 None st2) = fst (logl sy o1 None st1) /\
  fst (logpost sy o1 None st2) = fst (logpost sy o1 None st1).
Proof. exact (second_objective sy m1 d1 l1 w1 x1 m2 d2 l2 w2 x2 st other_model_or_same_convention). Qed.
Print Assumptions C12_second_objective.

(** total reflection in a prism of index 25/16: the second dataset uses the folded delta *)
Theorem C12_independence_refuted : exists sy m d1 d2 st,
  let '(o1, st1) := new_objective m d1 None true None st in
  let '(o2, st2) := new_objective m d2 None true None st1 in
  exists r1 r2, fst (residuals sy o1 None st1) = Ok r1 /\ fst (residuals sy o1 None st2) = Ok r2 /\ r1 <> r2.
Proof. exact flags_interfere. Qed.
Print Assumptions C12_independence_refuted.

(** C84 *)
Theorem C84_only_parameters sy o st st'
    (same_values : forall p, In p (parameters sy o) -> value sy st p = value sy st' p)
    (same_convention : nth (ob_model o) (st_flips st) false = nth (ob_model o) (st_flips st') false) :
  fst (residuals sy o None st) = fst (residuals sy o None st') /\
  fst (chisqr sy o None st) = fst (chisqr sy o None st') /\
  fst (logp sy o None st) = fst (logp sy o None st') /\
  fst (logl sy o None st) = fst (logl sy o None st') /\
  fst (logpost sy o None st) = fst (logpost sy o None st').
Proof. exact (only_parameters sy o st st' same_values same_convention). Qed.
Print Assumptions C84_only_parameters.

Example C84_example : exists st st', (forall p, In p (parameters sys_g ob_g) -> value sys_g st p = value sys_g st' p) /\
  st_store st <> st_store st' /\ st_wavelengths st <> st_wavelengths st'.
Proof. exact same_g. Qed.
