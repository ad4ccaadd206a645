(** * Proofs about texts *)

Require Import List Bool String Ascii Arith Lia.
From Verif Require Import M_text Spec_text.
Import ListNotations.
Open Scope string_scope.

Lemma lex_app s : forall t st, lex st (s ++ t) = lex (lex st s) t.
Proof. induction s; intros; cbn; auto. Qed.
Lemma lex_complete s t stack : complete s -> lex (Some (stack, Code)) (s ++ t) = lex (Some (stack, Code)) t.
Proof. intros H. rewrite lex_app, H. reflexivity. Qed.

Lemma eqb_refl' c : Ascii.eqb c c = true.
Proof. apply Ascii.eqb_refl. Qed.
Lemma hex_plain n q : (n < 16)%nat -> q = sq \/ q = dq ->
  Ascii.eqb (hexdigit n) q = false /\ Ascii.eqb (hexdigit n) bs = false /\ Ascii.eqb (hexdigit n) "010" = false.
Proof.
  intros H Q. do 16 (destruct n as [|n]; [destruct Q as [-> | ->]; repeat split; reflexivity|]). lia.
Qed.
Lemma lex_escaped q c stack : q = sq \/ q = dq -> lex (Some (stack, Inside q)) (escaped q c) = Some (stack, Inside q).
Proof.
  intros Q. assert (Qb : Ascii.eqb bs q = false) by (destruct Q as [-> | ->]; reflexivity).
  assert (B : forall x t, lex (Some (stack, Inside q)) (String bs (String x t)) = lex (Some (stack, Inside q)) t).
  { intros x t. cbn [lex lex1]. rewrite Qb. reflexivity. }
  unfold escaped. destruct (Ascii.eqb c bs || Ascii.eqb c q) eqn:E1; [apply B|].
  destruct (Ascii.eqb c "010") eqn:E2; [apply B|]. destruct (Ascii.eqb c "013") eqn:E3; [apply B|].
  destruct (Ascii.eqb c "009") eqn:E4; [apply B|].
  apply orb_false_iff in E1. destruct E1 as [E1 E0].
  destruct (Nat.ltb (nat_of_ascii c) 32 || Nat.leb 127 (nat_of_ascii c)).
  - rewrite B.
    assert (N : (nat_of_ascii c < 256)%nat) by apply nat_ascii_bounded.
    destruct (hex_plain (nat_of_ascii c / 16) q) as (A1 & A2 & A3); auto.
    { apply Nat.div_lt_upper_bound; lia. }
    destruct (hex_plain (nat_of_ascii c mod 16) q) as (B1 & B2 & B3); auto.
    { apply Nat.mod_upper_bound. lia. }
    cbn [lex lex1]. change "092"%char with bs. rewrite A1, A2, A3. cbn [lex lex1]. change "092"%char with bs. rewrite B1, B2, B3. reflexivity.
  - cbn [lex lex1]. change "092"%char with bs. rewrite E0, E1, E2. reflexivity.
Qed.
Lemma lex_escape q s stack : q = sq \/ q = dq -> lex (Some (stack, Inside q)) (escape q s) = Some (stack, Inside q).
Proof. intros Q. induction s as [|c s IH]; [reflexivity|]. cbn [escape]. rewrite lex_app, lex_escaped by exact Q. exact IH. Qed.
Theorem str_repr_complete s : complete (str_repr s).
Proof.
  intros stack. unfold str_repr. set (q := if _ && _ then dq else sq).
  assert (Q : q = sq \/ q = dq) by (unfold q; destruct (_ && _); auto).
  cbn [lex]. assert (L : lex1 (Some (stack, Code)) q = Some (stack, Inside q)) by (destruct Q as [-> | ->]; reflexivity).
  rewrite L, lex_app, lex_escape by exact Q. cbn [lex lex1]. rewrite eqb_refl'. reflexivity.
Qed.
Lemma name_complete n : complete (name_repr n).
Proof. destruct n; [apply str_repr_complete|]. intros st. reflexivity. Qed.

Ltac lits := repeat (rewrite ?lex_complete by (assumption || apply name_complete || apply str_repr_complete);
                     cbn [lex lex1 append Ascii.eqb eqb orb opens closes andb Bool.eqb]).

Theorem slab_complete t r ro n v i : complete t -> complete r -> complete ro -> complete v -> complete i ->
  complete (slab_repr t r ro n v i).
Proof. intros. intros st. unfold slab_repr. lits. reflexivity. Qed.
Theorem mixed_complete t a b v ro n i : complete t -> complete a -> complete b -> complete v -> complete ro -> complete i ->
  complete (mixed_repr t a b v ro n i).
Proof. intros. intros st. unfold mixed_repr. lits. reflexivity. Qed.
Theorem data_complete f d m : complete d -> complete m -> complete (data_repr f d m).
Proof. intros. intros st. unfold data_repr. destruct f; lits; reflexivity. Qed.
Theorem model_open s n o : complete s -> complete o ->
  forall stack, lex (Some (stack, Code)) (model_repr s n o) = Some ("("%char :: stack, Code).
Proof. intros. unfold model_repr. lits. reflexivity. Qed.
Theorem objective_open s n o d l u t x nm : complete s -> complete o -> complete d -> complete l -> complete u -> complete t ->
  complete x -> complete nm ->
  forall stack, lex (Some (stack, Code)) (objective_repr (model_repr s n o) d l u t x nm) = Some ("("%char :: stack, Code).
Proof.
  intros. unfold objective_repr. cbn [lex lex1 append Ascii.eqb eqb orb opens closes andb Bool.eqb].
  rewrite lex_app, model_open by assumption. lits. reflexivity.
Qed.
Theorem objective_complete m d l u t x nm : complete m -> complete d -> complete l -> complete u -> complete t ->
  complete x -> complete nm -> complete (objective_repr m d l u t x nm).
Proof. intros. intros st. unfold objective_repr. lits. reflexivity. Qed.
Lemma not_complete_model s n o : complete s -> complete o -> ~ complete (model_repr s n o).
Proof. intros A B C. specialize (C []). rewrite model_open in C by assumption. discriminate. Qed.
Definition awkward : string := String sq (String dq (String "(" (String bs (String "010" EmptyString)))).
Lemma text_example :
  complete (slab_repr "Parameter(value=10.0, bounds=Interval(lb=0, ub=1))" "<scatterer>" "None" (Some awkward) "[1]" "{}") /\
  str_repr awkward = String sq (String bs (String sq (String dq (String "(" (String bs (String bs (String bs (String "n" (String sq EmptyString))))))))) /\
  model_repr "Structure()" (Some "it's") "0.0" =
    "ReflectModel(Structure(), name=" ++ String dq ("it's" ++ String dq (", delta_offset = 0.0 ")) /\
  ~ complete (model_repr "Structure()" (Some "it's") "0.0") /\ ~ complete ")(" /\ ~ complete "(]".
Proof.
  split; [apply slab_complete; intros st; reflexivity|]. split; [reflexivity|]. split; [reflexivity|].
  split; [apply not_complete_model; intros st; reflexivity|].
  split; intros H; specialize (H []); discriminate.
Qed.

(** ** str(data), str(scatterer) *)
Open Scope string_scope.
Lemma lacks_app c s t : lacks c (s ++ t) -> lacks c s /\ lacks c t.
Proof. induction s as [|a s IH]; cbn; [auto|]. intros [H1 H2]. destruct (IH H2). auto. Qed.
Lemma last_mark c a : forall b x y, lacks c x -> lacks c y -> a ++ String c x = b ++ String c y -> a = b /\ x = y.
Proof.
  induction a as [|h a IH]; intros [|k b] x y X Y E; cbn in E.
  - split; congruence.
  - injection E as -> ->. destruct (lacks_app _ _ _ X) as [_ [B _]]. congruence.
  - injection E as -> <-. destruct (lacks_app _ _ _ Y) as [_ [B _]]. congruence.
  - injection E as -> E. destruct (IH b x y X Y E) as [-> ->]. auto.
Qed.
Lemma first_mark c x : forall y s t, lacks c x -> lacks c y -> x ++ String c s = y ++ String c t -> x = y /\ s = t.
Proof.
  induction x as [|h x IH]; intros [|k y] s t X Y E; cbn in E.
  - split; congruence.
  - injection E as -> E. destruct Y. congruence.
  - injection E as -> E. destruct X. congruence.
  - injection E as -> E. destruct X as [_ X], Y as [_ Y]. destruct (IH y s t X Y E) as [-> ->]. auto.
Qed.
Lemma append_assoc (x y z : string) : (x ++ y) ++ z = x ++ y ++ z.
Proof. induction x; cbn; congruence. Qed.
Lemma lacks_both c s t : lacks c s -> lacks c t -> lacks c (s ++ t).
Proof. induction s as [|a s IH]; cbn; [auto|]. intros [H1 H2] H. auto. Qed.
Lemma same_tail s : forall t u, s ++ u = t ++ u -> s = t.
Proof.
  assert (L : forall x y, String.length (x ++ y) = (String.length x + String.length y)%nat) by (induction x; intros; cbn; auto).
  induction s as [|a s IH]; intros [|b t] u E; auto.
  - exfalso. apply (f_equal String.length) in E. rewrite !L in E. cbn in E. lia.
  - exfalso. apply (f_equal String.length) in E. rewrite !L in E. cbn in E. lia.
  - cbn in E. injection E as -> E. f_equal. eapply IH; eauto.
Qed.
Lemma string_app_assoc (a b c : string) : (a ++ b) ++ c = a ++ (b ++ c).
Proof. induction a as [|x a IH]; cbn; [reflexivity|rewrite IH; reflexivity]. Qed.

Theorem str_tells :
  (forall name points name' points', lacks ">" points -> lacks ">" points' ->
     data_str name points = data_str name' points' -> name = name' /\ points = points') /\
  (forall n k n' k', lacks "," n -> lacks "," n' -> scatterer_str n k = scatterer_str n' k' -> n = n' /\ k = k') /\
  (forall name points, exists rest front, data_str name points = "<" ++ name ++ ">" ++ rest /\
     data_str name points = front ++ " " ++ points ++ " points") /\
  (forall n k, exists rest front, scatterer_str n k = "n: " ++ n ++ "," ++ rest /\
     scatterer_str n k = front ++ " k: " ++ k).
Proof.
  split; [|split; [|split]].
  - intros a p b q P Q E. unfold data_str in E. injection E as E.
    change (">, " ++ p ++ " points") with (String ">" (", " ++ p ++ " points")) in E.
    change (">, " ++ q ++ " points") with (String ">" (", " ++ q ++ " points")) in E.
    apply last_mark in E; [|cbn; repeat split; try discriminate; apply lacks_both; [auto|cbn; repeat split; discriminate]..].
    destruct E as [-> E]. cbn in E. injection E as E. apply same_tail in E. auto.
  - intros n k n' k' N N' E. unfold scatterer_str in E. injection E as E.
    change (", k: " ++ k) with (String "," (" k: " ++ k)) in E. change (", k: " ++ k') with (String "," (" k: " ++ k')) in E.
    apply first_mark in E; auto. destruct E as [-> E]. cbn in E. injection E as ->. auto.
  - intros a p. exists (", " ++ p ++ " points"), ("<" ++ a ++ ">,"). split; [reflexivity|].
    unfold data_str. rewrite !string_app_assoc. reflexivity.
  - intros n k. exists (" k: " ++ k), ("n: " ++ n ++ ","). split; [reflexivity|].
    unfold scatterer_str. rewrite !string_app_assoc. reflexivity.
Qed.
