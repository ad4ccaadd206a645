(** * General tools: exceptions as values, lists, options.
    Nothing in this file models code of /repo. *)

Require Import List Arith Lia Bool.
Import ListNotations.
Set Implicit Arguments.

(** Python exceptions that the modelled code can raise. *)
Inductive exn :=
| ValueError | RuntimeError | NotImplementedError | TypeError
| AssertionError | KeyError | IndexError | FloatingPointError
| AttributeError | OtherError.

(** The outcome of a Python call: a value or an exception. *)
Inductive result (A : Type) :=
| Ok (a : A)
| Raise (e : exn).
Arguments Ok {A} a.
Arguments Raise {A} e.

Definition rbind {A B} (x : result A) (f : A -> result B) : result B :=
  match x with Ok a => f a | Raise e => Raise e end.
Definition rmap {A B} (f : A -> B) (x : result A) : result B :=
  match x with Ok a => Ok (f a) | Raise e => Raise e end.

Definition obind {A B} (x : option A) (f : A -> option B) : option B :=
  match x with Some a => f a | None => None end.
Definition omap {A B} (f : A -> B) (x : option A) : option B :=
  match x with Some a => Some (f a) | None => None end.
Definition olift2 {A B D} (f : A -> B -> D) (x : option A) (y : option B) : option D :=
  match x, y with Some a, Some b => Some (f a b) | _, _ => None end.

(** all-or-nothing map *)
Fixpoint mapM {A B} (f : A -> option B) (l : list A) : option (list B) :=
  match l with
  | [] => Some []
  | a :: l' => obind (f a) (fun b => obind (mapM f l') (fun bs => Some (b :: bs)))
  end.

Fixpoint mapR {A B} (f : A -> result B) (l : list A) : result (list B) :=
  match l with
  | [] => Ok []
  | a :: l' => rbind (f a) (fun b => rbind (mapR f l') (fun bs => Ok (b :: bs)))
  end.

Fixpoint map2 {A B D} (f : A -> B -> D) (l : list A) (m : list B) : list D :=
  match l, m with
  | a :: l', b :: m' => f a b :: map2 f l' m'
  | _, _ => []
  end.

(** l[:-1] and l[1:-1] of Python *)
Definition butlast {A} (l : list A) : list A := removelast l.
Definition inner {A} (l : list A) : list A := removelast (tl l).

Lemma map2_length {A B D} (f : A -> B -> D) l m :
  length (map2 f l m) = Nat.min (length l) (length m).
Proof. revert m; induction l; destruct m; simpl; auto. Qed.

Lemma mapM_length {A B} (f : A -> option B) l bs : mapM f l = Some bs -> length bs = length l.
Proof.
  revert bs; induction l as [|a l IH]; simpl; intros bs H.
  - inversion H; auto.
  - destruct (f a); simpl in H; [|discriminate].
    destruct (mapM f l); simpl in H; [|discriminate].
    inversion H; subst; simpl. f_equal. apply IH; auto.
Qed.

Lemma mapM_some {A B} (f : A -> option B) (g : A -> B) l :
  (forall a, In a l -> f a = Some (g a)) -> mapM f l = Some (map g l).
Proof.
  induction l as [|a l IH]; simpl; intros H; auto.
  rewrite H by auto. simpl. rewrite IH; auto.
Qed.

Lemma mapM_ext {A B} (f g : A -> option B) l :
  (forall a, In a l -> f a = g a) -> mapM f l = mapM g l.
Proof.
  induction l as [|a l IH]; simpl; intros H; auto.
  rewrite H by auto. rewrite IH; auto.
Qed.

Lemma mapM_In {A B} (f : A -> option B) l bs : mapM f l = Some bs ->
  forall a, In a l -> exists b, f a = Some b /\ In b bs.
Proof.
  revert bs; induction l as [|a l IH]; simpl; intros bs H x Hx; [easy|].
  destruct (f a) eqn:E; simpl in H; [|discriminate].
  destruct (mapM f l) eqn:E2; simpl in H; [|discriminate].
  inversion H; subst. destruct Hx as [->|Hx].
  - exists b; simpl; auto.
  - destruct (IH _ eq_refl _ Hx) as [b' [? ?]]. exists b'; simpl; auto.
Qed.

Lemma mapM_cons_inv {A B} (f : A -> option B) a l bs : mapM f (a :: l) = Some bs ->
  exists b bs', f a = Some b /\ mapM f l = Some bs' /\ bs = b :: bs'.
Proof.
  simpl. destruct (f a) as [b|]; simpl; [|discriminate].
  destruct (mapM f l) as [bs'|]; simpl; [|discriminate].
  intros H; inversion H; eauto.
Qed.

Lemma obind_inv {A B} (x : option A) (f : A -> option B) b : obind x f = Some b ->
  exists a, x = Some a /\ f a = Some b.
Proof. destruct x; simpl; [eauto|discriminate]. Qed.
