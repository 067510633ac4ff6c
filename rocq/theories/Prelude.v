(** Shared notations, tactics and small list lemmas (no model content). *)
From Coq Require Export String Ascii Arith ZArith NArith Lia Bool List.
From Coq Require Export ZifyBool ZifyNat ZifyN.
Export ListNotations.
#[global] Open Scope list_scope.

Ltac Zify.zify_post_hook ::= Z.div_mod_to_equations.

#[global] Arguments Nat.ltb : simpl never.
#[global] Arguments Nat.leb : simpl never.
#[global] Arguments Nat.eqb : simpl nomatch.
#[global] Arguments N.of_nat : simpl never.
#[global] Arguments N.add : simpl never.
#[global] Arguments N.mul : simpl never.
#[global] Arguments N.sub : simpl never.
#[global] Arguments Z.add : simpl never.
#[global] Arguments Z.mul : simpl never.
#[global] Arguments Z.sub : simpl never.
#[global] Arguments Z.of_nat : simpl never.
#[global] Arguments N.to_nat : simpl never.
#[global] Arguments Z.to_nat : simpl never.

Ltac inv H := inversion H; subst; clear H.

(** destruct the scrutinee of the first [match] in the goal, keeping the equation *)
Ltac dmg :=
  match goal with
  | |- context [match ?x with _ => _ end] => destruct x eqn:?
  end.
(** same for a hypothesis *)
Ltac dmh H :=
  match type of H with
  | context [match ?x with _ => _ end] => destruct x eqn:?
  end.

(** Replace element [n] of [l]; [None] models Go's index-out-of-range panic. *)
Fixpoint set_nth {A} (l : list A) (n : nat) (x : A) : option (list A) :=
  match l, n with
  | [], _ => None
  | _ :: t, O => Some (x :: t)
  | h :: t, S m => match set_nth t m x with Some t' => Some (h :: t') | None => None end
  end.

(** Apply [f] to element [n]. *)
Fixpoint upd_nth {A} (l : list A) (n : nat) (f : A -> A) : option (list A) :=
  match l, n with
  | [], _ => None
  | h :: t, O => Some (f h :: t)
  | h :: t, S m => match upd_nth t m f with Some t' => Some (h :: t') | None => None end
  end.

(** Functional maps with string keys (Go [map[string]V]; absent keys are explicit in [V]). *)
Definition supd {V} (m : string -> V) (k : string) (v : V) : string -> V :=
  fun k' => if String.eqb k k' then v else m k'.

Lemma supd_same {V} (m : string -> V) k v : supd m k v k = v.
Proof. unfold supd. now rewrite String.eqb_refl. Qed.
Lemma supd_other {V} (m : string -> V) k k' v : k <> k' -> supd m k v k' = m k'.
Proof. unfold supd. intros H. destruct (String.eqb_spec k k'); congruence. Qed.

(** Functional maps with [N] keys. *)
Definition nupd {V} (m : N -> V) (k : N) (v : V) : N -> V :=
  fun k' => if N.eqb k k' then v else m k'.
Lemma nupd_same {V} (m : N -> V) k v : nupd m k v k = v.
Proof. unfold nupd. now rewrite N.eqb_refl. Qed.
Lemma nupd_other {V} (m : N -> V) k k' v : k <> k' -> nupd m k v k' = m k'.
Proof. unfold nupd. intros H. destruct (N.eqb_spec k k'); congruence. Qed.

(** Functional maps with [nat] keys. *)
Definition natupd {V} (m : nat -> V) (k : nat) (v : V) : nat -> V :=
  fun k' => if Nat.eqb k k' then v else m k'.
Lemma natupd_same {V} (m : nat -> V) k v : natupd m k v k = v.
Proof. unfold natupd. now rewrite Nat.eqb_refl. Qed.
Lemma natupd_other {V} (m : nat -> V) k k' v : k <> k' -> natupd m k v k' = m k'.
Proof. unfold natupd. intros H. destruct (Nat.eqb_spec k k'); congruence. Qed.
