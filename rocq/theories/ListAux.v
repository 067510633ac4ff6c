(** List lemmas used by several proof files. *)
From Verif Require Import Prelude.

(** Indexed map starting at [n]. *)
Fixpoint mapi_from {A B} (f : nat -> A -> B) (n : nat) (l : list A) : list B :=
  match l with
  | [] => []
  | a :: l' => f n a :: mapi_from f (S n) l'
  end.

Lemma nth_error_mapi_from {A B} (f : nat -> A -> B) l : forall n i,
  nth_error (mapi_from f n l) i = match nth_error l i with Some a => Some (f (n + i)%nat a) | None => None end.
Proof.
  induction l as [|a l IH]; intros n i; cbn; [now destruct i|].
  destruct i; cbn; [now rewrite Nat.add_0_r|]. rewrite IH. destruct (nth_error l i); auto.
  do 2 f_equal; lia.
Qed.

Lemma in_mapi_from {A B} (f : nat -> A -> B) l n x :
  In x (mapi_from f n l) <-> exists i a, nth_error l i = Some a /\ x = f (n + i)%nat a.
Proof.
  split.
  - intros H. apply In_nth_error in H as [i H]. rewrite nth_error_mapi_from in H.
    destruct (nth_error l i) eqn:E; inv H. eauto.
  - intros (i & a & E & ->). apply nth_error_In with i. now rewrite nth_error_mapi_from, E.
Qed.

Lemma in_concat_mapi {A B} (f : nat -> A -> list B) l n x :
  In x (concat (mapi_from f n l)) <-> exists i a, nth_error l i = Some a /\ In x (f (n + i)%nat a).
Proof.
  rewrite in_concat. split.
  - intros (b & H & Hx). apply in_mapi_from in H as (i & a & E & ->). eauto.
  - intros (i & a & E & H). exists (f (n + i)%nat a). split; auto. apply in_mapi_from. eauto.
Qed.

Lemma length_mapi_from {A B} (f : nat -> A -> B) l n : length (mapi_from f n l) = length l.
Proof. revert n; induction l; cbn; auto. Qed.

Lemma set_nth_app {A} (pre : list A) x y post :
  set_nth (pre ++ x :: post) (length pre) y = Some (pre ++ y :: post).
Proof. induction pre; cbn; auto. now rewrite IHpre. Qed.
Lemma upd_nth_app {A} (pre : list A) x (f : A -> A) post :
  upd_nth (pre ++ x :: post) (length pre) f = Some (pre ++ f x :: post).
Proof. induction pre; cbn; auto. now rewrite IHpre. Qed.
Lemma set_nth_length {A} (l : list A) n x l' : set_nth l n x = Some l' -> length l' = length l.
Proof.
  revert n l'; induction l; intros [|n] l' H; cbn in H; try discriminate; [inv H; auto|].
  destruct (set_nth l n x) eqn:E; inv H. cbn. erewrite IHl; eauto.
Qed.
Lemma upd_nth_length {A} (l : list A) n (f : A -> A) l' : upd_nth l n f = Some l' -> length l' = length l.
Proof.
  revert n l'; induction l; intros [|n] l' H; cbn in H; try discriminate; [inv H; auto|].
  destruct (upd_nth l n f) eqn:E; inv H. cbn. erewrite IHl; eauto.
Qed.
Lemma upd_nth_none {A} (l : list A) n (f : A -> A) : upd_nth l n f = None <-> (length l <= n)%nat.
Proof.
  revert n; induction l; intros [|n]; cbn; try (split; intros; auto; lia).
  - split; [discriminate|lia].
  - specialize (IHl n). destruct (upd_nth l n f); split; intros; try discriminate; try lia; auto.
    + destruct IHl as [_ X]. discriminate X. lia.
    + assert (length l <= n)%nat by (now apply IHl). lia.
Qed.

Lemma list_ext {A} (l l' : list A) : (forall i, nth_error l i = nth_error l' i) -> l = l'.
Proof.
  revert l'; induction l as [|a l IH]; intros [|b l'] H; auto.
  - specialize (H 0%nat). discriminate.
  - specialize (H 0%nat). discriminate.
  - pose proof (H 0%nat) as H0. cbn in H0. inv H0. f_equal. apply IH. intros i. exact (H (S i)).
Qed.

Lemma split_at {A} (l : list A) n : (n <= length l)%nat ->
  exists a b, l = a ++ b /\ length a = n.
Proof. intros H. exists (firstn n l), (skipn n l). rewrite firstn_skipn, firstn_length. split; auto; lia. Qed.

Lemma Forall2_weaken' {A B} (R R' : A -> B -> Prop) l l' :
  (forall a b, R a b -> R' a b) -> Forall2 R l l' -> Forall2 R' l l'.
Proof. intros H. induction 1; constructor; auto. Qed.

Lemma Forall2_nth {A B} (R : A -> B -> Prop) l l' i a b :
  Forall2 R l l' -> nth_error l i = Some a -> nth_error l' i = Some b -> R a b.
Proof.
  intros H. revert i; induction H; intros [|i] Ha Hb; cbn in *; try discriminate; [congruence|eauto].
Qed.

Lemma Forall2_nth_r {A B} (R : A -> B -> Prop) l l' i b :
  Forall2 R l l' -> nth_error l' i = Some b -> exists a, nth_error l i = Some a /\ R a b.
Proof.
  intros H. revert i; induction H; intros [|i] Hb; cbn in *; try discriminate.
  - inv Hb. eauto.
  - eauto.
Qed.

Lemma Forall2_nth_l {A B} (R : A -> B -> Prop) l l' i a :
  Forall2 R l l' -> nth_error l i = Some a -> exists b, nth_error l' i = Some b /\ R a b.
Proof.
  intros H. revert i; induction H; intros [|i] Hb; cbn in *; try discriminate.
  - inv Hb. eauto.
  - eauto.
Qed.

Lemma F2_length {A B} (R : A -> B -> Prop) l l' : Forall2 R l l' -> length l = length l'.
Proof. induction 1; cbn; auto. Qed.
