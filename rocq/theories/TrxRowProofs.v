(** Proofs about CSV rows: RowScope and the expansion of CSV templates. *)
From Coq Require Import Permutation.
From Verif Require Import Prelude ConfigModel ConfigSpec ConfigVarsProofs ConfigProofs TrxModel TrxSpec TrxKeyProofs.
#[local] Open Scope list_scope.
#[local] Open Scope string_scope.

(** ** One key *)
Lemma has_prefix_spec p s : has_prefix p s = true <-> exists r, s = p ++ r.
Proof.
  unfold has_prefix. destruct (strip_prefix p s) as [r|] eqn:E.
  - apply strip_prefix_some in E. split; eauto.
  - split; [discriminate|]. intros [r ->]. rewrite strip_prefix_app in E. discriminate.
Qed.

Lemma prefix_text n m c : every name_char n -> n <> "" -> every name_char m ->
  has_prefix ("@" ++ n) (tok_text (TKey m c)) = true -> exists t, "@" ++ m = ("@" ++ n) ++ t.
Proof.
  intros Hn Hn0 Hm H. apply has_prefix_spec in H as [r H]. cbn [tok_text] in H.
  cbn in H. injection H as H. destruct (app_split _ _ _ _ H) as [[t ->]|[t Ht]]; [now exists t|].
  subst n. apply every_app in Hn as [_ Ht]. rewrite sapp_assoc in H. apply sapp_inj_l in H.
  destruct t as [|x t]; [exists ""; now rewrite !sapp_nil|]. destruct Ht as [Hx _].
  destruct c; [|discriminate]. cbn in H. injection H as <- _. now apply name_char_paren in Hx.
Qed.

(** What the first key [k] of a text looks like. *)
Fixpoint first_call (k : string) (l : list tok) : option bool :=
  match l with
  | [] => None
  | TLit _ :: l' => first_call k l'
  | TKey n c :: l' => if String.eqb ("@" ++ n) k then Some c else first_call k l'
  end.

Lemma row_key_sql n l t : n <> "" -> every name_char n -> clear l ->
  keys_prefix_free (("@" ++ n) :: key_names l) ->
  row_key ("@" ++ n) (key_texts l) t =
  match first_call ("@" ++ n) l with
  | Some false => replace_first ("@" ++ n) ("@" ++ n ++ "()") t
  | _ => t
  end.
Proof.
  intros Hn He. induction l as [|[s|m c] l IH]; intros Hc PF; [reflexivity| |].
  - apply IH; [apply Hc|exact PF].
  - destruct Hc as [(Hm & Hme & _) H2]. cbn [key_texts flat_map app row_key first_call].
    destruct (String.eqb_spec ("@" ++ m) ("@" ++ n)) as [E|E].
    + cbn in E. injection E as ->. assert (P : has_prefix ("@" ++ n) (tok_text (TKey n c)) = true).
      { apply has_prefix_spec. exists (if c then "()" else ""). cbn [tok_text]. now rewrite sapp_assoc. }
      rewrite P, has_call_text by auto. destruct c; auto. cbn [tok_text]. now rewrite sapp_nil.
    + destruct (has_prefix _ _) eqn:P.
      * exfalso. apply prefix_text in P as [x Hx]; auto. apply E.
        assert (x = "") by (apply (PF ("@" ++ n) ("@" ++ m) x); cbn; auto). subst x. now rewrite sapp_nil in Hx.
      * apply IH; auto. intros a b x Ha Hb. apply PF; cbn in *; tauto.
Qed.

Lemma first_call_split k l : first_call k l = Some false ->
  exists n l1 l2, k = "@" ++ n /\ l = (l1 ++ TKey n false :: l2)%list /\ ~ In k (key_names l1).
Proof.
  induction l as [|[s|m c] l IH]; cbn [first_call]; [discriminate| |].
  - intros H. destruct (IH H) as (n & l1 & l2 & -> & -> & Hn). exists n, (TLit s :: l1), l2. auto.
  - destruct (String.eqb_spec ("@" ++ m) k) as [E|E].
    + intros [= ->]. exists m, [], l. cbn. auto.
    + intros H. destruct (IH H) as (n & l1 & l2 & -> & -> & Hn). exists n, (TKey m c :: l1), l2.
      cbn [key_names In]. tauto.
Qed.
Lemma first_call_same k l : first_call k l <> Some false -> call_first k l = l.
Proof.
  induction l as [|[s|m c] l IH]; cbn [first_call call_first]; auto; [intros; now rewrite IH|].
  destruct (String.eqb _ _); [|intros; now rewrite IH]. destruct c; congruence.
Qed.
Lemma first_call_other k k' l : k <> k' -> first_call k (call_first k' l) = first_call k l.
Proof.
  intros H. induction l as [|[s|m c] l IH]; cbn [first_call call_first]; auto.
  destruct (String.eqb_spec ("@" ++ m) k') as [E|E]; cbn [first_call].
  - destruct (String.eqb_spec ("@" ++ m) k); congruence.
  - now rewrite IH.
Qed.

(** ** All keys *)
Definition calls_first (ks : list string) (l : list tok) : list tok := fold_left (fun l k => call_first k l) ks l.

Lemma row_scope_gen ks l0 : NoDup ks -> Forall key_shape ks -> clear l0 -> keys_prefix_free (ks ++ key_names l0)%list ->
  forall l, clear l -> key_names l = key_names l0 -> (forall k, In k ks -> first_call k l = first_call k l0) ->
  fold_left (fun t key => row_key key (key_texts l0) t) ks (sql l) = sql (calls_first ks l).
Proof.
  intros ND SH C0 PF l. revert PF l. induction ks as [|k ks IH]; intros PF l Cl Hk Hf; [reflexivity|].
  inversion ND as [|? ? Hnk ND']; subst. inversion SH as [|? ? (n & -> & Hn & He) SH']; subst.
  cbn [fold_left calls_first]. change (String "@" n) with ("@" ++ n) in *. rewrite row_key_sql; auto;
    [|intros a b t Ha Hb; apply PF; cbn in *; rewrite in_app_iff; tauto].
  rewrite <- (Hf ("@" ++ n)) by (now left).
  assert (E : match first_call ("@" ++ n) l with
    | Some false => replace_first ("@" ++ n) ("@" ++ n ++ "()") (sql l) | _ => sql l end
    = sql (call_first ("@" ++ n) l)).
  { destruct (first_call ("@" ++ n) l) as [[]|] eqn:F; try (rewrite first_call_same; [reflexivity|congruence]).
    apply replace_first_sql; auto.
    - rewrite Hk. intros a b t Ha Hb. apply PF; cbn in *; rewrite in_app_iff; tauto.
    - apply first_call_split in F as (m & l1 & l2 & E & -> & H). cbn in E. injection E as <-. eauto. }
  rewrite E. fold (calls_first ks (call_first ("@" ++ n) l)). apply IH; auto.
  - intros a b t Ha Hb. apply PF; cbn; tauto.
  - now apply clear_call_first.
  - now rewrite key_names_call_first.
  - intros k' Hk'. rewrite first_call_other by (intros ->; tauto). apply Hf. now right.
Qed.

Lemma row_scope_sql ks l : NoDup ks -> Forall key_shape ks -> clear l -> keys_prefix_free (ks ++ key_names l)%list ->
  row_scope ks (sql l) = sql (calls_first ks l).
Proof. intros. unfold row_scope. rewrite find_keys_sql by auto. apply row_scope_gen; auto. Qed.

(** ** Position by position *)
Lemma length_call_first k l : List.length (call_first k l) = List.length l.
Proof. induction l as [|[s|m c] l IH]; cbn [call_first]; auto; [cbn; auto|]. destruct (String.eqb _ _); cbn; auto. Qed.

Lemma first_key_cons_lit s l i n : first_key l i n <-> first_key (TLit s :: l) (S i) n.
Proof.
  split; intros [[c H1] H2]; (split; [exists c; exact H1|]).
  - intros [|j] b Hj; [discriminate|]. apply H2. lia.
  - intros j b Hj. apply (H2 (S j)). lia.
Qed.
Lemma first_key_cons_other m b l i n : n <> m -> first_key l i n <-> first_key (TKey m b :: l) (S i) n.
Proof.
  intros E. split; intros [[c H1] H2]; (split; [exists c; exact H1|]).
  - intros [|j] d Hj; [cbn; congruence|]. apply H2. lia.
  - intros j d Hj. apply (H2 (S j)). lia.
Qed.

Lemma call_first_nth n l i : 
  nth_error (call_first ("@" ++ n) l) i =
  match nth_error l i with
  | Some (TKey m c) => if String.eqb m n then nth_error (call_first ("@" ++ n) l) i else Some (TKey m c)
  | x => x
  end.
Proof.
  revert i; induction l as [|[s|m c] l IH]; intros [|i]; cbn [call_first nth_error]; auto.
  - destruct (String.eqb_spec ("@" ++ m) ("@" ++ n)) as [E|E]; cbn [nth_error].
    + cbn in E. injection E as ->. now rewrite String.eqb_refl.
    + destruct (String.eqb_spec m n); congruence.
  - destruct (String.eqb_spec ("@" ++ m) ("@" ++ n)) as [E|E]; cbn [nth_error].
    + destruct (nth_error l i) as [[]|]; auto. destruct (String.eqb _ _); auto.
    + apply IH.
Qed.
Lemma call_first_hit n l i c : nth_error l i = Some (TKey n c) -> first_key l i n ->
  nth_error (call_first ("@" ++ n) l) i = Some (TKey n true).
Proof.
  revert i; induction l as [|[s|m b] l IH]; intros [|i] H F; cbn [call_first nth_error] in *; try discriminate.
  - apply IH; auto. now apply first_key_cons_lit in F.
  - injection H as -> ->. now rewrite String.eqb_refl.
  - destruct (string_dec n m) as [->|E].
    + destruct F as [_ F]. exfalso. now apply (F 0%nat b); [lia|].
    + apply first_key_cons_other in F; auto.
      destruct (String.eqb_spec ("@" ++ m) ("@" ++ n)) as [X|X]; [cbn in X; congruence|]. cbn. auto.
Qed.
Lemma call_first_miss n l i c : nth_error l i = Some (TKey n c) -> ~ first_key l i n ->
  nth_error (call_first ("@" ++ n) l) i = Some (TKey n c).
Proof.
  revert i; induction l as [|[s|m b] l IH]; intros [|i] H F; cbn [call_first nth_error] in *; try discriminate.
  - apply IH; auto. intros X. apply F. now apply first_key_cons_lit.
  - injection H as -> ->. exfalso. apply F. split; [now exists c|]. intros; lia.
  - destruct (String.eqb_spec ("@" ++ m) ("@" ++ n)) as [X|X]; cbn [nth_error]; auto.
    apply IH; auto. intros Y. apply F. apply first_key_cons_other; auto. cbn in X. congruence.
Qed.

Lemma first_key_dec l i n : {first_key l i n} + {~ first_key l i n}.
Proof.
  revert i; induction l as [|t l IH]; intros i.
  - right. intros [[c H] _]. now destruct i.
  - destruct i as [|i].
    + destruct t as [s|m c]; [right; intros [[c H] _]; discriminate|].
      destruct (string_dec m n) as [->|E]; [left; split; [now exists c|intros; lia]|].
      right. intros [[b H] _]. cbn in H. congruence.
    + destruct t as [s|m c].
      * destruct (IH i) as [F|F]; [left|right]; rewrite <- first_key_cons_lit; auto.
      * destruct (string_dec n m) as [->|E]; [right; intros [_ F]; now apply (F 0%nat c); [lia|]|].
        destruct (IH i) as [F|F]; [left|right]; rewrite <- first_key_cons_other; auto.
Qed.

Definition same_key (a b : tok) : Prop :=
  match a, b with TLit s, TLit t => s = t | TKey n _, TKey m _ => n = m | _, _ => False end.
Lemma same_key_call k l : Forall2 same_key l (call_first k l).
Proof.
  assert (R : forall l, Forall2 same_key l l) by (intros l0; induction l0 as [|[]]; constructor; cbn; auto).
  induction l as [|[s|m c] l IH]; cbn [call_first]; [constructor|constructor; cbn; auto|].
  destruct (String.eqb _ _); constructor; cbn; auto.
Qed.
Lemma same_key_first l l' i n : Forall2 same_key l l' -> first_key l i n -> first_key l' i n.
Proof.
  intros H. revert i; induction H as [|a b l l' Hab H IH]; intros i [[c H1] H2]; [now destruct i|].
  destruct i as [|i].
  - cbn in H1. injection H1 as ->. destruct b; cbn in Hab; [easy|]. subst. split; [cbn; eauto|]. intros; lia.
  - destruct (IH i) as [[d G1] G2].
    + split; [now exists c|]. intros j d Hj. apply (H2 (S j)). lia.
    + split; [now exists d|]. intros [|j] e Hj; [|apply G2; lia].
      cbn. intros [= ->]. destruct a as [|m b]; cbn in Hab; [easy|]. subst. now apply (H2 0%nat b); [lia|].
Qed.
Lemma same_key_sym l l' : Forall2 same_key l l' -> Forall2 same_key l' l.
Proof. induction 1 as [|[] [] l l' H]; constructor; cbn in *; auto. Qed.

Lemma same_key_calls ks l : Forall2 same_key l (calls_first ks l).
Proof.
  revert l; induction ks as [|k ks IH]; intros l.
  - cbn. induction l as [|[]]; constructor; cbn; auto.
  - cbn. specialize (IH (call_first k l)). pose proof (same_key_call k l) as H.
    revert IH. unfold calls_first. generalize (fold_left (fun l k => call_first k l) ks (call_first k l)). intros l2.
    revert H. generalize (call_first k l). intros l1 H. revert l2. induction H as [|[] [] l l1 Hab H IH2]; intros l2 G; inversion G as [|? [] ? ? G1 G2]; subst; constructor; cbn in *; try easy; try congruence; auto.
Qed.
Lemma clear_calls ks l : clear l -> clear (calls_first ks l).
Proof. revert l; induction ks as [|k ks IH]; intros l H; cbn; auto. apply IH. now apply clear_call_first. Qed.

Lemma calls_first_nth ks : Forall key_shape ks -> forall l i n c, nth_error l i = Some (TKey n c) ->
  (first_key l i n /\ In ("@" ++ n) ks -> nth_error (calls_first ks l) i = Some (TKey n true)) /\
  (~ (first_key l i n /\ In ("@" ++ n) ks) -> nth_error (calls_first ks l) i = Some (TKey n c)).
Proof.
  induction ks as [|k ks IH]; intros SH l i n c H; cbn [calls_first fold_left].
  - split; [intros [_ []]|auto].
  - inversion SH as [|? ? (m & -> & Hm & _) SH']; subst. change (String "@" m) with ("@" ++ m) in *. fold (calls_first ks (call_first ("@" ++ m) l)).
    assert (FK : first_key (call_first ("@" ++ m) l) i n <-> first_key l i n).
    { split; apply same_key_first; [apply same_key_sym|]; apply same_key_call. }
    destruct (string_dec n m) as [->|E].
    + destruct (first_key_dec l i m) as [F|F].
      * pose proof (call_first_hit m l i c H F) as H'. destruct (IH SH' _ _ _ _ H') as [A B].
        split; [|intros X; exfalso; apply X; split; [auto|now left]]. intros _.
        destruct (in_dec string_dec ("@" ++ m) ks); [apply A; tauto|apply B; tauto].
      * pose proof (call_first_miss m l i c H F) as H'. destruct (IH SH' _ _ _ _ H') as [A B].
        split; [tauto|]. intros _. apply B. tauto.
    + assert (H' : nth_error (call_first ("@" ++ m) l) i = Some (TKey n c)).
      { rewrite call_first_nth, H. destruct (String.eqb_spec n m); congruence. }
      destruct (IH SH' _ _ _ _ H') as [A B]. rewrite FK in A, B. cbn [In].
      assert (X : "@" ++ m <> "@" ++ n) by (cbn; congruence). tauto.
Qed.
