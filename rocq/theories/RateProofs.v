(** Proofs about rate limiters at run time. *)
From Verif Require Import Prelude ListAux ScopeModel StmtModel WorkloadModel WorkloadSpec RateModel RateSpec.

Definition b2n (b : bool) : nat := if b then 1 else 0.
Lemma b2n_le b : b2n b <= 1. Proof. destruct b; cbn; lia. Qed.

Lemma count_cons f e tr : count f (e :: tr) = b2n (f e) + count f tr.
Proof. unfold count. cbn. destruct (f e); reflexivity. Qed.
Lemma count_app f a b : count f (a ++ b) = count f a + count f b.
Proof. unfold count. now rewrite filter_app, app_length. Qed.

Lemma natupd_eq {V} (m : nat -> V) k v x : natupd m k v x = if k =? x then v else m x.
Proof. reflexivity. Qed.

Lemma eqb_eq_sym a b : (a =? b) = (b =? a). Proof. apply Nat.eqb_sym. Qed.

Lemma take_buf s y s1 : q_take s y = Some s1 -> q_buf s y = true /\ q_buf s1 = natupd (q_buf s) y false /\ q_a s1 = q_a s /\ q_b s1 = q_b s.
Proof. unfold q_take. destruct (q_buf s y); [|discriminate]. intros E. inv E. auto. Qed.

Lemma both_buf s y x : q_buf (q_both s y) x = if (q_a s y && q_b s y)%bool then (if y =? x then true else q_buf s x) else q_buf s x.
Proof. unfold q_both. destruct (_ && _)%bool; reflexivity. Qed.
Lemma both_a s y x : q_a (q_both s y) x = if (q_a s y && q_b s y)%bool then (if y =? x then false else q_a s x) else q_a s x.
Proof. unfold q_both. destruct (_ && _)%bool; reflexivity. Qed.
Lemma both_b s y x : q_b (q_both s y) x = if (q_a s y && q_b s y)%bool then (if y =? x then false else q_b s x) else q_b s x.
Proof. unfold q_both. destruct (_ && _)%bool; reflexivity. Qed.

(** one step of a leaf: what is released was ticked or in the channel *)
Lemma leaf_step nw s e s' x : nw x = Some KLeaf -> qstep nw s e = Some s' ->
  b2n (is_release nw x e) + b2n (q_buf s' x) <= b2n (is_tick x e) + b2n (q_buf s x).
Proof.
  intros K H. destruct e as [x'|y|y|y c]; cbn in *.
  - destruct (nw x') as [[|]|] eqn:E; try discriminate. inv H. cbn. rewrite natupd_eq, (eqb_eq_sym x x').
    destruct (x' =? x); cbn; [|lia]. pose proof (b2n_le (q_buf s x)). lia.
  - destruct (nw y) as [[|a b]|] eqn:E; try discriminate. destruct (q_take s a) as [s1|] eqn:T; [|discriminate]. inv H.
    destruct (take_buf _ _ _ T) as (B1 & B2 & B3 & B4). rewrite both_buf. cbn [q_a q_b q_buf].
    assert (YX : (y =? x) = false) by (apply Nat.eqb_neq; intros ->; congruence). rewrite YX.
    replace (if (_ && _)%bool then q_buf s1 x else q_buf s1 x) with (q_buf s1 x) by (destruct (_ && _)%bool; reflexivity).
    rewrite B2, natupd_eq, (eqb_eq_sym x a). destruct (Nat.eqb_spec a x) as [->|]; [rewrite B1|]; cbn; lia.
  - destruct (nw y) as [[|a b]|] eqn:E; try discriminate. destruct (q_take s b) as [s1|] eqn:T; [|discriminate]. inv H.
    destruct (take_buf _ _ _ T) as (B1 & B2 & B3 & B4). rewrite both_buf. cbn [q_a q_b q_buf].
    assert (YX : (y =? x) = false) by (apply Nat.eqb_neq; intros ->; congruence). rewrite YX.
    replace (if (_ && _)%bool then q_buf s1 x else q_buf s1 x) with (q_buf s1 x) by (destruct (_ && _)%bool; reflexivity).
    rewrite B2, natupd_eq, (eqb_eq_sym x b). destruct (Nat.eqb_spec b x) as [->|]; [rewrite B1|]; cbn; lia.
  - destruct (take_buf _ _ _ H) as (B1 & B2 & B3 & B4). rewrite B2, natupd_eq, (eqb_eq_sym x y).
    destruct (Nat.eqb_spec y x) as [->|]; [rewrite B1|]; cbn; lia.
Qed.

(** one step of an And node: what it releases was in its channel or it took from the first ... *)
Definition is_takeA (y : nat) (e : qevent) : bool := match e with QTakeA y' => y =? y' | _ => false end.
Definition is_takeB (y : nat) (e : qevent) : bool := match e with QTakeB y' => y =? y' | _ => false end.

Ltac fin := repeat match goal with
  | |- context [b2n ?b] => lazymatch b with true => fail | false => fail | _ => destruct b eqn:? end end; cbn in *; try lia; try congruence.

Lemma and_step nw s e s' y a b : nw y = Some (KAnd a b) -> qstep nw s e = Some s' ->
  b2n (is_release nw y e) + b2n (q_buf s' y) + b2n (q_a s' y) <= b2n (is_takeA y e) + b2n (q_buf s y) + b2n (q_a s y) /\
  b2n (is_release nw y e) + b2n (q_buf s' y) + b2n (q_b s' y) <= b2n (is_takeB y e) + b2n (q_buf s y) + b2n (q_b s y).
Proof.
  intros K H. destruct e as [x'|z|z|z c]; cbn in *.
  - destruct (nw x') as [[|]|] eqn:E; try discriminate. inv H. cbn. rewrite natupd_eq.
    destruct (Nat.eqb_spec x' y) as [->|]; [congruence|]. cbn. lia.
  - destruct (nw z) as [[|a' b']|] eqn:E; try discriminate. destruct (q_take s a') as [s1|] eqn:T; [|discriminate]. inv H.
    destruct (take_buf _ _ _ T) as (B1 & B2 & B3 & B4). rewrite both_buf, both_a, both_b. cbn [q_a q_b q_buf].
    rewrite B2, B3, B4, !natupd_eq, Nat.eqb_refl, (eqb_eq_sym y a'), (eqb_eq_sym y z). cbn [andb].
    destruct (Nat.eqb_spec z y) as [->|NE].
    + destruct (q_b s y) eqn:QB; destruct (Nat.eqb_spec a' y) as [->|]; rewrite ?B1; cbn;
        destruct (q_a s y); destruct (q_buf s y); cbn; lia.
    + destruct (q_b s z); destruct (Nat.eqb_spec a' y) as [->|]; rewrite ?B1; cbn; lia.
  - destruct (nw z) as [[|a' b']|] eqn:E; try discriminate. destruct (q_take s b') as [s1|] eqn:T; [|discriminate]. inv H.
    destruct (take_buf _ _ _ T) as (B1 & B2 & B3 & B4). rewrite both_buf, both_a, both_b. cbn [q_a q_b q_buf].
    rewrite B2, B3, B4, !natupd_eq, Nat.eqb_refl, (eqb_eq_sym y b'), (eqb_eq_sym y z). rewrite andb_true_r.
    destruct (Nat.eqb_spec z y) as [->|NE].
    + destruct (q_a s y) eqn:QB; destruct (Nat.eqb_spec b' y) as [->|]; rewrite ?B1; cbn;
        destruct (q_b s y); destruct (q_buf s y); cbn; lia.
    + destruct (q_a s z); destruct (Nat.eqb_spec b' y) as [->|]; rewrite ?B1; cbn; lia.
  - destruct (take_buf _ _ _ H) as (B1 & B2 & B3 & B4). rewrite B2, B3, B4, natupd_eq, (eqb_eq_sym y z).
    destruct (Nat.eqb_spec z y) as [->|]; [rewrite B1|]; cbn; lia.
Qed.

Lemma take_release nw y a b e s s' : nw y = Some (KAnd a b) -> qstep nw s e = Some s' ->
  b2n (is_takeA y e) <= b2n (is_release nw a e) /\ b2n (is_takeB y e) <= b2n (is_release nw b e).
Proof.
  intros K H. destruct e as [x'|z|z|z c]; cbn; try lia.
  - destruct (Nat.eqb_spec y z) as [->|]; [rewrite K, Nat.eqb_refl|]; cbn; lia.
  - destruct (Nat.eqb_spec y z) as [->|]; [rewrite K, Nat.eqb_refl|]; cbn; lia.
Qed.

Lemma leaf_run nw x : nw x = Some KLeaf -> forall tr s s', qrun nw s tr = Some s' ->
  count (is_release nw x) tr + b2n (q_buf s' x) <= count (is_tick x) tr + b2n (q_buf s x).
Proof.
  intros K. induction tr as [|e tr IH]; intros s s' H; cbn in H.
  - inv H. cbn. lia.
  - destruct (qstep nw s e) as [s1|] eqn:E; [|discriminate]. rewrite !count_cons.
    pose proof (leaf_step _ _ _ _ _ K E). pose proof (IH _ _ H). lia.
Qed.

Lemma and_run nw y a b : nw y = Some (KAnd a b) -> forall tr s s', qrun nw s tr = Some s' ->
  count (is_release nw y) tr + b2n (q_buf s' y) + b2n (q_a s' y) <= count (is_release nw a) tr + b2n (q_buf s y) + b2n (q_a s y) /\
  count (is_release nw y) tr + b2n (q_buf s' y) + b2n (q_b s' y) <= count (is_release nw b) tr + b2n (q_buf s y) + b2n (q_b s y).
Proof.
  intros K. induction tr as [|e tr IH]; intros s s' H; cbn in H.
  - inv H. cbn. lia.
  - destruct (qstep nw s e) as [s1|] eqn:E; [|discriminate]. rewrite !count_cons.
    pose proof (and_step _ _ _ _ _ _ _ K E). pose proof (take_release _ _ _ _ _ _ _ K E). pose proof (IH _ _ H). lia.
Qed.

(** a component in a combined limiter *)
Lemma contains_run nw x : forall r d tr s s', contains r x d -> present nw r -> qrun nw s tr = Some s' ->
  count (is_release nw (rid r)) tr <= count (is_release nw (rid x)) tr + 2 * d.
Proof.
  induction r as [id p|id a IHa b IHb]; intros d tr s s' C P H.
  - cbn in C. destruct C as [[<- ->]|[]]. lia.
  - destruct P as (P1 & P2 & P3). destruct C as [[<- ->]|C]; [lia|]. destruct d as [|d]; [contradiction|].
    pose proof (and_run _ _ _ _ P1 _ _ _ H) as [A B]. cbn [rid].
    pose proof (b2n_le (q_buf s id)). pose proof (b2n_le (q_a s id)). pose proof (b2n_le (q_b s id)).
    destruct C as [C|C]; [pose proof (IHa _ _ _ _ C P2 H)|pose proof (IHb _ _ _ _ C P3 H)]; lia.
Qed.
Lemma contains_init nw x : forall r d tr s', contains r x d -> present nw r -> qrun nw qinit tr = Some s' ->
  count (is_release nw (rid r)) tr <= count (is_release nw (rid x)) tr.
Proof.
  induction r as [id p|id a IHa b IHb]; intros d tr s' C P H.
  - cbn in C. destruct C as [[<- ->]|[]]. lia.
  - destruct P as (P1 & P2 & P3). destruct C as [[<- ->]|C]; [lia|]. destruct d as [|d]; [contradiction|].
    pose proof (and_run _ _ _ _ P1 _ _ _ H) as [A B]. cbn [rid]. cbn in A, B.
    destruct C as [C|C]; [pose proof (IHa _ _ _ C P2 H)|pose proof (IHb _ _ _ C P3 H)]; lia.
Qed.
Lemma contains_present nw x : forall r d, contains r x d -> present nw r -> present nw x.
Proof.
  induction r as [id p|id a IHa b IHb]; intros d C P.
  - cbn in C. destruct C as [[<- ->]|[]]. auto.
  - destruct P as (P1 & P2 & P3). destruct C as [[<- ->]|C]; [split; auto|]. destruct d as [|d]; [contradiction|].
    destruct C; eauto.
Qed.

Lemma recv_release nw y tr : count (is_recv y) tr <= count (is_release nw y) tr.
Proof.
  induction tr as [|e tr IH]; [auto|]. rewrite !count_cons.
  assert (b2n (is_recv y e) <= b2n (is_release nw y e)); [|lia]. destruct e; cbn; lia.
Qed.

(** ticks in time *)
Lemma spaced_count x gap : (0 < gap)%Z -> forall tr t0 t1 l,
  sorted_from t0 tr -> (forall t e, In (t, e) tr -> (t <= t1)%Z) -> (t0 <= t1)%Z -> spaced x gap (Some l) tr ->
  (l <= t1)%Z ->
  (Z.of_nat (count (is_tick x) (map snd tr)) * gap <= t1 - l)%Z.
Proof.
  intros G. induction tr as [|[t e] tr IH]; intros t0 t1 l S B T SP L; cbn [map snd].
  - cbn. lia.
  - destruct S as [S1 S2]. rewrite count_cons. cbn in SP.
    assert (Bt : (t <= t1)%Z) by (eapply B; left; eauto).
    destruct (is_tick x e).
    + destruct SP as [SP1 SP2].
      assert (IH' := IH t t1 t S2 ltac:(intros; eapply B; right; eauto) Bt SP2 Bt). cbn [b2n]. lia.
    + assert (IH' := IH t t1 l S2 ltac:(intros; eapply B; right; eauto) Bt SP L). cbn [b2n]. lia.
Qed.
Lemma spaced_count0 x gap tr t0 t1 : (0 < gap)%Z ->
  sorted_from t0 tr -> (forall t e, In (t, e) tr -> (t <= t1)%Z) -> (t0 <= t1)%Z -> spaced x gap None tr ->
  (Z.of_nat (count (is_tick x) (map snd tr)) * gap <= t1 - t0 + gap)%Z.
Proof.
  intros G. revert t0. induction tr as [|[t e] tr IH]; intros t0 S B T SP; cbn [map snd].
  - cbn. lia.
  - destruct S as [S1 S2]. rewrite count_cons. cbn in SP.
    assert (Bt : (t <= t1)%Z) by (eapply B; left; eauto).
    destruct (is_tick x e).
    + destruct SP as [_ SP2].
      assert (X := spaced_count x gap G tr t t1 t S2 ltac:(intros; eapply B; right; eauto) Bt SP2 Bt). cbn [b2n]. lia.
    + assert (IH' := IH t S2 ltac:(intros; eapply B; right; eauto) Bt SP). cbn [b2n]. lia.
Qed.

(** combining limits when they are allocated *)
Lemma and_new_leaves w a n w' r : and_new w a n = (w', r) ->
  map snd (leaves_of r) = map snd (leaves_of a) ++ (if (n =? 0)%N then [] else [n]).
Proof.
  unfold and_new, new_rate. destruct (n =? 0)%N; destruct a as [a|]; cbn; intros E; inv E; cbn; rewrite ?app_nil_r, ?map_app; auto.
Qed.
Lemma leaves_ne r : leaves r <> [].
Proof. induction r; cbn; [discriminate|]. destruct (leaves r1); [congruence|discriminate]. Qed.
