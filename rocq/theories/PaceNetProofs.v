(** The limiters of an allocated workload form a net of limiters, and nobody waits forever in it. *)
From Verif Require Import Prelude ListAux ScopeModel StmtModel WorkloadModel WorkloadSpec RateModel RateSpec RateProofs PaceSpec.

Definition next (n : nat) (O O' : net) := forall i, (i < n)%nat -> O' i = O i.
Lemma next_refl n O : next n O O. Proof. intros i; auto. Qed.
Lemma next_trans n m O O' O'' : next n O O' -> next m O' O'' -> (n <= m)%nat -> next n O O''.
Proof. intros A B L i H. rewrite B, A; auto. lia. Qed.

(** the parts of an And node are older than the node *)
Fixpoint below (b : nat) (r : rate) : Prop :=
  match r with RLeaf id _ => (id < b)%nat | RAnd id x y => (id < b)%nat /\ below id x /\ below id y end.
Definition good (nw : net) (b : nat) (r : option rate) : Prop :=
  match r with None => True | Some r => present nw r /\ below b r end.

Lemma below_le b b' r : below b r -> (b <= b')%nat -> below b' r.
Proof. destruct r; cbn; intuition lia. Qed.
Lemma present_next O O' r : forall b, next b O O' -> below b r -> present O r -> present O' r.
Proof.
  induction r as [id n|id x IHx y IHy]; cbn; intros b E.
  - intros L P. now rewrite E.
  - intros (L & BX & BY) (P & PX & PY). rewrite E by auto. split; [exact P|].
    assert (E' : next id O O') by (intros i Hi; apply E; lia). split; eauto.
Qed.
Lemma good_next O O' b b' r : next b O O' -> (b <= b')%nat -> good O b r -> good O' b' r.
Proof. destruct r as [r|]; cbn; [|auto]. intros E L (P & B). split; [eapply present_next; eauto|eapply below_le; eauto]. Qed.

Lemma and_new_good w a n w' r O : and_new w a n = (w', r) -> good O (w_next w) a ->
  exists O', next (w_next w) O O' /\ (w_next w <= w_next w')%nat /\ good O' (w_next w') r.
Proof.
  unfold and_new, new_rate, rate_and. intros H G. destruct (n =? 0)%N.
  - exists O. destruct a; inv H; repeat split; auto using next_refl; apply G.
  - destruct a as [a|]; inv H; cbn [w_next].
    + exists (natupd (natupd O (w_next w) (Some KLeaf)) (S (w_next w)) (Some (KAnd (rid a) (w_next w)))).
      assert (E : next (w_next w) O (natupd (natupd O (w_next w) (Some KLeaf)) (S (w_next w)) (Some (KAnd (rid a) (w_next w))))).
      { intros i L. rewrite !natupd_other; auto; lia. }
      split; [exact E|]. split; [lia|]. cbn [good present below rid]. rewrite natupd_same, natupd_other, natupd_same by lia.
      destruct G as (P & B). split; [|split; [lia|split; [|lia]]].
      * split; [reflexivity|]. split; [eapply present_next; eauto|reflexivity].
      * eapply below_le; eauto.
    + exists (natupd O (w_next w) (Some KLeaf)). split; [intros i L; apply natupd_other; lia|]. split; [lia|].
      cbn. rewrite natupd_same. split; [reflexivity|lia].
Qed.

Definition client_good (O : net) (b : nat) (c : client) : Prop := good O b (c_qps c) /\ good O b (c_tps c).
Lemma client_good_next O O' b b' c : next b O O' -> (b <= b')%nat -> client_good O b c -> client_good O' b' c.
Proof. intros E L (A & B). split; eapply good_next; eauto. Qed.

Lemma walk_clients_good ts ws cg cp ep cq ct : forall todo k w rl w' rl' cs O,
  walk_clients ts ws cg cp ep cq ct w rl k todo = Some (w', rl', cs) -> good O (w_next w) cq -> good O (w_next w) ct ->
  exists O', next (w_next w) O O' /\ (w_next w <= w_next w')%nat /\ Forall (client_good O' (w_next w')) cs.
Proof.
  induction todo as [|todo IH]; intros k w rl w' rl' cs O H GQ GT; cbn [walk_clients] in H.
  - inv H. exists O. split; [apply next_refl|]. split; [auto|constructor].
  - destruct (and_new w cq (cg_qps cg)) as [w1 q] eqn:HQ.
    destruct (and_new w1 ct (cg_tps cg)) as [w2 t] eqn:HT.
    destruct (and_new_good _ _ _ _ _ O HQ GQ) as (O1 & E1 & L1 & G1).
    destruct (and_new_good _ _ _ _ _ O1 HT) as (O2 & E2 & L2 & G2); [eapply good_next; [exact E1|lia|exact GT]|].
    destruct (walk_trx _ _ _ _ _ _ _ _) as [[[[[sc3 rl3] cst] data] st]|]; [|discriminate].
    destruct (walk_clients _ _ _ _ _ _ _ _ _ _ todo) as [[[w4 rl4] cs']|] eqn:HW; [|discriminate]. inv H.
    assert (E12 : next (w_next w) O O2) by (eapply next_trans; eauto).
    destruct (IH _ _ _ _ _ _ O2 HW) as (O' & E' & L' & C'); cbn [w_next] in *;
      [eapply good_next; [exact E12|lia|exact GQ]|eapply good_next; [exact E12|lia|exact GT]|].
    exists O'. split; [eapply next_trans; [exact E12|exact E'|lia]|]. split; [lia|]. constructor; [|exact C'].
    split; cbn; [eapply good_next; [|exact L'|eapply good_next; [exact E2|exact L2|exact G1]]|eapply good_next; [|exact L'|exact G2]]; auto.
Qed.

Lemma walk_cgs_good ts ws wl ep eq et : forall refs g w rl w' rl' css O,
  walk_cgs ts ws wl ep eq et w rl g refs = Some (w', rl', css) -> good O (w_next w) eq -> good O (w_next w) et ->
  exists O', next (w_next w) O O' /\ (w_next w <= w_next w')%nat /\ Forall (Forall (client_good O' (w_next w'))) css.
Proof.
  induction refs as [|r refs IH]; intros g w rl w' rl' css O H GQ GT; cbn [walk_cgs] in H.
  - inv H. exists O. split; [apply next_refl|]. split; [auto|constructor].
  - destruct (nth_error wl r) as [cg|]; [|discriminate].
    destruct (and_new w eq (cg_qpsClients cg)) as [w1 q] eqn:HQ.
    destruct (and_new w1 et (cg_tpsClients cg)) as [w2 t] eqn:HT.
    destruct (and_new_good _ _ _ _ _ O HQ GQ) as (O1 & E1 & L1 & G1).
    destruct (and_new_good _ _ _ _ _ O1 HT) as (O2 & E2 & L2 & G2); [eapply good_next; [exact E1|lia|exact GT]|].
    assert (E12 : next (w_next w) O O2) by (eapply next_trans; eauto).
    destruct (walk_clients ts ws cg (w_next w2) ep q t _ _ 0 _) as [[[w4 rl4] cs]|] eqn:HC; [|discriminate].
    destruct (walk_clients_good _ _ _ _ _ _ _ _ _ _ _ _ _ _ O2 HC) as (O4 & E4 & L4 & C4); cbn [w_next] in *;
      [eapply good_next; [exact E2|lia|exact G1]|eapply good_next; [apply next_refl| |exact G2]; lia|].
    destruct (walk_cgs ts ws wl ep eq et w4 rl4 (S g) refs) as [[[w5 rl5] css']|] eqn:HW; [|discriminate]. inv H.
    assert (E14 : next (w_next w) O O4) by (eapply next_trans; [exact E12| |exact (Nat.le_trans _ _ _ L1 L2)]; intros i Hi; apply E4; lia).
    destruct (IH _ _ _ _ _ _ O4 HW) as (O' & E' & L' & C'); [eapply good_next; [exact E14|lia|exact GQ]|eapply good_next; [exact E14|lia|exact GT]|].
    exists O'. split; [eapply next_trans; [exact E14|exact E'|lia]|]. split; [lia|]. constructor; [|exact C'].
    eapply Forall_impl; [|exact C4]. intros c. apply client_good_next; auto.
Qed.

Lemma walk_egs_good ts ws wl sq st : forall gs e w rl w' rl' out O,
  walk_egs ts ws wl sq st w rl e gs = Some (w', rl', out) -> good O (w_next w) sq -> good O (w_next w) st ->
  exists O', next (w_next w) O O' /\ (w_next w <= w_next w')%nat /\ Forall (Forall (Forall (client_good O' (w_next w')))) out.
Proof.
  induction gs as [|refs gs IH]; intros e w rl w' rl' out O H GQ GT; cbn [walk_egs] in H.
  - inv H. exists O. split; [apply next_refl|]. split; [auto|constructor].
  - destruct refs as [|r0 refs]; [discriminate|]. destruct (nth_error wl r0) as [cg|]; [|discriminate].
    destruct (and_new w sq (cg_qpsExecGroup cg)) as [w1 q] eqn:HQ.
    destruct (and_new w1 st (cg_tpsExecGroup cg)) as [w2 t] eqn:HT.
    destruct (and_new_good _ _ _ _ _ O HQ GQ) as (O1 & E1 & L1 & G1).
    destruct (and_new_good _ _ _ _ _ O1 HT) as (O2 & E2 & L2 & G2); [eapply good_next; [exact E1|lia|exact GT]|].
    assert (E12 : next (w_next w) O O2) by (eapply next_trans; eauto).
    destruct (walk_cgs ts ws wl (w_next w2) q t _ _ 0 _) as [[[w4 rl4] cs]|] eqn:HC; [|discriminate].
    destruct (walk_cgs_good _ _ _ _ _ _ _ _ _ _ _ _ _ O2 HC) as (O4 & E4 & L4 & C4); cbn [w_next] in *;
      [eapply good_next; [exact E2|lia|exact G1]|eapply good_next; [apply next_refl| |exact G2]; lia|].
    destruct (walk_egs ts ws wl sq st w4 rl4 (S e) gs) as [[[w5 rl5] css']|] eqn:HW; [|discriminate]. inv H.
    assert (E14 : next (w_next w) O O4) by (eapply next_trans; [exact E12| |exact (Nat.le_trans _ _ _ L1 L2)]; intros i Hi; apply E4; lia).
    destruct (IH _ _ _ _ _ _ O4 HW) as (O' & E' & L' & C'); [eapply good_next; [exact E14|lia|exact GQ]|eapply good_next; [exact E14|lia|exact GT]|].
    exists O'. split; [eapply next_trans; [exact E14|exact E'|lia]|]. split; [lia|]. constructor; [|exact C'].
    eapply Forall_impl; [|exact C4]. intros cs0. apply Forall_impl. intros c. apply client_good_next; auto.
Qed.

(** All limiters of a workload are in one net. *)
Lemma allocate_good ts ws stage wl q t w w' out : allocate ts ws stage wl q t w = Some (w', out) ->
  exists O, Forall (Forall (Forall (client_good O (w_next w')))) out.
Proof.
  unfold allocate. intros H.
  destruct (new_rate w q) as [w1 sq] eqn:HQ. destruct (new_rate w1 t) as [w2 st] eqn:HT.
  destruct (groups ts wl) as [[wl' gs]|]; [|discriminate]. unfold clients in H.
  destruct (walk_egs _ _ _ _ _ _ _ _ _) as [[[w3 rl3] o]|] eqn:HW; [|discriminate]. inv H.
  assert (AQ : and_new w None q = (w1, sq)) by (unfold and_new; rewrite HQ; destruct sq; reflexivity).
  assert (AT : and_new w1 None t = (w2, st)) by (unfold and_new; rewrite HT; destruct st; reflexivity).
  destruct (and_new_good _ _ _ _ _ (fun _ => None) AQ) as (O1 & E1 & L1 & G1); [exact Logic.I|].
  destruct (and_new_good _ _ _ _ _ O1 AT) as (O2 & E2 & L2 & G2); [exact Logic.I|].
  destruct (walk_egs_good _ _ _ _ _ _ _ _ _ _ _ _ O2 HW) as (O' & _ & _ & C'); [eapply good_next; [exact E2|exact L2|exact G1]|exact G2|].
  now exists O'.
Qed.

(** ** Nobody waits forever *)

(** Steps of the limiters that lead to a permit. *)
Definition own_steps (tr : list qevent) : Prop := Forall (fun e => match e with QRecv _ _ => False | _ => True end) tr.

Lemma qrun_app nw a : forall b s s', qrun nw s a = Some s' -> qrun nw s (a ++ b) = qrun nw s' b.
Proof. induction a as [|e a IH]; intros b s s' H; cbn in *; [injection H as ->; reflexivity|]. destruct (qstep nw s e); [eauto|discriminate]. Qed.

Lemma permit_soon nw r : forall b s, present nw r -> below b r -> exists tr s', own_steps tr /\ qrun nw s tr = Some s' /\ q_buf s' (rid r) = true /\
  (forall y, (b <= y)%nat -> q_a s' y = q_a s y /\ q_b s' y = q_b s y).
Proof.
  induction r as [id n|id x IHx y IHy]; cbn [present below rid]; intros b s P B.
  - exists [QTick id]. eexists. split; [repeat constructor|]. split; [cbn; rewrite P; reflexivity|]. split; [cbn; apply natupd_same|].
    intros z L. split; reflexivity.
  - destruct P as (K & PX & PY). destruct B as (L & BX & BY).
    assert (A : exists tr s', own_steps tr /\ qrun nw s tr = Some s' /\ (q_buf s' id = true \/ q_a s' id = true) /\
      (forall z, (b <= z)%nat -> q_a s' z = q_a s z /\ q_b s' z = q_b s z)).
    { destruct (IHx id s PX BX) as (tr & s1 & T & R & Q & F). exists (tr ++ [QTakeA id]).
      eexists. split; [apply Forall_app; split; [exact T|repeat constructor]|].
      split; [rewrite (qrun_app _ _ _ _ _ R); cbn [qrun qstep]; rewrite K; unfold q_take; rewrite Q; reflexivity|].
      split.
      - rewrite both_buf, both_a. cbn [q_a q_b q_buf]. rewrite natupd_same, Nat.eqb_refl. destruct (q_b s1 id); cbn [andb]; auto.
      - intros z Z. rewrite both_a, both_b. cbn [q_a q_b]. assert (N : Nat.eqb id z = false) by (apply Nat.eqb_neq; lia).
        rewrite !natupd_eq, N, Nat.eqb_refl. destruct (F z) as (F1 & F2); [lia|]. destruct (_ && _)%bool; auto. }
    destruct A as (tr & s1 & T & R & Q & F). destruct (q_buf s1 id) eqn:QB.
    { exists tr, s1. auto. }
    destruct Q as [Q|Q]; [congruence|]. destruct (IHy id s1 PY BY) as (tr2 & s2 & T2 & R2 & Q2 & F2).
    exists (tr ++ tr2 ++ [QTakeB id]). eexists. split; [apply Forall_app; split; [exact T|apply Forall_app; split; [exact T2|repeat constructor]]|].
    split; [rewrite (qrun_app _ _ _ _ _ R), (qrun_app _ _ _ _ _ R2); cbn [qrun qstep]; rewrite K; unfold q_take; rewrite Q2; reflexivity|].
    assert (QA : q_a s2 id = true) by (destruct (F2 id) as (-> & _); [lia|exact Q]). split.
    + rewrite both_buf. cbn [q_a q_b q_buf]. rewrite natupd_same, QA, Nat.eqb_refl. reflexivity.
    + intros z Z. rewrite both_a, both_b. cbn [q_a q_b]. assert (N : Nat.eqb id z = false) by (apply Nat.eqb_neq; lia).
      rewrite !natupd_eq, N, Nat.eqb_refl. destruct (F2 z) as (X1 & X2); [lia|]. destruct (F z Z) as (X3 & X4). rewrite X1, X2. destruct (_ && _)%bool; auto.
Qed.

(** ** How many nodes *)
Fixpoint ands (r : rate) : list nat := match r with RLeaf _ _ => [] | RAnd id a b => id :: ands a ++ ands b end.
Lemma ands_count r : S (length (ands r)) = length (leaves r).
Proof. induction r as [|id a IHa b IHb]; [reflexivity|]. cbn. rewrite !app_length, <- IHa, <- IHb. lia. Qed.
