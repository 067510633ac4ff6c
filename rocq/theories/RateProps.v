(** Properties of rate limiters at run time: C21, C22. *)
From Verif Require Import Prelude ListAux ScopeModel StmtModel WorkloadModel WorkloadSpec RateModel RateSpec RateProofs.

(* ------------------------------------------------------------------------------------ *)
(** * C21 *)

(** In any window (a run from any state, so however long the limiter was idle before), all
    consumers together get at most one permit more than the limiter yields in the window. *)
Theorem C21_window nw x s tr s' :
  nw x = Some KLeaf -> qrun nw s tr = Some s' ->
  count (is_release nw x) tr <= count (is_tick x) tr + 1 /\ count (is_recv x) tr <= count (is_tick x) tr + 1.
Proof.
  intros K H. pose proof (leaf_run nw x K tr s s' H). pose proof (b2n_le (q_buf s x)).
  pose proof (recv_release nw x tr). lia.
Qed.

(** From the start of the limiter not even that one. *)
Theorem C21_from_start nw x tr s' :
  nw x = Some KLeaf -> qrun nw qinit tr = Some s' -> count (is_release nw x) tr <= count (is_tick x) tr.
Proof. intros K H. pose proof (leaf_run nw x K tr qinit s' H). cbn in *. lia. Qed.

(** In time: in a window from [t0] to [t1], with [gap] ns between the limiter's ticks. *)
Theorem C21_rate nw x s (tr : list (Z * qevent)) s' gap t0 t1 :
  nw x = Some KLeaf -> qrun nw s (map snd tr) = Some s' ->
  (0 < gap)%Z -> sorted_from t0 tr -> (forall t e, In (t, e) tr -> (t <= t1)%Z) -> (t0 <= t1)%Z -> spaced x gap None tr ->
  (Z.of_nat (count (is_recv x) (map snd tr)) <= (t1 - t0) / gap + 2)%Z.
Proof.
  intros K H G S B T SP. destruct (C21_window nw x s _ s' K H) as [_ C].
  pose proof (spaced_count0 x gap tr t0 t1 G S B T SP) as X.
  assert (Z.of_nat (count (is_tick x) (map snd tr)) <= (t1 - t0) / gap + 1)%Z; [|lia].
  assert (((t1 - t0 + gap) / gap = (t1 - t0) / gap + 1)%Z) as <- by (rewrite <- (Z.div_add (t1 - t0) 1 gap) by lia; f_equal; lia).
  apply Z.div_le_lower_bound; lia.
Qed.

(** Permits dropped while nobody waits: three ticks, then two clients; only one permit. *)
Definition net1 : net := fun x => if x =? 7 then Some KLeaf else None.
Example C21_example :
  match qrun net1 qinit [QTick 7; QTick 7; QTick 7; QRecv 7 0] with
  | Some s => (q_buf s 7, match qstep net1 s (QRecv 7 1) with None => true | _ => false end)
  | None => (true, false) end = (false, true) /\
  spaced 7 100 None [(0, QTick 7); (100, QTick 7); (250, QTick 7); (250, QRecv 7 0)]%Z.
Proof. split; [reflexivity|]. cbn. lia. Qed.

(* ------------------------------------------------------------------------------------ *)
(** * C22 *)

(** From the start, a combined limiter [r] releases at most as many permits as each limiter [x]
    it consists of released. *)
Theorem C22_each_component nw r x d tr s' :
  present nw r -> contains r x d -> qrun nw qinit tr = Some s' ->
  count (is_recv (rid r)) tr <= count (is_release nw (rid x)) tr.
Proof.
  intros P C H. pose proof (contains_init nw x r d tr s' C P H). pose proof (recv_release nw (rid r) tr). lia.
Qed.

(** In any window: a channel and a flag per And node in between may hold a permit from before. *)
Theorem C22_window nw r id p d s tr s' :
  present nw r -> contains r (RLeaf id p) d -> qrun nw s tr = Some s' ->
  count (is_recv (rid r)) tr <= count (is_tick id) tr + 2 * d + 1.
Proof.
  intros P C H. pose proof (contains_run nw _ r d tr s s' C P H). pose proof (recv_release nw (rid r) tr).
  pose proof (contains_present nw _ r d C P) as K. cbn in K.
  destruct (C21_window nw id s tr s' K H) as [W _]. cbn [rid] in *. lia.
Qed.

(** So the combination is at most as fast as its slowest component. *)
Theorem C22_rate nw r id p d s (tr : list (Z * qevent)) s' gap t0 t1 :
  present nw r -> contains r (RLeaf id p) d -> qrun nw s (map snd tr) = Some s' ->
  (0 < gap)%Z -> sorted_from t0 tr -> (forall t e, In (t, e) tr -> (t <= t1)%Z) -> (t0 <= t1)%Z -> spaced id gap None tr ->
  (Z.of_nat (count (is_recv (rid r)) (map snd tr)) <= (t1 - t0) / gap + 2 + 2 * Z.of_nat d)%Z.
Proof.
  intros P C H G S B T SP. pose proof (C22_window nw r id p d s _ s' P C H) as W.
  pose proof (spaced_count0 id gap tr t0 t1 G S B T SP) as X.
  assert (Z.of_nat (count (is_tick id) (map snd tr)) <= (t1 - t0) / gap + 1)%Z; [|lia].
  assert (((t1 - t0 + gap) / gap = (t1 - t0) / gap + 1)%Z) as <- by (rewrite <- (Z.div_add (t1 - t0) 1 gap) by lia; f_equal; lia).
  apply Z.div_le_lower_bound; lia.
Qed.

(** Which components: combining limits [ns] one after the other (the way the stage's, exec group's,
    client group's and client's limits are combined) gives the limits that are not 0, and no
    limiter at all iff all are 0. *)
Fixpoint and_all (w : wst) (a : option rate) (ns : list N) : wst * option rate :=
  match ns with [] => (w, a) | n :: ns' => let '(w', r) := and_new w a n in and_all w' r ns' end.

Lemma and_all_leaves ns : forall w a w' r, and_all w a ns = (w', r) ->
  map snd (leaves_of r) = map snd (leaves_of a) ++ filter (fun n => negb (n =? 0)%N) ns.
Proof.
  induction ns as [|n ns IH]; intros w a w' r H; cbn in H.
  - inv H. cbn. now rewrite app_nil_r.
  - destruct (and_new w a n) as [w1 r1] eqn:E. rewrite (IH _ _ _ _ H), (and_new_leaves _ _ _ _ _ E), <- app_assoc.
    cbn. destruct (n =? 0)%N; reflexivity.
Qed.

Theorem C22_zero_does_not_limit w ns w' r : and_all w None ns = (w', r) ->
  map snd (leaves_of r) = filter (fun n => negb (n =? 0)%N) ns /\ (r = None <-> Forall (fun n => n = 0%N) ns).
Proof.
  intros H. pose proof (and_all_leaves ns w None w' r H) as L. cbn in L. split; auto.
  split.
  - intros ->. cbn in L. apply Forall_forall. intros n N. destruct (N.eqb_spec n 0) as [|NE]; auto. exfalso.
    assert (IN : In n (filter (fun n => negb (n =? 0)%N) ns)) by (apply filter_In; split; auto; apply negb_true_iff, N.eqb_neq; auto).
    rewrite <- L in IN. contradiction.
  - intros F. destruct r as [r|]; auto. exfalso. apply (leaves_ne r). apply map_eq_nil with (f := snd).
    cbn in L. rewrite L. clear -F. induction F as [|n ns -> F IH]; auto.
Qed.

(** A leaf is contained at some depth. *)
Theorem C22_leaf_contained r : forall x p, In (x, p) (leaves r) -> exists d, contains r (RLeaf x p) d.
Proof.
  induction r as [id q|id a IHa b IHb]; intros x p H; cbn in H.
  - destruct H as [H|[]]. inv H. exists 0. left. auto.
  - apply in_app_or in H as [H|H]; [destruct (IHa _ _ H) as [d D]|destruct (IHb _ _ H) as [d D]];
      exists (S d); right; auto.
Qed.

(** stage 100/s and client 10/s; a client's And node *)
Definition net2 : net := fun x => match x with 0 => Some KLeaf | 1 => Some KLeaf | 2 => Some (KAnd 0 1) | _ => None end.
Example C22_example :
  let r := RAnd 2 (RLeaf 0 100%N) (RLeaf 1 10%N) in
  present net2 r /\ contains r (RLeaf 1 10%N) 1 /\
  snd (and_all (WSt (scopes_new) 0) None [100; 0; 10; 0]%N) = Some r /\
  match qrun net2 qinit [QTick 0; QTakeA 2; QTick 0; QTakeA 2; QTick 1; QTakeB 2; QTick 0; QRecv 2 5; QTakeA 2] with
  | Some s => (q_buf s 2, q_a s 2, q_b s 2) | None => (true, true, true) end = (false, true, false).
Proof. cbn. auto 10. Qed.

Print Assumptions C21_window.
Print Assumptions C21_from_start.
Print Assumptions C21_rate.
Print Assumptions C22_each_component.
Print Assumptions C22_window.
Print Assumptions C22_rate.
Print Assumptions C22_zero_does_not_limit.
Print Assumptions C22_leaf_contained.
