(** From the configuration to the limiters clients share, and from ticks to time. *)
From Verif Require Import Prelude ListAux ScopeModel StmtModel WorkloadModel WorkloadSpec ClientModel ClientSpec.
From Verif Require Import IterModel IterSpec IterProofs RateModel RateSpec RateProofs WireProofs LoopModel LoopSpec LoopProofs.
From Verif Require Import PaceModel PaceSpec PaceProofs PaceNetProofs.

(** The limiters of a client, in parts which it shares with all clients, those of its exec group, those of its group, none. *)
Lemma limiter_parts ts ws stage wl qn tn w w' out wl' gs (q : bool) :
  allocate ts ws stage wl qn tn w = Some (w', out) -> groups ts wl = Some (wl', gs) ->
  exists O b ls, own O b (OStage q) (if q then qn else tn) ls /\
  forall e css, nth_error out e = Some css -> exists cg0 le, cg_at wl' gs e 0 = Some cg0 /\
    own O b (OExecGroup q e) (if q then cg_qpsExecGroup cg0 else cg_tpsExecGroup cg0) le /\
    forall g cs, nth_error css g = Some cs -> exists cg lg, cg_at wl' gs e g = Some cg /\
      own O b (OClients q e g) (if q then cg_qpsClients cg else cg_tpsClients cg) lg /\
      forall k c, nth_error cs k = Some c -> exists lk,
        own O b (OClient q e g k) (if q then cg_qps cg else cg_tps cg) lk /\
        leaves_of (limiter q c) = ls ++ le ++ lg ++ lk.
Proof.
  intros H G. destruct (allocate_wired _ _ _ _ _ _ _ _ _ H) as (wl2 & gs2 & O & b & sq & st & G2 & OQ & OT & W).
  rewrite G in G2. injection G2 as <- <-.
  exists O, b, (leaves_of (if q then sq else st)). split; [destruct q; auto|].
  intros e css He. destruct (W _ _ He) as (refs & R1 & r0 & cg0 & ep & eq & et & R2 & R3 & (l1 & A1 & A2) & (l2 & B1 & B2) & F1 & F2 & D).
  exists cg0, (if q then l1 else l2). split; [unfold cg_at; rewrite R1, R2; auto|]. split; [destruct q; auto|].
  intros g cs Hg. destruct (D _ _ Hg) as (r & cg & Q1 & Q2 & cp & cq & ct & (l3 & A3 & A4) & (l4 & B3 & B4) & _ & _ & D').
  exists cg, (if q then l3 else l4). split; [unfold cg_at; rewrite R1, Q1; auto|]. split; [destruct q; auto|].
  intros k c Hk. destruct (D' k c Hk) as ((l5 & A5 & A6) & (l6 & B5 & B6) & _).
  exists (if q then l5 else l6). split; [destruct q; auto|].
  destruct q; cbn [limiter]; [rewrite A5, A3, A1|rewrite B5, B3, B1]; now rewrite <- !app_assoc.
Qed.

Lemma own_in O b o n l : own O b o n l -> n <> 0%N -> exists x, In (x, n) l.
Proof. intros [[-> _]|(_ & id & -> & _)] N; [congruence|]. exists id. now left. Qed.
Lemma own_length O b o n l : own O b o n l -> (length l <= 1)%nat.
Proof. intros [[_ ->]|(_ & id & -> & _)]; cbn; lia. Qed.

(** ** Time *)

Lemma limiter_steps_cons {V} t (e : pevent V) tr : limiter_steps ((t, e) :: tr) = (match e with PLim q => [(t, q)] | _ => [] end) ++ limiter_steps tr.
Proof. reflexivity. Qed.
Lemma within_le {V} (tr : list (Z * pevent V)) : forall t0 t1, within t0 t1 tr -> (t0 <= t1)%Z.
Proof. induction tr as [|[t e] tr IH]; intros t0 t1; cbn; [auto|]. intros (A & B). apply IH in B. lia. Qed.
Lemma within_from {V} (tr : list (Z * pevent V)) : forall t0 t1 t, (t <= t0)%Z -> within t0 t1 tr -> within t t1 tr.
Proof. destruct tr as [|[t' e] tr]; cbn; intros; [lia|]. intuition lia. Qed.
Lemma steps_sorted {V} (tr : list (Z * pevent V)) : forall t0 t1, within t0 t1 tr ->
  sorted_from t0 (limiter_steps tr) /\ (forall t e, In (t, e) (limiter_steps tr) -> (t <= t1)%Z).
Proof.
  induction tr as [|[t e] tr IH]; intros t0 t1 W; cbn [within] in W.
  - split; [exact Logic.I|]. intros t e [].
  - destruct W as [A W]. rewrite limiter_steps_cons. pose proof (within_le _ _ _ W) as L. destruct (IH _ _ W) as (S1 & B1).
    destruct e as [e| |]; cbn [app].
    + split; [cbn; auto|]. intros t' e' [Z|Z]; [inv Z; lia|eauto].
    + destruct (IH _ _ (within_from _ _ _ _ A W)). auto.
    + destruct (IH _ _ (within_from _ _ _ _ A W)). auto.
Qed.
Lemma ticks_steps {V} x (tr : list (Z * pevent V)) : ticks x (map snd tr) = count (is_tick x) (map snd (limiter_steps tr)).
Proof.
  unfold ticks, count. induction tr as [|[t e] tr IH]; [reflexivity|]. rewrite limiter_steps_cons, map_app, filter_app, app_length, <- IH.
  cbn [map snd filter]. destruct e as [e| |]; cbn [map snd filter app length]; [|reflexivity|reflexivity]. destruct (is_tick x e); reflexivity.
Qed.
Lemma ticks_time {V} x n (tr : list (Z * pevent V)) t0 t1 : n <> 0%N -> (n <= 10 ^ 9)%N -> within t0 t1 tr ->
  spaced x (10 ^ 9 / Z.of_N n) None (limiter_steps tr) -> (Z.of_nat (ticks x (map snd tr)) <= at_most n t0 t1)%Z.
Proof.
  intros N0 N1 W SP. rewrite ticks_steps.
  assert (G : (0 < 10 ^ 9 / Z.of_N n)%Z) by (apply Z.div_str_pos; lia).
  destruct (steps_sorted _ _ _ W) as (S & B).
  pose proof (spaced_count0 x _ _ t0 t1 G S B (within_le _ _ _ W) SP) as X. unfold at_most.
  set (g := (10 ^ 9 / Z.of_N n)%Z) in *. clearbody g.
  assert (((t1 - t0 + g) / g = (t1 - t0) / g + 1)%Z) as <- by (rewrite <- (Z.div_add (t1 - t0) 1 g) by lia; f_equal; lia).
  apply Z.div_le_lower_bound; lia.
Qed.

(** ** How many nodes *)
Lemma needing_ands x r : forall y, In y (needing x r) -> y = x \/ In y (ands r).
Proof.
  induction r as [id n|id a IHa b IHb]; cbn [needing ands]; intros y.
  - destruct (Nat.eqb_spec id x) as [->|]; cbn; [|contradiction]. intros [->|[]]. now left.
  - assert (A : In y (needing x a ++ needing x b) -> y = x \/ In y (id :: ands a ++ ands b)).
    { intros H. apply in_app_or in H as [H|H]; [apply IHa in H as [H|H]|apply IHb in H as [H|H]]; auto; right; right; apply in_or_app; auto. }
    destruct (needing x a ++ needing x b) as [|z l]; [contradiction|]. intros [<-|H]; [right; now left|auto].
Qed.
Lemma all_needing_length q x cs : (forall c, In c cs -> (length (leaves_of (limiter q c)) <= 4)%nat) ->
  (length (all_needing q x cs) <= 1 + 3 * length cs)%nat.
Proof.
  intros H. set (l := x :: concat (map (fun c => match limiter q c with Some r => ands r | None => [] end) cs)).
  assert (L : (length l <= 1 + 3 * length cs)%nat).
  { unfold l. cbn [length]. apply le_n_S. clear l. induction cs as [|c cs IH]; [auto|]. cbn [map concat]. rewrite app_length.
    specialize (IH (fun c' h => H c' (or_intror h))). specialize (H c (or_introl eq_refl)). cbn [length].
    destruct (limiter q c) as [r|]; cbn [leaves_of length] in *; [pose proof (ands_count r)|]; lia. }
  etransitivity; [|exact L]. apply NoDup_incl_length; [apply NoDup_nodup|].
  intros y Y. unfold all_needing in Y. rewrite nodup_In in Y. apply in_concat in Y as (l' & Hl & Y). apply in_map_iff in Hl as (c & <- & Hc).
  destruct (limiter q c) as [r|] eqn:R; [|contradiction]. apply needing_ands in Y as [->|Y]; [now left|]. right.
  apply in_concat. exists (ands r). split; [|exact Y]. apply in_map_iff. exists c. now rewrite R.
Qed.

(** ** A run with limiters is a run *)
Section Erase.
  Context {V : Type}.
  Definition own_steps_of (tr : list (pevent V)) : list (nat * linput V) :=
    concat (map (fun e => match e with PLoop i inp => [(i, inp)] | _ => [] end) tr).
  Lemma erase nw tr : forall (st : pst V) st' evs, pace_run nw st tr = Some (st', evs) ->
    loop_run (p_loop st) (own_steps_of tr) = Some (p_loop st', evs).
  Proof.
    induction tr as [|e tr IH]; intros st st' evs H; cbn [pace_run] in H.
    - injection H as <- <-. reflexivity.
    - destruct (pace_step nw st e) as [[st1 ev1]|] eqn:E; [|discriminate].
      destruct (pace_run nw st1 tr) as [[st2 ev2]|] eqn:R; [|discriminate]. injection H as <- <-. apply IH in R.
      change (own_steps_of (e :: tr)) with ((match e with PLoop i inp => [(i, inp)] | _ => [] end) ++ own_steps_of tr).
      destruct e as [e|q i|i inp]; cbn [pace_step] in E.
      + assert (X : p_loop st1 = p_loop st /\ ev1 = []).
        { destruct e; try discriminate; destruct (qstep nw (p_q st) _); try discriminate; injection E as <- <-; auto. }
        destruct X as [X ->]. rewrite X in R. exact R.
      + unfold pace_permit in E. destruct (nth_error _ i); [|discriminate]. destruct (at_query l); [|discriminate].
        destruct (waits q (l_c l) s); [|discriminate]. destruct (_ || _)%bool; [discriminate|]. destruct (qstep nw (p_q st) _); [|discriminate].
        assert (X : p_loop st1 = p_loop st /\ ev1 = []) by (injection E as <- <-; destruct q; auto). destruct X as [X ->]. rewrite X in R. exact R.
      + unfold pace_loop in E. destruct (nth_error _ i) as [k|]; [|discriminate].
        match type of E with match (if ?b then _ else _) with _ => _ end = _ => destruct b end; [|discriminate].
        destruct (loop_step (p_loop st) i inp) as [[l' e]|] eqn:L; [|discriminate]. injection E as <- <-. cbn [p_loop] in R.
        cbn [app loop_run]. rewrite L, R. reflexivity.
  Qed.

  Lemma limiter_run nw tr : forall (st : pst V) s', own_steps tr -> qrun nw (p_q st) tr = Some s' ->
    pace_run nw st (map PLim tr) = Some (PSt (p_loop st) s' (p_tps st) (p_qps st), []).
  Proof.
    induction tr as [|e tr IH]; intros st s' O R; cbn [map pace_run qrun] in *.
    - injection R as <-. destruct st; reflexivity.
    - inversion O as [|? ? E O']; subst. destruct (qstep nw (p_q st) e) as [s1|] eqn:Q; [|discriminate].
      assert (X : pace_step nw st (PLim e) = Some (PSt (p_loop st) s1 (p_tps st) (p_qps st), [])).
      { cbn [pace_step]. destruct e; try contradiction; rewrite Q; reflexivity. }
      rewrite X. rewrite (IH (PSt (p_loop st) s1 (p_tps st) (p_qps st)) s' O' R). reflexivity.
  Qed.
  Lemma pace_app nw a : forall b (st st' : pst V) evs, pace_run nw st a = Some (st', evs) ->
    pace_run nw st (a ++ b) = match pace_run nw st' b with Some (st2, evs2) => Some (st2, evs ++ evs2) | None => None end.
  Proof.
    induction a as [|e a IH]; intros b st st' evs H; cbn [pace_run app] in *.
    - injection H as <- <-. destruct (pace_run nw st b) as [[? ?]|]; reflexivity.
    - destruct (pace_step nw st e) as [[st1 ev1]|]; [|discriminate]. destruct (pace_run nw st1 a) as [[st2 ev2]|] eqn:R; [|discriminate].
      injection H as <- <-. rewrite (IH b _ _ _ R). destruct (pace_run nw st2 b) as [[? ?]|]; [|reflexivity]. now rewrite app_assoc.
  Qed.

  (** A waiting client can get its permit. *)
  Lemma permit_possible nw (st : pst V) i k s q : nth_error (l_cls (p_loop st)) i = Some k -> at_query k = Some s ->
    (forall r, limiter q (l_c k) = Some r -> present nw r /\ exists b, below b r) ->
    (q = true -> granted st false i k s = true) ->
    exists tr s' tp qp, let st' := PSt (p_loop st) s' tp qp in Forall (fun e => match e with PLim _ => True | PPermit _ j => j = i | PLoop _ _ => False end) tr /\
      pace_run nw st tr = Some (st', []) /\ granted st' q i k s = true /\ (granted st (negb q) i k s = true -> granted st' (negb q) i k s = true).
  Proof.
    intros K A P O. destruct (granted st q i k s) eqn:G.
    { exists [], (p_q st), (p_tps st), (p_qps st). split; [constructor|]. split; [destruct st; reflexivity|]. auto. }
    unfold granted in G. destruct (waits q (l_c k) s) as [r|] eqn:W; [|discriminate].
    assert (R : limiter q (l_c k) = Some r) by (unfold waits in W; unfold limiter; destruct q; [exact W|]; destruct (st_begin s); congruence).
    destruct (P r R) as (PR & b & B). destruct (permit_soon nw r b (p_q st) PR B) as (tr & s1 & T & Q & BUF & _).
    set (s2 := QState (natupd (q_buf s1) (rid r) false) (q_a s1) (q_b s1)).
    exists (map PLim tr ++ [PPermit q i]), s2, (if q then p_tps st else natupd (p_tps st) i true), (if q then natupd (p_qps st) i true else p_qps st).
    cbv zeta. split.
    { apply Forall_app. split; [apply Forall_forall; intros e He; apply in_map_iff in He as (e' & <- & _); exact Logic.I|repeat constructor]. }
    split.
    - rewrite (pace_app _ _ _ _ _ _ (limiter_run nw tr st s1 T Q)). cbn [pace_run pace_step]. unfold pace_permit. cbn [p_loop]. rewrite K, A, W.
      replace (got (PSt (p_loop st) s1 (p_tps st) (p_qps st)) q i) with false by (symmetry; exact G).
      replace (granted (PSt (p_loop st) s1 (p_tps st) (p_qps st)) false i k s) with (granted st false i k s) by reflexivity.
      assert (OK : (false || (q && negb (granted st false i k s)))%bool = false) by (destruct q; cbn; [rewrite O by auto|]; reflexivity).
      rewrite OK. cbn [qstep q_take p_q]. unfold q_take. rewrite BUF. fold s2. destruct q; reflexivity.
    - split; unfold granted.
      + rewrite W. unfold got. cbn [p_tps p_qps]. destruct q; apply natupd_same.
      + destruct (waits (negb q) (l_c k) s); [|auto]. unfold got. cbn [p_tps p_qps]. destruct q; auto.
  Qed.
End Erase.
