(** C131: the end of a stage whose runtime elapsed, or when finch was stopped. *)
From Verif Require Import Prelude ListAux ScopeModel StmtModel WorkloadModel ClientModel ClientSpec IterModel IterSpec LoopModel LoopSpec LoopProofs LoopProps WholeModel WholeSpec WholeProofs WholeProps HaltSpec HaltProofs.
From Verif Require StageModel StageProps StopProps ConfigProps PipeProps.
#[local] Open Scope string_scope.
#[local] Open Scope list_scope.

Lemma same_changes {V} (e : event V) : changes e = StopProps.is_effect e.
Proof. destruct e as [| | | | | | |? ? ? ? ? [|] ?| | | | |]; reflexivity. Qed.

Lemma at_start {V} cfg out before (st : wst V) tr e i g cl : whole_run cfg out (whole_init out) before = Some (st, tr) -> client_is out e i g cl ->
  valid out (e, i) /\ exists k, nth_error (l_cls (w_loop st)) (idx out (e, i)) = Some k /\ l_c k = cl.
Proof.
  intros R CI. destruct (client_labelled _ _ _ _ _ CI) as (VC & LB). split; [exact VC|]. destruct (w_sched _ _ _ (winv_run _ _ _ _ _ R)) as (sched & LR).
  assert (JC : nth_error (map snd (labelled out)) (idx out (e, i)) = Some cl) by (now rewrite nth_error_map, LB).
  exact (LoopCountProofs.loop_has _ _ _ _ _ _ LR JC).
Qed.

(** A client whose context is done (the runtime of the stage or of its client group elapsed, or finch was stopped), wherever it is
    then, does at most [n] + 3 further steps if its trx have [n] statements; it tries at most one query, which does not succeed, and
    nothing it does changes anything at MySQL; and as long as it has not ended, it can go on. *)
Theorem C131_client : forall V c out before (st : wst V) tr0 e i g cl acts st' tr,
  whole_run c out (whole_init out) before = Some (st, tr0) -> client_is out e i g cl -> queries cl <> [] ->
  ctx_done out st (e, i) = true -> whole_run c out st acts = Some (st', tr) -> Forall (client_saw (e, i)) acts ->
  (length (filter (step_of (e, i)) acts) <= length (c_stmts cl) + 3)%nat /\
  (length (execs (done_by (e, i) tr)) <= 1)%nat /\ (forall ev, In ev (done_by (e, i) tr) -> changes ev = false) /\
  (In (e, i) (G.s_run (w_stage st')) -> client_returned out st' (e, i) = true \/
     exists inp st2 es, saw inp /\ whole_step c out st' (WClient (e, i) inp) = Some (st2, es)).
Proof.
  intros V c out before st tr0 e i g cl acts st' tr R CI NQ CD R2 FA. destruct (at_start _ _ _ _ _ _ _ _ _ R CI) as (VC & k & K & KC).
  destruct (client_halts c out (e, i) VC acts st st' tr0 tr k (winv_run _ _ _ _ _ R) R2 K FA) as (k' & K' & EC & LE & (F1 & F2) & _ & _).
  rewrite KC in *. destruct (fq_query _ NQ) as (s & S1 & S2). specialize (LE _ _ S1 S2).
  assert (QL : (fq cl < length (c_stmts cl))%nat) by (apply nth_error_Some; congruence).
  split; [|split; [exact F2|split]].
  - pose proof (left_max cl (fq cl) (l_pc k) (l_chk k) QL) as X. unfold kleft in LE at 2. rewrite KC in LE. lia.
  - intros ev I. rewrite same_changes. rewrite Forall_forall in F1. exact (F1 ev I).
  - intros I. destruct (l_pc k') eqn:P; [right|right|right|left].
    1-3: eapply client_can_saw; eauto; [apply (over_run _ _ _ _ _ _ R2); exact CD|congruence].
    unfold client_returned. now rewrite K', P.
Qed.

(** Once the runtime of the stage elapsed or finch was stopped, Stage.Run returns even if no client does anything any more, after at
    most as many of its own steps as there are clients, times 4, and 14 for each exec group. *)
Theorem C131_returns : forall V c out before (st : wst V) tr0,
  whole_run c out (whole_init out) before = Some (st, tr0) -> G.s_elapsed (w_stage st) = true \/ G.s_stopped (w_stage st) = true ->
  exists n st' tr, whole_run c out st (repeat (WStage (G.AStage true)) n) = Some (st', tr) /\ returned st' /\
    (n <= 3 + list_sum (map (fun css => 4 * length (concat css) + 14) out))%nat.
Proof.
  intros V c out before st tr0 R O. pose proof (winv_run _ _ _ _ _ R) as I.
  set (B := (3 + list_sum (map (fun css => 4 * length (concat css) + 14) out))%nat).
  assert (BE : B = (3 + list_sum (map (fun n => 4 * n + 14) (sizes out)))%nat) by (unfold B, sizes; rewrite map_map; reflexivity).
  destruct (stage_alone c out (S B) st tr0 I O) as (n & st' & tr & L & R2 & E). exists n, st', tr.
  pose proof (proj2 (SP.C57_ends (sizes out) _ _ (w_reach _ _ _ I)) _ _ _ (stage_steps _ _ _ _ _ _ R2)) as X.
  assert (LN : length (flat_map stage_action (repeat (@WStage V (G.AStage true)) n)) = n) by (clear; induction n as [|n IH]; [reflexivity|]; cbn; now rewrite IH).
  rewrite LN in X. fold B in X |- *. split; [exact R2|]. split; [destruct E as [E| ->]; [exact E|lia]|lia].
Qed.

(** The stage and all of its clients end: once the runtime elapsed or finch was stopped, everything that then begins takes a bounded
    number of steps, whatever the order, and something can happen until Stage.Run has returned and all clients have. *)
Theorem C131_ends : forall V c out before (st : wst V) tr0 acts st' tr,
  whole_run c out (whole_init out) before = Some (st, tr0) -> G.s_elapsed (w_stage st) = true \/ G.s_stopped (w_stage st) = true ->
  (forall e i g cl, client_is out e i g cl -> queries cl <> []) ->
  whole_run c out st acts = Some (st', tr) -> Forall all_saw acts ->
  (length acts <= 3 + list_sum (map (fun css => 4 * length (concat css) + 14) out) + list_sum (map (@length _) out) +
                  list_sum (map (fun x => length (c_stmts (snd x)) + 3) (labelled out)))%nat /\
  (forall ev x, In ev (done_by x tr) -> changes ev = false) /\
  (~ returned st' -> exists st2 es, whole_step c out st' (WStage (G.AStage true)) = Some (st2, es)) /\
  (forall x, In x (G.s_run (w_stage st')) -> client_returned out st' x = true \/
     exists inp st2 es, saw inp /\ whole_step c out st' (WClient x inp) = Some (st2, es)).
Proof.
  intros V c out before st tr0 acts st' tr R O HQ R2 FA. pose proof (winv_run _ _ _ _ _ R) as I. pose proof (winv_more _ _ _ _ _ _ _ I R2) as I'.
  destruct (w_sched _ _ _ I) as (sched & LR). destruct (sim_run _ _ _ _ LR) as (CS & _).
  assert (HK : forall k, In k (l_cls (w_loop st)) -> queries (l_c k) <> []).
  { intros k Ik. assert (X : In (l_c k) (map snd (labelled out))) by (rewrite <- CS; now apply in_map). apply in_map_iff in X as ([[e g] cl] & Q & X). cbn in Q. subst cl.
    destruct (In_nth_error _ _ X) as (j & J). destruct (labelled_is _ _ _ _ _ J) as (i & CI & _). eauto. }
  split; [|split; [|split]].
  - rewrite action_kinds. pose proof (lefts_steps c out _ _ _ _ HK R2 FA) as H1. pose proof (over_steps _ _ _ _ _ _ R2) as H2.
    pose proof (proj2 (SP.C57_ends (sizes out) _ _ (w_reach _ _ _ I)) _ _ _ (stage_steps _ _ _ _ _ _ R2)) as H3.
    assert (H4 : (overs out st' <= length (pairs out))%nat) by (unfold overs; clear; induction (pairs out) as [|p l IH]; cbn; [lia|destruct (w_over _ _ _); cbn; lia]).
    rewrite pairs_length in H4. unfold sizes in H3. rewrite map_map in H3.
    assert (H5 : (lefts (l_cls (w_loop st)) <= list_sum (map (fun x => length (c_stmts (snd x)) + 3) (labelled out)))%nat).
    { clear - CS HK. unfold lefts, list_sum. revert CS HK. generalize (l_cls (w_loop st)) as ks. induction (labelled out) as [|x l IH]; intros [|k ks] CS HK; try discriminate; [cbn; lia|].
      cbn in CS. injection CS as C1 C2. specialize (IH ks C2 (fun k0 H => HK k0 (or_intror H))). cbn [map fold_right].
      destruct (fq_query _ (HK k (or_introl eq_refl))) as (s & S1 & _). assert (QL : (fq (l_c k) < length (c_stmts (l_c k)))%nat) by (apply nth_error_Some; congruence).
      pose proof (left_max (l_c k) (fq (l_c k)) (l_pc k) (l_chk k) QL) as X. unfold kleft at 1. rewrite C1 in X |- *. lia. }
    lia.
  - intros ev x Hx. assert (VX : valid out x).
    { eapply start_valid; [exact (w_reach _ _ _ I')|]. apply (w_started _ _ _ I' x ev). apply in_or_app. right. unfold done_by in Hx. apply in_flat_map in Hx as ([y|y w] & Y & Z); [destruct Z|].
      destruct (G.client_eqb x y) eqn:XY; [|destruct Z]. destruct Z as [->|[]]. apply SP.client_eqb_eq in XY. now subst y. }
    assert (K : exists k, nth_error (l_cls (w_loop st)) (idx out x) = Some k).
    { destruct (labelled_idx out x VX) as (lbg & lcl & LB). assert (JC : nth_error (map snd (labelled out)) (idx out x) = Some lcl) by (now rewrite nth_error_map, LB).
      destruct (LoopCountProofs.loop_has _ _ _ _ _ _ LR JC) as (k & K & _). eauto. }
    destruct K as (k & K).
    assert (FX : Forall (client_saw x) acts) by (eapply Forall_impl; [|exact FA]; intros [a|e g|y inp] A; cbn in *; auto).
    destruct (client_halts c out x VX acts st st' tr0 tr k I R2 K FX) as (k' & _ & _ & _ & (F1 & _) & _). rewrite same_changes. rewrite Forall_forall in F1. exact (F1 ev Hx).
  - intros NR. eapply stage_can; [exact I'| |exact NR]. apply (proj1 (over_run _ _ _ _ _ _ R2)). exact O.
  - intros x Ix. pose proof (runs_valid _ _ _ _ I' Ix) as VX. destruct (labelled_idx out x VX) as (lbg & lcl & LB).
    destruct (w_sched _ _ _ I') as (sched' & LR'). assert (JC : nth_error (map snd (labelled out)) (idx out x) = Some lcl) by (now rewrite nth_error_map, LB).
    destruct (LoopCountProofs.loop_has _ _ _ _ _ _ LR' JC) as (k & K & _).
    destruct (proj1 (over_run _ _ _ _ _ _ R2) O) as [D|D]; (destruct (l_pc k) eqn:P; [right|right|right|left];
      [eapply client_can_saw; eauto; [unfold ctx_done; now rewrite D, ?orb_true_r|congruence]..|unfold client_returned; now rewrite K, P]).
Qed.
Print Assumptions C131_client.
Print Assumptions C131_returns.
Print Assumptions C131_ends.

(* ------------------------------------------------------------------------------------ *)
Module ExH.
  (** CTRL-C after [n] steps of the stage of ExL; the clients then running go on, with their context done, until they return. *)
  Definition stop_at (n : nat) : list (waction Z) := firstn n ExW.acts ++ [WStage G.AStop].
  Definition sees : cenv := CEnv true None false true None (fun _ => None).
  Definition next (k : lcl Z) : linput Z :=
    match l_pc k with
    | PcStart => LConnect sees
    | PcStmt i => LStmt (SEnv (match nth_error (c_data (l_c k)) i with Some d => map (fun _ => [7%Z]) (d_inputs d) | None => [] end)
                         (Some true) (Some err_ctx) None true sees)
    | _ => LCheck
    end.
  Fixpoint ending (n : nat) (st : wst Z) : list (waction Z) :=
    match n with
    | O => []
    | S n' =>
      match find (fun x => negb (client_returned ExL.out st x)) (G.s_run (w_stage st)) with
      | Some x =>
        match nth_error (l_cls (w_loop st)) (idx ExL.out x) with
        | Some k => let a := WClient x (next k) in
                    match whole_step ExW.conf ExL.out st a with Some (st', _) => a :: ending n' st' | None => [] end
        | None => [] end
      | None => []
      end
    end.
  Definition st (n : nat) : wst Z := match whole_run ExW.conf ExL.out (whole_init ExL.out) (stop_at n) with Some (s, _) => s | None => whole_init ExL.out end.
  Definition is_saw (a : waction Z) : bool :=
    match a with
    | WClient _ (LConnect ce) => ce_ctx0 ce
    | WClient _ (LStmt se) => match v_res se with Some _ => v_ctx se && ce_ctx0 (v_conn se) | None => false end
    | _ => true end.
  Lemma is_saw_ok acts : forallb is_saw acts = true -> Forall all_saw acts.
  Proof.
    intros H. rewrite forallb_forall in H. apply Forall_forall. intros a I. specialize (H a I). destruct a as [a|e g|x [ce| |se]]; cbn in *; auto.
    destruct (v_res se); [|discriminate]. apply andb_prop in H as (A & B). repeat split; congruence.
  Qed.
End ExH.

(** Five clients run when finch is stopped. In 18 steps, four of them with one more query, which fails, all of them return. *)
Example C131_example : exists st tr0 st' tr cl,
  whole_run ExW.conf ExL.out (whole_init ExL.out) (ExH.stop_at 47) = Some (st, tr0) /\ G.s_stopped (w_stage st) = true /\ ~ returned st /\
  client_is ExL.out 0 0 0 cl /\ ctx_done ExL.out st (0%nat, 0%nat) = true /\ queries cl <> [] /\ (forall e i g cl, client_is ExL.out e i g cl -> queries cl <> []) /\
  whole_run ExW.conf ExL.out st (ExH.ending 100 st) = Some (st', tr) /\ Forall all_saw (ExH.ending 100 st) /\ Forall (client_saw (0%nat, 0%nat)) (ExH.ending 100 st) /\
  length (ExH.ending 100 st) = 18%nat /\ length (G.s_run (w_stage st')) = 5%nat /\ forallb (client_returned ExL.out st') (G.s_run (w_stage st')) = true /\
  length (flat_map (fun x => execs (done_by x tr)) (G.s_run (w_stage st'))) = 4%nat.
Proof.
  assert (Q : forall e i g cl, client_is ExL.out e i g cl -> queries cl <> []).
  { intros e i g cl CI. destruct (client_labelled _ _ _ _ _ CI) as (_ & LB). apply nth_error_In in LB.
    assert (X : forallb (fun x => match queries (snd x) with [] => false | _ => true end) (labelled ExL.out) = true) by (vm_compute; reflexivity).
    rewrite forallb_forall in X. specialize (X _ LB). cbn [snd] in X. destruct (queries cl); [discriminate X|discriminate]. }
  exists (ExH.st 47). do 4 eexists. split; [vm_compute; reflexivity|]. split; [vm_compute; reflexivity|]. split; [intros H; vm_compute in H; discriminate H|].
  split; [eexists; split; vm_compute; reflexivity|]. split; [vm_compute; reflexivity|]. split; [discriminate|]. split; [exact Q|]. split; [vm_compute; reflexivity|].
  assert (A : Forall all_saw (ExH.ending 100 (ExH.st 47))) by (apply ExH.is_saw_ok; vm_compute; reflexivity).
  split; [exact A|]. split; [eapply Forall_impl; [|exact A]; intros [a|e g|y inp] B; cbn in *; auto|].
  split; [vm_compute; reflexivity|]. split; [vm_compute; reflexivity|]. split; vm_compute; reflexivity.
Qed.
