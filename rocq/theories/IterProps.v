(** C28: iteration limits. *)
From Verif Require Import Prelude ListAux ScopeModel StmtModel WorkloadModel WorkloadSpec IterModel IterSpec IterProofs.
#[local] Open Scope string_scope.
#[local] Open Scope list_scope.

(** iter: a client executes at most N iterations. *)
Theorem C28_iter ts ws stage wl qn tn w w' out wl' gs sched st j e g c k cg :
  allocate ts ws stage wl qn tn w = Some (w', out) -> groups ts wl = Some (wl', gs) -> no_empty_trx ts wl' ->
  clients_run out sched = Some st ->
  nth_error (labelled out) j = Some (e, g, c) -> nth_error (is_cls st) j = Some k ->
  cg_at wl' gs e g = Some cg -> (0 < cg_iter cg)%N -> (ic_n k <= cg_iter cg)%N.
Proof.
  intros HA HG NE R L K X P. rewrite <- (lab_iter _ _ _ _ _ _ _ _ _ _ _ HA HG _ _ _ _ NE (nth_error_In _ _ L) X) in *.
  assert (M := run_clients _ _ _ R).
  assert (Q : nth_error (map ic_c (is_cls st)) j = Some (ic_c k)) by (apply map_nth_error; auto).
  rewrite M in Q. rewrite (map_nth_error snd _ _ L) in Q. injection Q as ->.
  exact (proj1 (Forall_forall _ _) (own_limit _ _ _ R) _ (nth_error_In _ _ K) P).
Qed.

(** iter-clients: the clients of the group together at most N.  Partial: N plus the number of
    clients must fit 32 bits (see [C28_refuted_wrap]). *)
Theorem C28_iter_clients_partial ts ws stage wl qn tn w w' out wl' gs sched st e g cg :
  allocate ts ws stage wl qn tn w = Some (w', out) -> groups ts wl = Some (wl', gs) ->
  clients_run out sched = Some st -> cg_at wl' gs e g = Some cg -> (0 < cg_iterClients cg)%N ->
  (cg_iterClients cg + clients_in (one_group e g) (labelled out) < 2^32)%N ->
  (iterations (one_group e g) (labelled out) (is_cls st) <= cg_iterClients cg)%N.
Proof. intros HA HG R X P B. exact (clients_limit _ _ _ _ _ _ _ _ _ _ _ HA HG _ _ _ _ _ X P B R). Qed.

(** iter-exec-group: the clients of the exec group's client groups which set it (to N or less)
    together at most N.  Partial: those which do not set it are not limited
    ([C28_refuted_unset]), and 32 bits must suffice. *)
Theorem C28_iter_exec_group_partial ts ws stage wl qn tn w w' out wl' gs sched st e n m :
  allocate ts ws stage wl qn tn w = Some (w', out) -> groups ts wl = Some (wl', gs) ->
  clients_run out sched = Some st ->
  (forall g cg, cg_at wl' gs e g = Some cg -> (cg_iterExecGroup cg <= m)%N) ->
  (m + clients_in (exec_group e) (labelled out) < 2^32)%N ->
  (iterations (limited wl' gs e n) (labelled out) (is_cls st) <= n)%N.
Proof. intros HA HG R LM B. exact (eg_limit _ _ _ _ _ _ _ _ _ _ _ HA HG _ _ _ _ _ LM B R). Qed.

(** With iter-clients the only limit, exactly N iterations. *)
Theorem C28_iter_clients_exact_partial ts ws stage wl qn tn w w' out wl' gs sched st e g cg :
  allocate ts ws stage wl qn tn w = Some (w', out) -> groups ts wl = Some (wl', gs) -> no_empty_trx ts wl' ->
  clients_run out sched = Some st -> undisturbed (one_group e g) (labelled out) sched -> cg_at wl' gs e g = Some cg ->
  (0 < cg_iterClients cg)%N -> cg_iterExecGroup cg = 0%N -> cg_iter cg = 0%N ->
  (cg_iterClients cg + clients_in (one_group e g) (labelled out) < 2^32)%N ->
  (exists c, In (e, g, c) (labelled out)) ->
  all_finished (one_group e g) (labelled out) (is_cls st) ->
  iterations (one_group e g) (labelled out) (is_cls st) = cg_iterClients cg.
Proof.
  intros HA HG NE R U X P Z1 Z2 B E F.
  apply (clients_limit_exact _ _ _ _ _ _ _ _ _ _ _ HA HG _ _ _ sched _ X P Z1); auto.
  intros c I. rewrite (lab_iter _ _ _ _ _ _ _ _ _ _ _ HA HG _ _ _ _ NE I X). exact Z2.
Qed.

(** With iter-exec-group the only limit (set alike by all client groups), exactly N iterations. *)
Theorem C28_iter_exec_group_exact_partial ts ws stage wl qn tn w w' out wl' gs sched st e n :
  allocate ts ws stage wl qn tn w = Some (w', out) -> groups ts wl = Some (wl', gs) -> no_empty_trx ts wl' ->
  clients_run out sched = Some st -> undisturbed (exec_group e) (labelled out) sched -> (0 < n)%N ->
  (forall g cg, cg_at wl' gs e g = Some cg -> cg_iterExecGroup cg = n /\ cg_iterClients cg = 0%N /\ cg_iter cg = 0%N) ->
  (n + clients_in (exec_group e) (labelled out) < 2^32)%N ->
  (exists g c, In (e, g, c) (labelled out)) ->
  all_finished (exec_group e) (labelled out) (is_cls st) ->
  iterations (exec_group e) (labelled out) (is_cls st) = n.
Proof.
  intros HA HG NE R U P ALL B E F.
  apply (eg_limit_exact _ _ _ _ _ _ _ _ _ _ _ HA HG _ n sched); auto.
  - intros g cg X. destruct (ALL _ _ X) as (A1 & A2 & _). auto.
  - intros g c I. destruct (lab_cfg _ _ _ _ _ _ _ _ _ _ _ HA HG _ _ _ I) as (cg & X & _).
    rewrite (lab_iter _ _ _ _ _ _ _ _ _ _ _ HA HG _ _ _ _ NE I X). now destruct (ALL _ _ X) as (_ & _ & Q).
Qed.

(* ------------------------------------------------------------------------------------ *)
Module ExI.
  Definition ts := TrxSet ["t"; "u"] (fun t => if String.eqb t "t" then [plain_stmt "SELECT 1" []] else [plain_stmt "SELECT 2" []]) (fun _ => false).
  Definition cg (name : string) (trx : list string) (n iter ic ie : N) : cgcfg :=
    CgCfg name trx n "" false iter ic ie 0 0 0 0 0 0.
  Definition k0 := WSt scopes_new 0.
  (** round robin of [n] clients *)
  Fixpoint rr (n rounds : nat) : list (nat * bool) :=
    match rounds with O => [] | S r => map (fun i => (i, false)) (seq 0 n) ++ rr n r end.
  (** the schedule without the steps that are not possible *)
  Fixpoint prune (st : ist) (sched : list (nat * bool)) : list (nat * bool) :=
    match sched with
    | [] => []
    | (i, b) :: s => match iter_step st i b with Some st' => (i, b) :: prune st' s | None => prune st s end
    end.
  Definition alloc w := match allocate ts true 1 w 0 0 k0 with Some (_, o) => o | None => [] end.
  Definition sched w n r := prune (iter_init (map snd (labelled (alloc w)))) (rr n r).
  Definition result w n r :=
    match clients_run (alloc w) (sched w n r) with
    | Some st => Some (map (fun k => (ic_ph k, ic_n k)) (is_cls st),
                       iterations (one_group 0 0) (labelled (alloc w)) (is_cls st),
                       iterations (exec_group 0) (labelled (alloc w)) (is_cls st))
    | None => None
    end.
End ExI.

Example C28_example :
  (* three clients sharing iter-clients 7 *)
  ExI.result [ExI.cg "a" ["t"] 3 0 7 0] 3 30 = Some ([(Finished, 3%N); (Finished, 2%N); (Finished, 2%N)], 7%N, 7%N) /\
  (* two client groups sharing iter-exec-group 5 *)
  ExI.result [ExI.cg "a" ["t"] 2 0 0 5; ExI.cg "a" ["u"] 1 0 0 5] 3 30 =
    Some ([(Finished, 2%N); (Finished, 2%N); (Finished, 1%N)], 4%N, 5%N) /\
  (* all limits *)
  ExI.result [ExI.cg "a" ["t"] 2 2 3 10; ExI.cg "a" ["u"] 1 4 0 10] 3 40 =
    Some ([(Finished, 2%N); (Finished, 1%N); (Finished, 4%N)], 3%N, 7%N).
Proof. vm_compute. auto. Qed.

(** A client group of the exec group without iter-exec-group is not limited by it. *)
Theorem C28_refuted_unset : ~ (forall ts ws stage wl qn tn w w' out wl' gs sched st e n,
  allocate ts ws stage wl qn tn w = Some (w', out) -> groups ts wl = Some (wl', gs) ->
  clients_run out sched = Some st -> (0 < n)%N -> (n < 1000)%N ->
  (exists g cg, cg_at wl' gs e g = Some cg /\ cg_iterExecGroup cg = n) ->
  (iterations (exec_group e) (labelled out) (is_cls st) <= n)%N).
Proof.
  intros H.
  set (w := [ExI.cg "a" ["t"] 1 0 0 2; ExI.cg "a" ["u"] 1 0 0 0]).
  destruct (allocate ExI.ts true 1 w 0 0 ExI.k0) as [[w' out]|] eqn:A.
  2:{ assert (X : match allocate ExI.ts true 1 w 0 0 ExI.k0 with Some _ => true | None => false end = true) by (vm_compute; reflexivity).
      rewrite A in X. discriminate. }
  destruct (groups ExI.ts w) as [[wl' gs]|] eqn:G; [|vm_compute in G; discriminate].
  assert (EO : ExI.alloc w = out) by (unfold ExI.alloc; now rewrite A).
  destruct (clients_run out (ExI.sched w 2 20)) as [st|] eqn:R.
  2:{ assert (X : match clients_run (ExI.alloc w) (ExI.sched w 2 20) with Some _ => true | None => false end = true) by (vm_compute; reflexivity).
      rewrite EO, R in X. discriminate. }
  specialize (H _ _ _ _ _ _ _ _ _ _ _ _ _ 0%nat 2%N A G R ltac:(lia) ltac:(lia)).
  assert (X : (iterations (exec_group 0) (labelled out) (is_cls st) <= 2)%N).
  { apply H. vm_compute in G. injection G as <- <-. exists 0%nat. eexists. split; reflexivity. }
  assert (Y : option_map (fun st => iterations (exec_group 0) (labelled (ExI.alloc w)) (is_cls st)) (clients_run (ExI.alloc w) (ExI.sched w 2 20)) = Some 7%N)
    by (vm_compute; reflexivity).
  rewrite EO, R in Y. cbn [option_map] in Y. injection Y as Y. rewrite Y in X. lia.
Qed.

(** With iter-clients 2^32-1 there is no limit: the counter never gets above it. *)
Theorem C28_refuted_wrap : forall n, exists ts ws stage wl qn tn w w' out wl' gs sched st cg,
  allocate ts ws stage wl qn tn w = Some (w', out) /\ groups ts wl = Some (wl', gs) /\
  cg_at wl' gs 0 0 = Some cg /\ cg_iterClients cg = (2^32 - 1)%N /\
  clients_run out sched = Some st /\
  iterations (one_group 0 0) (labelled out) (is_cls st) = N.of_nat n.
Proof.
  intros n. set (w := [ExI.cg "a" ["t"] 1 0 (2^32 - 1) 0]).
  destruct (allocate ExI.ts true 1 w 0 0 ExI.k0) as [[w' out]|] eqn:A.
  2:{ assert (X : match allocate ExI.ts true 1 w 0 0 ExI.k0 with Some _ => true | None => false end = true) by (vm_compute; reflexivity).
      rewrite A in X. discriminate. }
  destruct (groups ExI.ts w) as [[wl' gs]|] eqn:G; [|vm_compute in G; discriminate].
  assert (EO : ExI.alloc w = out) by (unfold ExI.alloc; now rewrite A).
  assert (LO : map (fun l => (fst l, (c_iter (snd l), c_iterClients (snd l), c_iterClientsPtr (snd l), c_iterEg (snd l)))) (labelled (ExI.alloc w)) =
     [((0%nat, 0%nat), (0%N, (2^32 - 1)%N, Some 1%nat, 0%N))]) by (vm_compute; reflexivity).
  rewrite EO in LO. destruct (labelled out) as [|[l c] [|]] eqn:EL; try discriminate. cbn in LO. injection LO as L1 L2 L3 L4 L5. subst l.
  change (c_iterClients c = (2^32 - 1)%N) in L3.
  assert (RUN : exists sched cnt, clients_run out sched = Some (ISt cnt [ICl c AtEg (N.of_nat n)])).
  { unfold clients_run. rewrite EL. cbn [map snd]. induction n as [|n IH]; [exists [], (fun _ => 0%N); reflexivity|].
    destruct IH as (sched & cnt & R). exists (sched ++ [(0, false); (0, false); (0, false); (0, false)]%nat).
    assert (APP : forall a b st st', iter_run st a = Some st' -> iter_run st (a ++ b) = iter_run st' b).
    { clear. induction a as [|[i b0] a IH]; intros b st st' H; cbn in *; [congruence|].
      destruct (iter_step st i b0); [eauto|discriminate]. }
    rewrite (APP _ _ _ _ R). eexists. cbn [iter_run iter_step is_cls nth_error ic_ph ic_c ic_n set_nth is_cnt].
    unfold shared_check. rewrite L5. change (0 <? 0)%N with false. cbv beta iota.
    cbn [iter_run iter_step is_cls nth_error ic_ph ic_c ic_n set_nth is_cnt].
    unfold shared_check. rewrite L3, L4. change (0 <? 2^32 - 1)%N with true. cbv beta iota zeta.
    assert (LE : (2^32 - 1 <? u32 (cnt 1%nat + 1))%N = false).
    { apply N.ltb_ge. unfold u32. pose proof (N.mod_upper_bound (cnt 1%nat + 1) (2^32) ltac:(discriminate)). lia. }
    rewrite LE. cbn [iter_run iter_step is_cls nth_error ic_ph ic_c ic_n set_nth is_cnt]. rewrite L2. change (0 <? 0)%N with false. cbn [andb].
    cbn [iter_run iter_step is_cls nth_error ic_ph ic_c ic_n set_nth is_cnt]. do 3 f_equal. f_equal. lia. }
  destruct RUN as (sched & cnt & R).
  exists ExI.ts, true, 1%N, w, 0%N, 0%N, ExI.k0, w', out, wl', gs, sched, (ISt cnt [ICl c AtEg (N.of_nat n)]).
  assert (CG : option_map cg_iterClients (cg_at wl' gs 0 0) = Some (2^32 - 1)%N) by (vm_compute in G; injection G as <- <-; reflexivity).
  destruct (cg_at wl' gs 0 0) as [cg|]; [|discriminate]. exists cg. injection CG as CG.
  split; auto. split; auto. split; auto. split; auto. split; auto. rewrite EL. cbn. rewrite N.add_0_r. reflexivity.
Qed.

(** And with iter-clients 2^32+1 clients stop after one iteration. *)
Example C28_refuted_truncated :
  ExI.result [ExI.cg "a" ["t"] 2 0 (2^32 + 1) 0] 2 30 = Some ([(Finished, 1%N); (Finished, 0%N)], 1%N, 1%N).
Proof. vm_compute. reflexivity. Qed.

Print Assumptions C28_iter.
Print Assumptions C28_iter_clients_partial.
Print Assumptions C28_iter_exec_group_partial.
Print Assumptions C28_iter_clients_exact_partial.
Print Assumptions C28_iter_exec_group_exact_partial.
Print Assumptions C28_refuted_unset.
Print Assumptions C28_refuted_wrap.
