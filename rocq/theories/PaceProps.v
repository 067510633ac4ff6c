(** C117-C119: rate limits, from the configuration file to executions over time. *)
From Verif Require Import Prelude ListAux ScopeModel StmtModel WorkloadModel WorkloadSpec ClientModel ClientSpec.
From Verif Require Import IterModel IterSpec IterProofs RateModel RateSpec WireProofs LoopModel LoopSpec LoopProofs LoopCountProofs.
From Verif Require Import PaceModel PaceSpec PaceProofs PaceNetProofs PaceWireProofs.
From Verif Require ConfigModel ConfigSpec ConfigProps PipeModel PipeRunProofs PipeProps LoopProps.
Module C := ConfigModel.
Module CS := ConfigSpec.
Module P := PipeModel.
#[local] Open Scope string_scope.
#[local] Open Scope list_scope.

(** The stage file limits the clients [sel] to [n] queries ([q] is true) or transactions per second: all clients of the
    stage, those of an exec group (the limit is that of its first client group), of a client group, or one client. *)
Inductive file_limit (c : C.stage) (out : list (list (list client))) (q : bool) : (nat -> nat -> nat -> bool) -> N -> Prop :=
| FLStage n : CS.decimal (if q then C.s_qps c else C.s_tps c) n -> file_limit c out q (fun _ _ _ => true) n
| FLExecGroup e grp n : LoopProps.group_at c out e 0 grp ->
    CS.decimal (if q then C.g_qps_x grp else C.g_tps_x grp) n -> file_limit c out q (fun e' _ _ => Nat.eqb e' e) n
| FLClients e g grp n : LoopProps.group_at c out e g grp ->
    CS.decimal (if q then C.g_qps_c grp else C.g_tps_c grp) n -> file_limit c out q (fun e' g' _ => (Nat.eqb e' e && Nat.eqb g' g)%bool) n
| FLClient j e g cl grp n : nth_error (labelled out) j = Some (e, g, cl) -> LoopProps.group_at c out e g grp ->
    CS.decimal (if q then C.g_qps grp else C.g_tps grp) n -> file_limit c out q (fun _ _ j' => Nat.eqb j' j) n.

Lemma pace_facts E bases fs kvs dsn db Pe a c set out : LoopProps.configured E bases fs kvs dsn db Pe a c set out ->
  exists ts ws n w1 w2 wl gs, allocate ts ws n (map P.cgcfg_of (C.s_workload c)) (P.uint (C.s_qps c)) (P.uint (C.s_tps c)) w1 = Some (w2, out) /\
    groups ts (map P.cgcfg_of (C.s_workload c)) = Some (wl, gs) /\ map (@length _) out = map (@length _) gs /\
    (forall e css g cls grp, nth_error out e = Some css -> nth_error css g = Some cls -> LoopProps.group_at c out e g grp ->
       exists name names iter, cg_at wl gs e g = Some (cg_with (P.cgcfg_of grp) name names iter)).
Proof.
  intros (cs & l & w & outs & L & D & H & PR & Ha & Ho).
  destruct (PipeProps.stage_facts _ _ _ _ _ _ _ _ _ _ _ a c set out L D H PR Ha Ho) as (keys0 & w1 & w2 & TN & NK & LS & PS & IN & NA).
  destruct (PipeRunProofs.group_config Pe c keys0 set LS NK TN _ _ _ PS) as (wl & gs & G & NE & SH & CG).
  assert (AL := PS). unfold prepare_stage in AL. do 4 eexists. exists w2, wl, gs. split; [exact AL|]. split; [exact G|]. split; [exact SH|].
  intros e css g cls grp He Hg Hgrp. destruct (CG e css g cls grp He Hg Hgrp) as (name & X). eauto.
Qed.

Lemma labelled_client out j e g cl : nth_error (labelled out) j = Some (e, g, cl) ->
  exists css cls k, nth_error out e = Some css /\ nth_error css g = Some cls /\ nth_error cls k = Some cl.
Proof.
  intros J. destruct (LoopProps.labelled_at _ _ _ _ _ J) as (css & cls & He & Hg & Hc). apply In_nth_error in Hc as (k & Hk). eauto 7.
Qed.

(** The clients of a limit in the file share a limiter with that rate. *)
Lemma shared_limiter E bases fs kvs dsn db Pe a c set out q sel n : LoopProps.configured E bases fs kvs dsn db Pe a c set out ->
  file_limit c out q sel n -> n <> 0%N -> (n < 2 ^ 64)%N ->
  exists x, forall j e g cl, nth_error (labelled out) j = Some (e, g, cl) -> sel e g j = true -> In (x, n) (leaves_of (limiter q cl)).
Proof.
  intros CF FL NZ FIT. destruct (pace_facts _ _ _ _ _ _ _ _ _ _ _ CF) as (ts & ws & sn & w1 & w2 & wl & gs & HA & HG & SH & CG).
  destruct (limiter_parts _ _ _ _ _ _ _ _ _ _ _ q HA HG) as (O & b & ls & OS & PE).
  destruct FL as [n DN|e grp n G DN|e g grp n G DN|j e g cl grp n J G DN].
  - assert (U : (if q then P.uint (C.s_qps c) else P.uint (C.s_tps c)) = n).
    { apply PipeProps.uint_decimal in DN; [|exact FIT]. destruct q; exact DN. }
    rewrite U in OS. destruct (own_in _ _ _ _ _ OS NZ) as (x & X). exists x. intros j e g cl J _.
    destruct (labelled_client _ _ _ _ _ J) as (css & cls & k & He & Hg & Hk).
    destruct (PE _ _ He) as (cg0 & le & _ & _ & PG). destruct (PG _ _ Hg) as (cg & lg & _ & _ & PK). destruct (PK _ _ Hk) as (lk & _ & ->).
    apply in_or_app. now left.
  - destruct (nth_error out e) as [css|] eqn:He.
    2:{ exists 0%nat. intros j e' g' cl J S. apply Nat.eqb_eq in S. subst e'. destruct (labelled_client _ _ _ _ _ J) as (css & cls & k & He' & _). congruence. }
    destruct (PE _ _ He) as (cg0 & le & X0 & OE & PG).
    assert (H0 : exists cls, nth_error css 0 = Some cls).
    { assert (Z : nth_error (map (@length _) out) e = nth_error (map (@length _) gs) e) by now rewrite SH.
      rewrite !nth_error_map, He in Z. unfold cg_at in X0. destruct (nth_error gs e) as [refs|]; [|discriminate]. injection Z as Z.
      destruct refs as [|r refs]; [discriminate|]. destruct css as [|cls css]; [discriminate|]. now exists cls. }
    destruct H0 as (cls0 & H0). destruct (CG _ _ _ _ _ He H0 G) as (name & names & iter & X). rewrite X0 in X. injection X as ->.
    assert (U : (if q then cg_qpsExecGroup (cg_with (P.cgcfg_of grp) name names iter) else cg_tpsExecGroup (cg_with (P.cgcfg_of grp) name names iter)) = n).
    { apply PipeProps.uint_decimal in DN; [|exact FIT]. destruct q; exact DN. }
    rewrite U in OE. destruct (own_in _ _ _ _ _ OE NZ) as (x & X). exists x. intros j e' g cl J S. apply Nat.eqb_eq in S. subst e'.
    destruct (labelled_client _ _ _ _ _ J) as (css' & cls & k & He' & Hg & Hk). rewrite He in He'. injection He' as <-.
    destruct (PG _ _ Hg) as (cg & lg & _ & _ & PK). destruct (PK _ _ Hk) as (lk & _ & ->).
    apply in_or_app. right. apply in_or_app. now left.
  - assert (NOCL : forall css cls, nth_error out e = Some css -> nth_error css g = Some cls -> exists x, forall k cl, nth_error cls k = Some cl -> In (x, n) (leaves_of (limiter q cl))).
    { intros css cls He Hg. destruct (PE _ _ He) as (cg0 & le & _ & _ & PG). destruct (PG _ _ Hg) as (cg & lg & X0 & OG & PK).
      destruct (CG _ _ _ _ _ He Hg G) as (name & names & iter & X). rewrite X0 in X. injection X as ->.
      assert (U : (if q then cg_qpsClients (cg_with (P.cgcfg_of grp) name names iter) else cg_tpsClients (cg_with (P.cgcfg_of grp) name names iter)) = n).
      { apply PipeProps.uint_decimal in DN; [|exact FIT]. destruct q; exact DN. }
      rewrite U in OG. destruct (own_in _ _ _ _ _ OG NZ) as (x & X). exists x. intros k cl Hk. destruct (PK _ _ Hk) as (lk & _ & ->).
      do 2 (apply in_or_app; right). apply in_or_app. now left. }
    destruct (nth_error out e) as [css|] eqn:He; [destruct (nth_error css g) as [cls|] eqn:Hg|].
    + destruct (NOCL _ _ eq_refl Hg) as (x & X). exists x. intros j e' g' cl J S. apply andb_true_iff in S as [S1 S2]. apply Nat.eqb_eq in S1, S2. subst e' g'.
      destruct (labelled_client _ _ _ _ _ J) as (css' & cls' & k & He' & Hg' & Hk). rewrite He in He'. injection He' as <-. rewrite Hg in Hg'. injection Hg' as <-. eauto.
    + exists 0%nat. intros j e' g' cl J S. apply andb_true_iff in S as [S1 S2]. apply Nat.eqb_eq in S1, S2. subst e' g'.
      destruct (labelled_client _ _ _ _ _ J) as (css' & cls' & k & He' & Hg' & Hk). rewrite He in He'. injection He' as <-. congruence.
    + exists 0%nat. intros j e' g' cl J S. apply andb_true_iff in S as [S1 S2]. apply Nat.eqb_eq in S1, S2. subst e' g'.
      destruct (labelled_client _ _ _ _ _ J) as (css' & cls' & k & He' & Hg' & Hk). congruence.
  - destruct (labelled_client _ _ _ _ _ J) as (css & cls & k & He & Hg & Hk).
    destruct (PE _ _ He) as (cg0 & le & _ & _ & PG). destruct (PG _ _ Hg) as (cg & lg & X0 & _ & PK). destruct (PK _ _ Hk) as (lk & OK & LV).
    destruct (CG _ _ _ _ _ He Hg G) as (name & names & iter & X). rewrite X0 in X. injection X as ->.
    assert (U : (if q then cg_qps (cg_with (P.cgcfg_of grp) name names iter) else cg_tps (cg_with (P.cgcfg_of grp) name names iter)) = n).
    { apply PipeProps.uint_decimal in DN; [|exact FIT]. destruct q; exact DN. }
    rewrite U in OK. destruct (own_in _ _ _ _ _ OK NZ) as (x & X). exists x. intros j' e' g' cl' J' S. apply Nat.eqb_eq in S. subst j'.
    rewrite J in J'. injection J' as <- <- <-. rewrite LV. do 3 (apply in_or_app; right). exact X.
Qed.

(** The indexes of selected clients. *)
Definition chosen (ls : list (nat * nat * client)) (sel : nat -> nat -> nat -> bool) : list nat :=
  filter (fun j => match nth_error ls j with Some (e, g, _) => sel e g j | None => false end) (seq 0 (length ls)).
Lemma chosen_in ls sel j : In j (chosen ls sel) <-> exists e g c, nth_error ls j = Some (e, g, c) /\ sel e g j = true.
Proof.
  unfold chosen. rewrite filter_In, in_seq. split.
  - intros (_ & H). destruct (nth_error ls j) as [[[e g] c]|]; [eauto|discriminate].
  - intros (e & g & c & J & S). assert (j < length ls)%nat by (apply nth_error_Some; congruence).
    split; [lia|]. rewrite J. exact S.
Qed.
Lemma executions_counted V q ls sel (tr : list (nat * event V)) : executions q ls sel tr = Z.of_nat (counted (map snd ls) q (chosen ls sel) tr).
Proof.
  unfold executions, counted. do 2 f_equal. apply filter_ext. intros [j ev]. cbn [fst snd]. rewrite nth_error_map.
  destruct (nth_error ls j) as [[[e g] c]|] eqn:J; cbn [option_map snd]; [|symmetry; apply andb_false_r].
  assert (X : mem j (chosen ls sel) = sel e g j).
  { destruct (sel e g j) eqn:S.
    - apply mem_in, chosen_in. eauto 6.
    - apply mem_not. rewrite chosen_in. intros (e' & g' & c' & J' & S'). congruence. }
  now rewrite X.
Qed.

(** Any window, in terms of what the limiters and clients hold at its start. *)
Lemma window E bases fs kvs dsn db Pe a c set out q sel n V nw (st st' : pst V) tr evs t0 t1 :
  LoopProps.configured E bases fs kvs dsn db Pe a c set out -> limiters_in nw (map snd (labelled out)) ->
  file_limit c out q sel n -> n <> 0%N -> (n <= 10 ^ 9)%N ->
  map l_c (l_cls (p_loop st)) = map snd (labelled out) ->
  pace_run nw st (map snd tr) = Some (st', evs) -> within t0 t1 tr -> rates_kept (map snd (labelled out)) tr ->
  exists x, (executions q (labelled out) sel evs <= at_most n t0 t1 + Z.of_nat (weight nw (map snd (labelled out)) q x (chosen (labelled out) sel) st))%Z.
Proof.
  intros CF LI FL NZ NB CL R W RK. destruct (shared_limiter _ _ _ _ _ _ _ _ _ _ _ _ _ _ CF FL NZ) as (x & SX).
  { eapply N.le_lt_trans; [exact NB|reflexivity]. }
  exists x. rewrite executions_counted. set (I := chosen (labelled out) sel). set (cs := map snd (labelled out)) in *.
  destruct I as [|j0 I'] eqn:EI.
  { assert (Z : counted cs q [] evs = 0%nat) by (unfold counted; now rewrite filter_all_false by reflexivity). rewrite Z.
    assert (0 <= at_most n t0 t1)%Z; [|lia]. unfold at_most. pose proof (within_le _ _ _ W).
    assert (0 < 10 ^ 9 / Z.of_N n)%Z by (apply Z.div_str_pos; lia). pose proof (Z.div_pos (t1 - t0) (10 ^ 9 / Z.of_N n)). lia. }
  rewrite <- EI.
  assert (IX : forall j, In j I -> exists c r m, nth_error cs j = Some c /\ limiter q c = Some r /\ In (x, m) (leaves r)).
  { intros j Hj. apply chosen_in in Hj as (e & g & cl & J & S). specialize (SX j e g cl J S). exists cl.
    destruct (limiter q cl) as [r|] eqn:L; [|contradiction]. exists r, n. split; [|auto]. unfold cs. now rewrite nth_error_map, J. }
  assert (XS : nw x = Some KLeaf /\ spaced x (10 ^ 9 / Z.of_N n) None (limiter_steps tr)).
  { assert (I0 : In j0 I) by (rewrite EI; now left). pose proof I0 as I1. apply chosen_in in I1 as (e & g & cl & J & S).
    specialize (SX j0 e g cl J S). assert (CI : In cl cs) by (unfold cs; apply in_map_iff; exists (e, g, cl); split; [reflexivity|eapply nth_error_In; eauto]).
    split; [|eapply RK; eauto]. destruct (limiter q cl) as [r|] eqn:L; [|contradiction].
    eapply needing_present; [exact (LI q cl r CI L)|]. apply in_map_iff. exists (x, n). auto. }
  destruct XS as (XL & SP).
  destruct (weight_run nw cs q x I (NoDup_filter _ (seq_NoDup _ _)) LI IX XL (map snd tr) st st' evs CL R) as (_ & WR).
  pose proof (ticks_time x n tr t0 t1 NZ NB W SP) as T. lia.
Qed.

(* ------------------------------------------------------------------------------------ *)
(** * C117: a limit of n per second *)

Lemma init_clients V cs : map l_c (l_cls (p_loop (@pace_init V cs))) = cs.
Proof. cbn [pace_init p_loop loop_init l_cls]. rewrite map_map. cbn [l_c]. apply map_id. Qed.

(** From the start of the limiters, the clients a limit is for together execute at most n queries (for tps: BEGIN
    statements) per second, and one more. *)
Theorem C117_rate : forall V E bases fs kvs dsn db Pe a c set out q sel n nw (st : pst V) tr evs t0 t1,
  LoopProps.configured E bases fs kvs dsn db Pe a c set out -> limiters_in nw (map snd (labelled out)) ->
  file_limit c out q sel n -> n <> 0%N -> (n <= 10 ^ 9)%N ->
  pace_run nw (pace_init (map snd (labelled out))) (map snd tr) = Some (st, evs) ->
  within t0 t1 tr -> rates_kept (map snd (labelled out)) tr ->
  (executions q (labelled out) sel evs <= at_most n t0 t1)%Z.
Proof.
  intros V E bases fs kvs dsn db Pe a c set out q sel n nw st tr evs t0 t1 CF LI FL NZ NB R W RK.
  destruct (window _ _ _ _ _ _ _ _ _ _ _ _ _ _ V nw _ _ _ _ _ _ CF LI FL NZ NB (init_clients _ _) R W RK) as (x & X).
  rewrite weight_init in X. lia.
Qed.
Print Assumptions C117_rate.

(** The limiters of a stage always form a net, and a run with limiters is a run without, so that
    C114-C116 hold for it. *)
Theorem C117_net : forall E bases fs kvs dsn db Pe a c set out,
  LoopProps.configured E bases fs kvs dsn db Pe a c set out -> exists nw, limiters_in nw (map snd (labelled out)).
Proof.
  intros E bases fs kvs dsn db Pe a c set out CF.
  destruct (pace_facts _ _ _ _ _ _ _ _ _ _ _ CF) as (ts & ws & sn & w1 & w2 & wl & gs & HA & _).
  destruct (allocate_good _ _ _ _ _ _ _ _ _ HA) as (O & G). exists O. intros q cl r I L.
  apply in_map_iff in I as ([[e g] cl'] & <- & I). cbn [snd] in L. apply labelled_in in I as (k & I). unfold client_at in I.
  destruct (nth_error out e) as [css|] eqn:He; [|discriminate]. destruct (nth_error css g) as [cls|] eqn:Hg; [|discriminate].
  rewrite Forall_forall in G. specialize (G css (nth_error_In _ _ He)). rewrite Forall_forall in G. specialize (G cls (nth_error_In _ _ Hg)).
  rewrite Forall_forall in G. specialize (G cl' (nth_error_In _ _ I)). destruct G as (A & B).
  destruct q; cbn [limiter] in L; rewrite L in *; [apply A|apply B].
Qed.
Print Assumptions C117_net.
Theorem C117_run : forall V nw cs (st : pst V) tr evs, pace_run nw (pace_init cs) tr = Some (st, evs) ->
  exists sched, loop_run (loop_init cs) sched = Some (p_loop st, evs).
Proof. intros V nw cs st tr evs R. exists (own_steps_of tr). exact (erase nw tr _ _ _ R). Qed.
Print Assumptions C117_run.

(* ------------------------------------------------------------------------------------ *)
(** * C118: any time of the run *)

Lemma filter_shorter {A} (f : A -> bool) l : (length (filter f l) <= length l)%nat.
Proof. induction l as [|x l IH]; cbn; [lia|]. destruct (f x); cbn; lia. Qed.

(** In any time window, however long clients were idle or queries slow before it, there are at most n per
    second and a fixed number more: 7 per client and 3. *)
Theorem C118_window : forall V E bases fs kvs dsn db Pe a c set out q sel n nw (st1 st2 : pst V) tr1 evs1 tr evs t0 t1,
  LoopProps.configured E bases fs kvs dsn db Pe a c set out -> limiters_in nw (map snd (labelled out)) ->
  file_limit c out q sel n -> n <> 0%N -> (n <= 10 ^ 9)%N ->
  pace_run nw (pace_init (map snd (labelled out))) tr1 = Some (st1, evs1) ->
  pace_run nw st1 (map snd tr) = Some (st2, evs) ->
  within t0 t1 tr -> rates_kept (map snd (labelled out)) tr ->
  (executions q (labelled out) sel evs <= at_most n t0 t1 + 7 * Z.of_nat (length (labelled out)) + 2)%Z.
Proof.
  intros V E bases fs kvs dsn db Pe a c set out q sel n nw st1 st2 tr1 evs1 tr evs t0 t1 CF LI FL NZ NB R1 R W RK.
  assert (CL : map l_c (l_cls (p_loop st1)) = map snd (labelled out)).
  { apply erase in R1. pose proof (sim_run _ _ _ _ R1) as (X & _). exact X. }
  destruct (window _ _ _ _ _ _ _ _ _ _ _ _ _ _ V nw _ _ _ _ _ _ CF LI FL NZ NB CL R W RK) as (x & X).
  pose proof (weight_bound nw (map snd (labelled out)) q x (chosen (labelled out) sel) st1) as WB.
  assert (LC : (length (chosen (labelled out) sel) <= length (labelled out))%nat).
  { unfold chosen. rewrite <- (seq_length (length (labelled out)) 0) at 2. apply filter_shorter. }
  assert (LS : (length (all_needing q x (map snd (labelled out))) <= 1 + 3 * length (map snd (labelled out)))%nat).
  { apply all_needing_length. intros cl I. destruct (pace_facts _ _ _ _ _ _ _ _ _ _ _ CF) as (ts & ws & sn & w1 & w2 & wl & gs & HA & HG & _).
    destruct (limiter_parts _ _ _ _ _ _ _ _ _ _ _ q HA HG) as (O & b & ls & OS & PE).
    apply in_map_iff in I as ([[e g] cl'] & <- & I). cbn [snd]. apply In_nth_error in I as (j & J).
    destruct (labelled_client _ _ _ _ _ J) as (css & cls & k & He & Hg & Hk).
    destruct (PE _ _ He) as (cg0 & le & _ & OE & PG). destruct (PG _ _ Hg) as (cg & lg & _ & OG & PK). destruct (PK _ _ Hk) as (lk & OK & ->).
    rewrite !app_length. pose proof (own_length _ _ _ _ _ OS). pose proof (own_length _ _ _ _ _ OE).
    pose proof (own_length _ _ _ _ _ OG). pose proof (own_length _ _ _ _ _ OK). lia. }
  rewrite map_length in LS. lia.
Qed.
Print Assumptions C118_window.

(* ------------------------------------------------------------------------------------ *)
(** * C119: rate limits do not stop clients *)

(** A client that is about to execute a query can do so, at any time of any run, however limits are combined: it only takes
    steps of the limiters, which are always possible, and its own. *)
Theorem C119_no_deadlock : forall V E bases fs kvs dsn db Pe a c set out nw (st : pst V) tr evs i k s se,
  LoopProps.configured E bases fs kvs dsn db Pe a c set out -> limiters_in nw (map snd (labelled out)) ->
  pace_run nw (pace_init (map snd (labelled out))) tr = Some (st, evs) ->
  nth_error (l_cls (p_loop st)) i = Some k -> at_query k = Some s ->
  exists tr' st' evs',
    Forall (fun e => match e with PLim _ => True | PPermit _ j => j = i | PLoop _ _ => False end) tr' /\
    pace_run nw st (tr' ++ [PLoop i (LStmt se)]) = Some (st', evs').
Proof.
  intros V E bases fs kvs dsn db Pe a c set out nw st tr evs i k s se CF LI R K A.
  assert (CL : map l_c (l_cls (p_loop st)) = map snd (labelled out)).
  { apply erase in R. pose proof (sim_run _ _ _ _ R) as (X & _). exact X. }
  assert (KC : In (l_c k) (map snd (labelled out))) by (rewrite <- CL; apply in_map, (nth_error_In _ _ K)).
  assert (PR : forall q r, limiter q (l_c k) = Some r -> present nw r /\ exists b, below b r).
  { intros q r L. split; [exact (LI q _ _ KC L)|].
    destruct (pace_facts _ _ _ _ _ _ _ _ _ _ _ CF) as (ts & ws & sn & w1 & w2 & wl & gs & HA & _).
    destruct (allocate_good _ _ _ _ _ _ _ _ _ HA) as (O & G). exists (w_next w2).
    apply in_map_iff in KC as ([[e g] cl'] & EC & I). cbn [snd] in EC. subst cl'. apply labelled_in in I as (m & I). unfold client_at in I.
    destruct (nth_error out e) as [css|] eqn:He; [|discriminate]. destruct (nth_error css g) as [cls|] eqn:Hg; [|discriminate].
    rewrite Forall_forall in G. specialize (G css (nth_error_In _ _ He)). rewrite Forall_forall in G. specialize (G cls (nth_error_In _ _ Hg)).
    rewrite Forall_forall in G. specialize (G (l_c k) (nth_error_In _ _ I)). destruct G as (A1 & A2).
    destruct q; cbn [limiter] in L; rewrite L in *; [apply A1|apply A2]. }
  destruct (permit_possible nw st i k s false K A (PR false) ltac:(discriminate)) as (tr1 & s1 & tp1 & qp1 & F1 & R1 & G1 & _).
  set (st1 := PSt (p_loop st) s1 tp1 qp1) in *.
  destruct (permit_possible nw st1 i k s true K A (PR true) (fun _ => G1)) as (tr2 & s2 & tp2 & qp2 & F2 & R2 & G2 & G3).
  set (st2 := PSt (p_loop st1) s2 tp2 qp2) in *. cbn [negb] in G3. specialize (G3 G1).
  assert (LS : exists l' e', loop_step (p_loop st2) i (LStmt se) = Some (l', e')).
  { unfold loop_step. cbn [st2 st1 p_loop]. rewrite K. unfold at_query in A. destruct (l_pc k) as [| |m|] eqn:PC; try discriminate. cbn [cstep].
    destruct (exec_stmt _ _ _ _) as [[s0 e0] nx].
    assert (SN : forall y, exists l, set_nth (l_cls (p_loop st)) i y = Some l).
    { intros y. apply set_nth_some. apply nth_error_Some. congruence. }
    destruct nx; match goal with |- context [set_nth ?l ?i ?y] => destruct (SN y) as (l' & ->) end; eauto. }
  destruct LS as (l' & e' & LS).
  exists (tr1 ++ tr2). do 2 eexists. split; [apply Forall_app; split; [exact F1|exact F2]|].
  rewrite <- app_assoc, (pace_app _ _ _ _ _ _ R1), (pace_app _ _ _ _ _ _ R2). cbn [pace_run pace_step]. unfold pace_loop.
  replace (nth_error (l_cls (p_loop st2)) i) with (Some k) by (symmetry; exact K). rewrite A, G2, G3. cbn [andb]. rewrite LS. reflexivity.
Qed.
Print Assumptions C119_no_deadlock.

(* ------------------------------------------------------------------------------------ *)
(** * Examples *)

Module ExP.
  (** Stage: 5 queries per second.  Exec group "a": 2 transactions per second; its first client group has two clients with
      3 queries per second together, its second has a client with 2 queries per second. *)
  Definition files (f : string) : option (list string) :=
    if String.eqb f "w.sql" then Some ["BEGIN"; ""; "UPDATE t SET a=a+1"; ""; "COMMIT"] else PipeProps.files1 f.
  Definition xs : list C.trx := [C.Trx "r" "read.sql" [("d", PipeProps.d_int "")]; C.Trx "w" "w.sql" []].
  Definition gs : list C.cgroup :=
    [C.CGroup "2" "" false "" "" "" "a" "" "3" "" "" "" "" "2" ["w"];
     C.CGroup "" "" false "" "" "" "a" "2" "" "" "" "" "" "2" ["w"; "r"]].
  Definition stage : C.stage :=
    C.Stage (C.Compute false "") false "" "s" C.empty_mysql 0 [] "5" "" (C.Stats None "" []) "" xs gs.
  Definition out := match C.load LoopProps.ExL.E ConfigProps.no_base [ConfigProps.file stage] [] "" "" with
    | Some cs => match P.load_stages (PipeProps.P1 files) cs [] with
                 | Some l => match P.prepare_run (PipeProps.P1 files) l with Some (_, [o]) => o | _ => [] end
                 | None => [] end
    | None => [] end.
  Definition cs := map snd (labelled out).

  (** The limiters of the clients. *)
  Fixpoint nodes (r : rate) : list (nat * nkind) :=
    match r with RLeaf id _ => [(id, KLeaf)] | RAnd id a b => nodes a ++ nodes b ++ [(id, KAnd (rid a) (rid b))] end.
  Definition all : list (nat * nkind) :=
    concat (map (fun c => concat (map (fun q => match limiter q c with Some r => nodes r | None => [] end) [false; true])) cs).
  Definition nw : net := fun x => option_map snd (find (fun y => Nat.eqb (fst y) x) all).

  (** Every half second, starting at once: all leaves tick, all And nodes take what they can, and all clients make
      the steps they can, in alternating order. *)
  Definition ids (k : nkind -> bool) : list nat := nodup Nat.eq_dec (map fst (filter (fun y => k (snd y)) all)).
  Definition ticks_round : list (pst Z -> pevent Z) :=
    map (fun x _ => PLim (QTick x)) (ids (fun k => match k with KLeaf => true | _ => false end)).
  Definition takes_round : list (pst Z -> pevent Z) :=
    concat (map (fun x => [fun _ => PLim (QTakeA x); fun _ => PLim (QTakeB x)]) (ids (fun k => match k with KLeaf => false | _ => true end))).
  Definition client_round (i : nat) : list (pst Z -> pevent Z) :=
    [fun _ => PPermit false i; fun _ => PPermit true i;
     fun st => match nth_error (l_cls (p_loop st)) i with
               | Some k => match l_pc k with PcDone => PLoop i (LCheck) | _ => PLoop i (LoopProps.ExL.next k false) end
               | None => PLoop i LCheck end].
  Definition clients_round : list (pst Z -> pevent Z) := concat (map client_round (seq 0 (length cs))).
  Fixpoint drive (t : Z) (l : list (pst Z -> pevent Z)) (st : pst Z) : pst Z * list (Z * pevent Z) :=
    match l with
    | [] => (st, [])
    | f :: l' => match pace_step nw st (f st) with
                 | Some (st', _) => let '(st2, tr) := drive t l' st' in (st2, (t, f st) :: tr)
                 | None => drive t l' st end
    end.
  Definition rep {A} (n : nat) (l : list A) : list A := concat (repeat l n).
  Fixpoint rounds (n : nat) (t : Z) (st : pst Z) : pst Z * list (Z * pevent Z) :=
    match n with
    | O => (st, [])
    | S n' => let steps := if Nat.even n then ticks_round ++ takes_round ++ rep 5 clients_round
                           else ticks_round ++ rev takes_round ++ rep 5 (concat (map client_round (rev (seq 0 (length cs))))) in
              let '(st1, tr1) := drive t steps st in
              let '(st2, tr2) := rounds n' (t + 500000000)%Z st1 in (st2, tr1 ++ tr2)
    end.
  Definition tr (n : nat) := snd (rounds n 0 (pace_init cs)).
  Definition evs (n : nat) := match pace_run nw (pace_init cs) (map snd (tr n)) with Some (_, e) => e | None => [] end.
End ExP.

Fixpoint spacedb (x : nat) (gap : Z) (last : option Z) (tr : list (Z * qevent)) : bool :=
  match tr with
  | [] => true
  | (t, e) :: tr' =>
    if is_tick x e then (match last with None => true | Some l => (l + gap <=? t)%Z end && spacedb x gap (Some t) tr')%bool
    else spacedb x gap last tr'
  end.
Lemma spacedb_ok x gap tr : forall last, spacedb x gap last tr = true -> spaced x gap last tr.
Proof.
  induction tr as [|[t e] tr IH]; intros last; cbn [spacedb spaced]; [auto|]. destruct (is_tick x e); [|apply IH].
  rewrite andb_true_iff. intros (A & B). split; [|now apply IH]. destruct last; [now apply Z.leb_le|exact Logic.I].
Qed.
Lemma rates_keptb {V} cs (tr : list (Z * pevent V)) :
  forallb (fun c => forallb (fun q => forallb (fun y => spacedb (fst y) (10 ^ 9 / Z.of_N (snd y)) None (limiter_steps tr)) (leaves_of (limiter q c))) [true; false]) cs = true ->
  rates_kept cs tr.
Proof.
  intros H q c x n I L. rewrite forallb_forall in H. specialize (H c I). rewrite forallb_forall in H. specialize (H q).
  rewrite forallb_forall in H. apply spacedb_ok. apply (H ltac:(destruct q; cbn; auto) (x, n) L).
Qed.
Fixpoint withinb {V} (t0 t1 : Z) (tr : list (Z * pevent V)) : bool :=
  match tr with [] => (t0 <=? t1)%Z | (t, _) :: tr' => ((t0 <=? t)%Z && withinb t t1 tr')%bool end.
Lemma withinb_ok {V} t1 (tr : list (Z * pevent V)) : forall t0, withinb t0 t1 tr = true -> within t0 t1 tr.
Proof.
  induction tr as [|[t e] tr IH]; intros t0; cbn [withinb within]; [apply Z.leb_le|]. rewrite andb_true_iff, Z.leb_le. intros (A & B). auto.
Qed.
Lemma presentb nw cs : forallb (fun c => forallb (fun q => match limiter q c with
    | Some r => forallb (fun y => match nw (fst y), snd y with Some KLeaf, KLeaf => true
                                  | Some (KAnd a b), KAnd a' b' => (Nat.eqb a a' && Nat.eqb b b')%bool | _, _ => false end) (ExP.nodes r)
    | None => true end) [true; false]) cs = true -> limiters_in nw cs.
Proof.
  intros H q c r I L. rewrite forallb_forall in H. specialize (H c I). rewrite forallb_forall in H. specialize (H q ltac:(destruct q; cbn; auto)).
  rewrite L in H. clear L I. induction r as [id n|id a IHa b IHb]; cbn [ExP.nodes present] in *.
  - cbn in H. destruct (nw id) as [[|]|]; try discriminate. reflexivity.
  - rewrite !forallb_app, !andb_true_iff in H. destruct H as (A & B & D). split; [|split; auto]. cbn in D.
    destruct (nw id) as [[|x y]|]; try discriminate. rewrite !andb_true_iff in D. destruct D as ((D1 & D2) & _). apply Nat.eqb_eq in D1, D2. congruence.
Qed.

(** Seven half seconds of three clients, with a limit of each kind. *)
Example C117_example : exists c set st evs,
  LoopProps.configured LoopProps.ExL.E ConfigProps.no_base [ConfigProps.file ExP.stage] [] "" "" (PipeProps.P1 ExP.files) 0 c set ExP.out /\
  limiters_in ExP.nw (map snd (labelled ExP.out)) /\
  pace_run ExP.nw (pace_init (map snd (labelled ExP.out))) (map snd (ExP.tr 7)) = Some (st, evs) /\
  within 0 3000000000 (ExP.tr 7) /\ rates_kept (map snd (labelled ExP.out)) (ExP.tr 7) /\
  (file_limit c ExP.out true (fun _ _ _ => true) 5 /\ executions true (labelled ExP.out) (fun _ _ _ => true) evs = 7%Z) /\
  (file_limit c ExP.out false (fun e _ _ => Nat.eqb e 0) 2 /\ executions false (labelled ExP.out) (fun e _ _ => Nat.eqb e 0) evs = 2%Z) /\
  (file_limit c ExP.out true (fun e g _ => Nat.eqb e 0 && Nat.eqb g 0)%bool 3 /\
   executions true (labelled ExP.out) (fun e g _ => Nat.eqb e 0 && Nat.eqb g 0)%bool evs = 3%Z) /\
  (file_limit c ExP.out true (fun _ _ j => Nat.eqb j 2) 2 /\ executions true (labelled ExP.out) (fun _ _ j => Nat.eqb j 2) evs = 4%Z) /\
  at_most 2 0 3000000000 = 7%Z /\ at_most 5 0 3000000000 = 16%Z.
Proof.
  do 4 eexists. split.
  { do 4 eexists. split; [vm_compute; reflexivity|]. split; [repeat constructor|]. split; [vm_compute; reflexivity|].
    split; [vm_compute; reflexivity|]. split; reflexivity. }
  split; [apply presentb; vm_compute; reflexivity|]. split; [vm_compute; reflexivity|].
  split; [apply withinb_ok; vm_compute; reflexivity|]. split; [apply rates_keptb; vm_compute; reflexivity|].
  split; [split; [apply FLStage, (LoopProps.decimal_one "5"); unfold CS.digit; vm_compute; lia|vm_compute; reflexivity]|].
  split; [split; [eapply FLExecGroup; [reflexivity|apply (LoopProps.decimal_one "2"); unfold CS.digit; vm_compute; lia]|vm_compute; reflexivity]|].
  split; [split; [eapply FLClients; [reflexivity|apply (LoopProps.decimal_one "3"); unfold CS.digit; vm_compute; lia]|vm_compute; reflexivity]|].
  split; [split; [eapply (FLClient _ _ _ 2 0 1); [vm_compute; reflexivity|reflexivity|apply (LoopProps.decimal_one "2"); unfold CS.digit; vm_compute; lia]|vm_compute; reflexivity]|].
  split; vm_compute; reflexivity.
Qed.

(** The last three half seconds of such a run. *)
Example C118_example : exists c set st1 evs1 st2 evs,
  LoopProps.configured LoopProps.ExL.E ConfigProps.no_base [ConfigProps.file ExP.stage] [] "" "" (PipeProps.P1 ExP.files) 0 c set ExP.out /\
  limiters_in ExP.nw (map snd (labelled ExP.out)) /\
  file_limit c ExP.out false (fun e _ _ => Nat.eqb e 0) 2 /\
  pace_run ExP.nw (pace_init (map snd (labelled ExP.out))) (map snd (ExP.tr 8)) = Some (st1, evs1) /\
  (let tr := snd (ExP.rounds 3 4000000000 st1) in
   pace_run ExP.nw st1 (map snd tr) = Some (st2, evs) /\ within 4000000000 5000000000 tr /\ rates_kept (map snd (labelled ExP.out)) tr) /\
  executions false (labelled ExP.out) (fun e _ _ => Nat.eqb e 0) evs = 1%Z /\ at_most 2 4000000000 5000000000 = 3%Z.
Proof.
  do 6 eexists. split.
  { do 4 eexists. split; [vm_compute; reflexivity|]. split; [repeat constructor|]. split; [vm_compute; reflexivity|].
    split; [vm_compute; reflexivity|]. split; reflexivity. }
  split; [apply presentb; vm_compute; reflexivity|].
  split; [eapply FLExecGroup; [reflexivity|apply (LoopProps.decimal_one "2"); unfold CS.digit; vm_compute; lia]|].
  split; [vm_compute; reflexivity|].
  split; [split; [vm_compute; reflexivity|split; [apply withinb_ok; vm_compute; reflexivity|apply rates_keptb; vm_compute; reflexivity]]|].
  split; vm_compute; reflexivity.
Qed.

(** Client 1 has executed nothing; it is about to execute BEGIN, has got its TPS permit and waits for QPS. *)
Example C119_example : exists c set st evs k s,
  LoopProps.configured LoopProps.ExL.E ConfigProps.no_base [ConfigProps.file ExP.stage] [] "" "" (PipeProps.P1 ExP.files) 0 c set ExP.out /\
  limiters_in ExP.nw (map snd (labelled ExP.out)) /\
  pace_run ExP.nw (pace_init (map snd (labelled ExP.out))) (map snd (ExP.tr 7)) = Some (st, evs) /\
  nth_error (l_cls (p_loop st)) 1 = Some k /\ at_query k = Some s /\ st_begin s = true /\
  p_tps st 1 = true /\ p_qps st 1 = false /\ q_buf (p_q st) 4 = false /\ length (filter (fun x => Nat.eqb (fst x) 1 && is_exec (snd x))%bool evs) = 0%nat.
Proof.
  do 6 eexists. split.
  { do 4 eexists. split; [vm_compute; reflexivity|]. split; [repeat constructor|]. split; [vm_compute; reflexivity|].
    split; [vm_compute; reflexivity|]. split; reflexivity. }
  split; [apply presentb; vm_compute; reflexivity|]. split; [vm_compute; reflexivity|]. split; [vm_compute; reflexivity|].
  split; [vm_compute; reflexivity|]. split; [reflexivity|]. split; [vm_compute; reflexivity|]. split; [vm_compute; reflexivity|].
  split; vm_compute; reflexivity.
Qed.
