(** C114-C116: how often clients execute their queries. *)
From Verif Require Import Prelude ListAux ScopeModel StmtModel WorkloadModel WorkloadSpec ClientModel ClientSpec.
From Verif Require Import IterModel IterSpec IterProofs LoopModel LoopSpec LoopProofs LoopCountProofs.
From Verif Require ClientConnProofs.
From Verif Require ConfigModel ConfigSpec ConfigProofs ConfigProps TrxModel PipeModel PipeProofs PipeKeyProofs PipeRunProofs PipeProps.
Module C := ConfigModel.
Module CS := ConfigSpec.
Module T := TrxModel.
Module P := PipeModel.
#[local] Open Scope string_scope.
#[local] Open Scope list_scope.

(** ** C114: a client's executions are iterations over its queries *)

(** The executions are consecutive iterations, numbered from 1 and counted by the client; each executes the
    queries of the client from the first one in order, and ends early only after a failure or
    at the end of the client's run. *)
Theorem C114_iterations : forall V c inps (st : cst V) pc evs,
  client_run c inps = Some (st, pc, evs) ->
  exists its, execs evs = concat its /\ N.of_nat (length its) = rc_iter (s_rc st) /\
    forall k it, nth_error its k = Some it -> exists rest,
      iteration c (N.of_nat (S k)) it rest /\
      (rest <> [] ->
       (S k < length its)%nat \/ pc = PcIter \/ (no_data_limit c /\ reached_limit evs) -> ends_failed it).
Proof.
  intros V c inps st pc evs R. destruct (executions_run c _ _ _ _ R) as ((its & L & E & X) & ND).
  exists its. split; [exact E|]. split; [exact L|].
  assert (CL : numbered (closed c) its -> forall k it, nth_error its k = Some it -> exists rest,
      iteration c (N.of_nat (S k)) it rest /\
      (rest <> [] -> (S k < length its)%nat \/ pc = PcIter \/ (no_data_limit c /\ reached_limit evs) -> ends_failed it)).
  { intros H k it Hk. destruct (H k it Hk) as (rest & I & F). eauto. }
  assert (LAST : forall its0 it, its = its0 ++ [it] -> numbered (closed c) its0 ->
      (exists rest, iteration c (rc_iter (s_rc st)) it rest) -> pc <> PcIter ->
      ~ (no_data_limit c /\ reached_limit evs) ->
      forall k it, nth_error its k = Some it -> exists rest,
      iteration c (N.of_nat (S k)) it rest /\
      (rest <> [] -> (S k < length its)%nat \/ pc = PcIter \/ (no_data_limit c /\ reached_limit evs) -> ends_failed it)).
  { intros its0 it -> H (rest & I) NP NL k it' Hk. rewrite app_length in *. cbn [length] in *.
    destruct (Nat.lt_ge_cases k (length its0)) as [Lt|Ge].
    - rewrite nth_error_app1 in Hk by auto. destruct (H k it' Hk) as (rest' & I' & F). eauto.
    - rewrite nth_error_app2 in Hk by auto. destruct (k - length its0)%nat as [|m] eqn:D; [|destruct m; discriminate].
      injection Hk as <-. assert (k = length its0) as -> by lia. exists rest. split.
      + replace (N.of_nat (S (length its0))) with (rc_iter (s_rc st)); [exact I|]. rewrite <- L. f_equal. lia.
      + intros _ [Z|[Z|Z]]; [lia|congruence|tauto]. }
  assert (RL : reached_limit evs -> pc = PcDone).
  { intros (r & Hr). destruct pc; auto; exfalso; (assert (Z : Forall (fun e => is_done e = false) evs) by (apply ND; discriminate));
      rewrite Forall_forall in Z; specialize (Z _ Hr); discriminate. }
  destruct pc as [| |i|].
  - subst its. intros k it Hk. destruct k; discriminate.
  - auto.
  - destruct X as (Li & its0 & it & E0 & H & O). apply (LAST its0 it E0 H); [|discriminate|intros (_ & Z); specialize (RL Z); discriminate].
    eexists. eapply open_iteration; [|exact O]. lia.
  - destruct X as (A & B).
    assert (D : numbered (closed c) its \/ ~ (no_data_limit c /\ reached_limit evs)).
    { assert (DL : {no_data_limit c} + {~ no_data_limit c}) by (apply Forall_dec; intros s; destruct (st_limit s); [right|left]; congruence).
      assert (DR : {reached_limit evs} + {~ reached_limit evs}).
      { clear. induction evs as [|e evs IH]; [right; intros (r & [])|]. 
        assert (DE : {exists r, e = EvDone StopLimit r} + {~ exists r, e = EvDone StopLimit r}).
        { destruct e; try (right; intros (r & Z); discriminate). destruct s; try (right; intros (r & Z); discriminate). left; eauto. }
        destruct DE as [DE|DE]; [left; destruct DE as (r & ->); exists r; now left|].
        destruct IH as [IH|IH]; [left; destruct IH as (r & ?); exists r; now right|].
        right. intros (r & [Z|Z]); [apply DE; eauto|apply IH; exists r; auto]. }
      destruct DL as [DL|DL]; [|tauto]. destruct DR as [DR|DR]; [|tauto]. left. auto. }
    destruct D as [D|D]; [auto|]. destruct A as [->|(its0 & it & rest & E0 & H & I)].
    + intros k it Hk. destruct k; discriminate.
    + apply (LAST its0 it E0 H); eauto. discriminate.
Qed.
Print Assumptions C114_iterations.

(** ** C115: iter, from the configuration file *)

(** Stage number [a] of the run is the accepted configuration [c] with loaded trx [set], and its
    allocated clients are [out]. *)
Definition configured E bases fs kvs dsn db P a c set (out : list (list (list client))) : Prop :=
  exists cs l w outs, C.load E bases fs kvs dsn db = Some cs /\ Forall (fun c => C.s_disable c = false) cs /\
    P.load_stages P cs [] = Some l /\ P.prepare_run P l = Some (w, outs) /\
    nth_error l a = Some (c, set) /\ nth_error outs a = Some out.

(** Client group [g] of exec group [e] is [grp] in the file. *)
Definition group_at (c : C.stage) (out : list (list (list client))) (e g : nat) (grp : C.cgroup) : Prop :=
  nth_error (C.s_workload c) (list_sum (map (@length _) (firstn e out)) + g) = Some grp.

Definition unset (s : string) : Prop := s = "" \/ CS.decimal s 0.
Definition trx_names (c : C.stage) (grp : C.cgroup) : list string :=
  match C.g_trx grp with [] => map C.x_name (C.s_trx c) | l => l end.

Lemma unset_uint s : unset s -> P.uint s = 0%N.
Proof. intros [->|H]; [reflexivity|]. apply PipeProps.uint_decimal; [exact H|lia]. Qed.

Lemma decimal_fits s n : ConfigProps.number_ok s -> CS.decimal s n -> (n < 2 ^ 32)%N.
Proof.
  intros [->|(m & M & L)] D; [now apply PipeProps.decimal_ne in D|]. now rewrite (PipeProps.decimal_fun _ _ _ D M).
Qed.


Lemma config_facts E bases fs kvs dsn db Pe a c set out : configured E bases fs kvs dsn db Pe a c set out ->
  let ts := P.trxset_of (P.pe_lid Pe) set in
  exists ws n wl0 qn tn w1 w2 wl gs, allocate ts ws n wl0 qn tn w1 = Some (w2, out) /\ groups ts wl0 = Some (wl, gs) /\
    no_empty_trx ts wl /\ map (@length _) out = map (@length _) gs /\
    (forall e css g cls grp, nth_error out e = Some css -> nth_error css g = Some cls -> group_at c out e g grp ->
       exists name, cg_at wl gs e g = Some (cg_with (P.cgcfg_of grp) name (trx_names c grp)
         (if existsb (PipeProps.ddl_trx set) (trx_names c grp) && (P.uint (C.g_iter grp) =? 0)%N then 1%N else P.uint (C.g_iter grp))%bool) /\
       (forall cl, In cl cls -> c_stmts cl = concat (map (ts_stmts ts) (trx_names c grp)))) /\
    (C.s_workload c <> [] -> list_sum (map (@length _) out) = length (C.s_workload c)) /\
    (forall grp, In grp (C.s_workload c) ->
       ConfigProps.number_ok (C.g_iter grp) /\ ConfigProps.number_ok (C.g_iter_c grp) /\ ConfigProps.number_ok (C.g_iter_x grp)).
Proof.
  intros (cs & l & w & outs & L & D & H & PR & Ha & Ho) ts.
  destruct (PipeProps.stage_facts _ _ _ _ _ _ _ _ _ _ _ a c set out L D H PR Ha Ho) as (keys0 & w1 & w2 & TN & NK & LS & PS & IN & NA).
  destruct (PipeRunProofs.group_config Pe c keys0 set LS NK TN _ _ _ PS) as (wl & gs & G & NE & SH & CG).
  assert (AL := PS). unfold prepare_stage in AL. do 6 eexists. exists w2, wl, gs. split; [exact AL|]. split; [exact G|]. split; [exact NE|]. split; [exact SH|]. split; [|split].
  - intros e css g cls grp He Hg Hgrp. destruct (CG e css g cls grp He Hg Hgrp) as (name & X). exists name. split.
    + fold (trx_names c grp) in X. rewrite X. do 2 f_equal.
      replace (has_ddl (P.trxset_of (P.pe_lid Pe) set) (trx_names c grp)) with (existsb (PipeProps.ddl_trx set) (trx_names c grp)); [reflexivity|].
      clear. induction (trx_names c grp) as [|n ns IH]; [reflexivity|]. cbn [existsb has_ddl]. rewrite IH. unfold PipeProps.ddl_trx. cbn.
      destruct (C.sget n (T.t_ddl set)) as [[]|]; reflexivity.
    + intros cl Hc. exact (PipeRunProofs.client_trx Pe c keys0 set LS NK TN _ _ _ _ _ _ _ _ _ PS He Hg Hc Hgrp).
  - intros NW. exact (PipeRunProofs.all_groups Pe c keys0 set LS NK TN _ _ _ PS NW).
  - intros grp Hg. rewrite Forall_forall in D.
    destruct (ConfigProps.C65_accepted_partial _ _ _ _ _ _ _ c L IN (D c IN)) as (_ & _ & _ & _ & NUM & _).
    destruct (NUM grp Hg) as (_ & NO & _). rewrite Forall_forall in NO. repeat split; apply NO; cbn; auto.
Qed.

Lemma labelled_at out j e g cl : nth_error (labelled out) j = Some (e, g, cl) ->
  exists css cls, nth_error out e = Some css /\ nth_error css g = Some cls /\ In cl cls.
Proof.
  intros H. apply nth_error_In, labelled_in in H as (k & H). unfold client_at in H.
  destruct (nth_error out e) as [css|] eqn:X; [|discriminate]. destruct (nth_error css g) as [cls|] eqn:Y; [|discriminate].
  exists css, cls. split; [reflexivity|]. split; [exact Y|]. eapply nth_error_In; eauto.
Qed.
Lemma at_labelled (out : list (list (list client))) e g css cls cl : nth_error out e = Some css -> nth_error css g = Some cls -> In cl cls ->
  In (e, g, cl) (labelled out).
Proof.
  intros A B I. apply In_nth_error in I as (k & I). apply labelled_in. exists k. unfold client_at. now rewrite A, B.
Qed.

(** The texts of the trx files, without idle times. *)
Definition file_queries (Pe : P.penv) (c : C.stage) (names : list string) (qss : list (list string)) : Prop :=
  Forall2 (fun name qs => exists x ls keys ss f, In x (C.s_trx c) /\ C.x_name x = name /\
      P.pe_read Pe (C.s_file c) (C.x_file x) = Some ls /\
      T.load_file (P.tenv_of Pe c) name ls keys (C.x_data x) = Some (ss, f) /\
      qs = map T.p_query (filter (fun s => (T.p_idle s =? 0)%Z) ss)) names qss.

Lemma queries_of_files E bases fs kvs dsn db Pe a c set out e css g cls cl grp : configured E bases fs kvs dsn db Pe a c set out ->
  NoDup (map C.x_name (C.s_trx c)) -> nth_error out e = Some css -> nth_error css g = Some cls -> group_at c out e g grp -> In cl cls ->
  exists qss, file_queries Pe c (trx_names c grp) qss /\
    map st_query (filter (fun s => negb (is_idle s)) (c_stmts cl)) = concat qss.
Proof.
  intros (cs & l & w & outs & L & D & H & PR & Ha & Ho) ND He Hg Hgrp Hc.
  destruct (PipeProps.stage_facts _ _ _ _ _ _ _ _ _ _ _ a c set out L D H PR Ha Ho) as (keys0 & w1 & w2 & TN & NK & LS & PS & IN & NA).
  rewrite (PipeRunProofs.client_trx Pe c keys0 set LS NK TN _ _ _ _ _ _ _ _ _ PS He Hg Hc Hgrp). fold (trx_names c grp).
  assert (NM : forall n, In n (trx_names c grp) -> In n (map C.x_name (C.s_trx c))).
  { intros n Hn. unfold trx_names in Hn. destruct (C.g_trx grp) as [|t ts] eqn:G; [auto|]. rewrite <- G in Hn.
    destruct (TN grp n (nth_error_In _ _ Hgrp) Hn) as (x & Hx & <-). now apply in_map. }
  unfold P.load_stage in LS. apply TrxLineProofs.load_trx_spec in LS as (_ & _ & LS & _); [|exact ND|reflexivity].
  clear - NM LS. induction (trx_names c grp) as [|n names IH].
  - exists []. split; [constructor|reflexivity].
  - destruct IH as (qss & A & B); [intros; apply NM; now right|].
    pose proof (NM n (or_introl eq_refl)) as Hn. apply in_map_iff in Hn as (x & <- & Hx).
    destruct (LS x Hx) as (ls & keys & ss & f & R & F & S & _).
    exists (map T.p_query (filter (fun s => (T.p_idle s =? 0)%Z) ss) :: qss). split.
    + constructor; [|exact A]. exists x, ls, keys, ss, f. auto.
    + cbn [map concat]. rewrite filter_app, map_app, B. f_equal. cbn [P.trxset_of ts_stmts]. rewrite S.
      generalize (P.pe_lid Pe (C.x_name x)) as lid, 0%nat as i. clear. intros lid. induction ss as [|p ss IH]; intros i; [reflexivity|].
      cbn [P.stmts_of filter]. unfold is_idle at 1. cbn [P.stmt_of st_idle]. rewrite negb_involutive.
      destruct (T.p_idle p =? 0)%Z; cbn [map]; now rewrite IH.
Qed.

(** A client of a group with iter N executes each of its queries at most N times.  If N is the only limit of the group
    and the client stops because of it: the first one exactly N times, and without failures, N times the queries of
    its trx files in order, and nothing else. *)
Theorem C115_iter : forall V E bases fs kvs dsn db Pe a c set out sched (st : lst V) tr j e g cl grp n,
  configured E bases fs kvs dsn db Pe a c set out ->
  loop_run (loop_init (map snd (labelled out))) sched = Some (st, tr) ->
  nth_error (labelled out) j = Some (e, g, cl) -> group_at c out e g grp ->
  CS.decimal (C.g_iter grp) n -> n <> 0%N ->
  (forall q, (times q (events_of j tr) <= n)%N) /\
  (unset (C.g_iter_c grp) -> unset (C.g_iter_x grp) -> no_data_limit cl -> reached_limit (events_of j tr) ->
     (queries cl <> [] -> starts cl (events_of j tr) = n) /\
     (no_failure (events_of j tr) ->
        map ex_stmt (execs (events_of j tr)) = concat (repeat (queries cl) (N.to_nat n)) /\
        (NoDup (map C.x_name (C.s_trx c)) -> exists qss, file_queries Pe c (trx_names c grp) qss /\
           executed cl (events_of j tr) = concat (repeat (concat qss) (N.to_nat n))))).
Proof.
  intros V E bases fs kvs dsn db Pe a c set out sched st tr j e g cl grp n CF R J G DN NZ.
  destruct (labelled_at _ _ _ _ _ J) as (css & cls & He & Hg & Hc).
  destruct (config_facts _ _ _ _ _ _ _ _ _ _ _ CF) as (ws & sn & wl0 & qn & tn & w1 & w2 & wl & gs & HA & HG & NE & SH & CG & _ & NUM).
  destruct (CG e css g cls grp He Hg G) as (name & X & _). destruct (NUM grp (nth_error_In _ _ G)) as (N1 & N2 & N3).
  pose proof (decimal_fits _ _ N1 DN) as LT.
  assert (U : P.uint (C.g_iter grp) = n) by (apply PipeProps.uint_decimal; [exact DN|lia]). rewrite U in X.
  destruct (N.eqb_spec n 0) as [Z|_]; [congruence|]. rewrite andb_false_r in X.
  pose proof (nth_error_In _ _ J) as JI.
  pose proof (lab_iter _ _ _ _ _ _ _ _ _ _ _ HA HG _ _ _ _ NE JI X) as CI. cbn [cg_with cg_iter] in CI.
  assert (JC : nth_error (map snd (labelled out)) j = Some cl) by (now rewrite nth_error_map, J).
  destruct (loop_has _ _ _ _ _ _ R JC) as (k & K & KC).
  destruct (sim_run _ _ _ _ R) as (_ & ONE & isched & ist & IR & _ & LEN & SAME & _).
  destruct (ONE j k K) as ((inps & CR) & LIM). rewrite KC in CR, LIM.
  destruct (nth_error (is_cls ist) j) as [x|] eqn:IX.
  2:{ apply nth_error_None in IX. rewrite LEN in IX. apply nth_error_None in IX. congruence. }
  destruct (SAME j k x K IX) as (S1 & S2 & _). rewrite KC in S1.
  destruct (count_run cl _ _ _ _ CR) as (LE & EQ). split.
  - intros q. pose proof (own_limit _ _ _ IR) as OL. rewrite Forall_forall in OL.
    specialize (OL x (nth_error_In _ _ IX)). rewrite S1, CI in OL. specialize (LE q). lia.
  - intros U1 U2 DL RL. destruct (EQ DL RL) as (A & B).
    destruct (lab_cfg _ _ _ _ _ _ _ _ _ _ _ HA HG _ _ _ JI) as (cg & X' & Y1 & _ & Y2 & _).
    rewrite X in X'. injection X' as <-. cbn [cg_with cg_iterClients cg_iterExecGroup P.cgcfg_of] in Y1, Y2.
    rewrite (unset_uint _ U1) in Y1. rewrite (unset_uint _ U2) in Y2.
    destruct (LIM DL Y2 Y1 RL) as (_ & RC). rewrite CI in RC. rewrite RC in A, B. split; [exact A|].
    intros NF. destruct (B NF) as (M & _). split; [exact M|]. intros ND.
    destruct (queries_of_files _ _ _ _ _ _ _ _ _ _ _ _ _ _ _ _ _ CF ND He Hg G Hc) as (qss & Q1 & Q2).
    exists qss. split; [exact Q1|]. rewrite (executed_repeat _ _ _ M), Q2. reflexivity.
Qed.
Print Assumptions C115_iter.

(** ** C116: iter-clients and iter-exec-group, from the configuration file *)

Lemma done_unique V c inps (st : cst V) pc evs s r s' r' : client_run c inps = Some (st, pc, evs) ->
  In (EvDone s r) evs -> In (EvDone s' r') evs -> s = s'.
Proof.
  intros R H H'. pose proof (ClientConnProofs.done_run c _ _ _ _ R) as D. destruct pc; cbn in D;
    try (exfalso; eapply ClientConnProofs.done_not_in; eauto; fail).
  destruct D as (l & s0 & -> & D).
  assert (U : forall s r, In (EvDone s r) (l ++ [EvDone s0 (reported s0)]) -> s = s0).
  { intros s1 r1 [I|[I|[]]]%in_app_or; [exfalso; eapply ClientConnProofs.done_not_in; eauto|congruence]. }
  rewrite (U _ _ H). symmetry. eapply U; eauto.
Qed.

(** A run seen as a run of the loop heads. *)
Lemma as_iterations V out sched (st : lst V) tr : loop_run (loop_init (map snd (labelled out))) sched = Some (st, tr) ->
  exists isched ist, clients_run out isched = Some ist /\ length (is_cls ist) = length (labelled out) /\
    (forall j e g cl x, nth_error (labelled out) j = Some (e, g, cl) -> nth_error (is_cls ist) j = Some x ->
       (forall q, (times q (events_of j tr) <= ic_n x)%N) /\
       (no_data_limit cl -> reached_limit (events_of j tr) ->
          ic_ph x = Finished /\ (queries cl <> [] -> starts cl (events_of j tr) = ic_n x) /\
          (no_failure (events_of j tr) -> forall q, In q (queries cl) -> times q (events_of j tr) = ic_n x))) /\
    (forall sel, (forall j e g cl, nth_error (labelled out) j = Some (e, g, cl) -> sel e g = true ->
        no_data_limit cl /\ reached_limit (events_of j tr)) -> undisturbed sel (labelled out) isched).
Proof.
  intros R. destruct (sim_run _ _ _ _ R) as (CS & ONE & isched & ist & IR & _ & LEN & SAME & OT).
  assert (LL : length (l_cls st) = length (labelled out)) by (rewrite <- (map_length l_c), CS; apply map_length).
  assert (NOT : forall j e g cl k, nth_error (labelled out) j = Some (e, g, cl) -> nth_error (l_cls st) j = Some k -> l_c k = cl).
  { intros j e g cl k J K. assert (X : nth_error (map l_c (l_cls st)) j = Some (l_c k)) by (now rewrite nth_error_map, K).
    rewrite CS, nth_error_map, J in X. cbn in X. congruence. }
  assert (CONTRA : forall j e g cl k, nth_error (labelled out) j = Some (e, g, cl) -> nth_error (l_cls st) j = Some k ->
      no_data_limit cl -> reached_limit (events_of j tr) -> ~ other_stop (l_c k) (events_of j tr)).
  { intros j e g cl k J K DL (r & RL) (s & r' & O & Z). destruct (ONE j k K) as ((inps & CR) & _).
    rewrite (NOT _ _ _ _ _ J K) in *. rewrite (done_unique _ _ _ _ _ _ _ _ _ _ CR O RL) in Z. tauto. }
  exists isched, ist. split; [exact IR|]. split; [congruence|]. split.
  - intros j e g cl x J X. destruct (nth_error (l_cls st) j) as [k|] eqn:K.
    2:{ apply nth_error_None in K. assert (j < length (labelled out))%nat by (apply nth_error_Some; congruence). lia. }
    destruct (SAME j k x K X) as (_ & S2 & PH). destruct (ONE j k K) as ((inps & CR) & _).
    pose proof (NOT _ _ _ _ _ J K) as KC. rewrite S2. rewrite KC in CR. destruct (count_run cl _ _ _ _ CR) as (LE & EQ). split; [exact LE|].
    intros DL RL. destruct (EQ DL RL) as (A & B). split; [|split; [exact A|intros NF; exact (proj2 (B NF))]].
    assert (PD : l_pc k = PcDone).
    { destruct RL as (r & RL). pose proof (ClientConnProofs.done_run cl _ _ _ _ CR) as D. destruct (l_pc k); cbn in D; auto;
        exfalso; eapply ClientConnProofs.done_not_in; eauto. }
    unfold phase in PH. rewrite PD in PH. destruct PH as [PH|(_ & PH)]; [exact PH|]. exfalso. eapply CONTRA; eauto.
  - intros sel AL i b e g cl I J S. destruct b; [|reflexivity]. exfalso. destruct (OT i I) as (k & K & _ & O).
    destruct (AL i e g cl J S) as (DL & RL). eapply CONTRA; eauto.
Qed.

(** The clients of a group with iter-clients N together execute each query at most N times, and if N is the only limit and all of
    them stop because of it, the first query exactly N times, and without failures every one of their queries. *)
Theorem C116_iter_clients : forall V E bases fs kvs dsn db Pe a c set out sched (st : lst V) tr e g css cls grp n,
  configured E bases fs kvs dsn db Pe a c set out ->
  loop_run (loop_init (map snd (labelled out))) sched = Some (st, tr) ->
  nth_error out e = Some css -> nth_error css g = Some cls -> group_at c out e g grp ->
  CS.decimal (C.g_iter_c grp) n -> n <> 0%N -> (n + N.of_nat (length cls) < 2 ^ 32)%N ->
  (forall q, (total (one_group e g) (fun _ => times q) (labelled out) 0 tr <= n)%N) /\
  (unset (C.g_iter grp) -> unset (C.g_iter_x grp) -> existsb (PipeProps.ddl_trx set) (trx_names c grp) = false ->
   (forall j cl, nth_error (labelled out) j = Some (e, g, cl) -> no_data_limit cl /\ reached_limit (events_of j tr)) ->
   forall cl, In cl cls ->
     (forall q qs, queries cl = q :: qs -> total (one_group e g) (fun _ => times q) (labelled out) 0 tr = n) /\
     ((forall j cl, nth_error (labelled out) j = Some (e, g, cl) -> no_failure (events_of j tr)) ->
      forall q, In q (queries cl) -> total (one_group e g) (fun _ => times q) (labelled out) 0 tr = n)).
Proof.
  intros V E bases fs kvs dsn db Pe a c set out sched st tr e g css cls grp n CF R He Hg G DN NZ FIT.
  destruct (config_facts _ _ _ _ _ _ _ _ _ _ _ CF) as (ws & sn & wl0 & qn & tn & w1 & w2 & wl & gs & HA & HG & NE & SH & CG & _ & NUM).
  destruct (CG e css g cls grp He Hg G) as (name & X & ST). destruct (NUM grp (nth_error_In _ _ G)) as (N1 & N2 & N3).
  assert (U : P.uint (C.g_iter_c grp) = n) by (apply PipeProps.uint_decimal; [exact DN|lia]).
  match type of X with _ = Some ?y => set (cg := y) in X end.
  assert (Y : cg_iterClients cg = n) by exact U.
  rewrite <- (clients_of_group _ _ _ _ _ He Hg) in FIT.
  destruct (as_iterations _ _ _ _ _ R) as (isched & ist & IR & LEN & CL & UN).
  assert (SEL : forall e' g', one_group e g e' g' = true -> e' = e /\ g' = g).
  { intros e' g' S. unfold one_group in S. apply andb_true_iff in S as [S1 S2]. apply Nat.eqb_eq in S1, S2. auto. }
  split.
  - intros q. etransitivity; [apply (total_le _ _ _ _ (is_cls ist) 0 LEN)|].
    + intros j e' g' c' k J K S. cbn [Nat.add]. exact (proj1 (CL j e' g' c' k J K) q).
    + rewrite <- Y. apply (clients_limit _ _ _ _ _ _ _ _ _ _ _ HA HG _ _ _ isched _ X); rewrite ?Y; auto. lia.
  - intros U1 U2 DD AL cl Hc.
    assert (TOT : iterations (one_group e g) (labelled out) (is_cls ist) = n).
    { rewrite <- Y. apply (clients_limit_exact _ _ _ _ _ _ _ _ _ _ _ HA HG _ _ _ isched _ X); rewrite ?Y; auto.
      - lia.
      - exact (unset_uint _ U2).
      - intros c' I. rewrite (lab_iter _ _ _ _ _ _ _ _ _ _ _ HA HG _ _ _ _ NE I X). cbn [cg cg_with cg_iter]. rewrite DD. exact (unset_uint _ U1).
      - exists cl. eapply at_labelled; eauto.
      - apply UN. intros j e' g' c' J S. destruct (SEL _ _ S) as [-> ->]. auto.
      - intros j e' g' c' k J K S. destruct (SEL _ _ S) as [-> ->]. destruct (AL j c' J) as (DL & RL).
        exact (proj1 (proj2 (CL j _ _ c' k J K) DL RL)). }
    assert (QS : forall j c', nth_error (labelled out) j = Some (e, g, c') -> queries c' = queries cl).
    { intros j c' J. destruct (labelled_at _ _ _ _ _ J) as (css' & cls' & He' & Hg' & Hc').
      rewrite He in He'. injection He' as <-. rewrite Hg in Hg'. injection Hg' as <-. unfold queries.
      now rewrite (ST cl Hc), (ST c' Hc'). }
    split.
    + intros q qs Q. rewrite <- TOT. apply total_iterations; [exact LEN|]. intros j e' g' c' k J K S. cbn [Nat.add].
      destruct (SEL _ _ S) as [-> ->]. destruct (AL j c' J) as (DL & RL).
      destruct (proj2 (CL j _ _ c' k J K) DL RL) as (_ & A & _). rewrite <- A; [|rewrite (QS _ _ J), Q; discriminate].
      unfold starts. rewrite (QS _ _ J), Q. reflexivity.
    + intros NF q Q. rewrite <- TOT. apply total_iterations; [exact LEN|]. intros j e' g' c' k J K S. cbn [Nat.add].
      destruct (SEL _ _ S) as [-> ->]. destruct (AL j c' J) as (DL & RL).
      destruct (proj2 (CL j _ _ c' k J K) DL RL) as (_ & _ & B). apply B; [eauto|]. now rewrite (QS _ _ J).
Qed.
Print Assumptions C116_iter_clients.

(** If all client groups of an exec group set iter-exec-group to N, their clients together start at most N iterations
    (execute their first query at most N times), and exactly N if that is the only limit and all of them stop because of it. *)
Theorem C116_iter_exec_group : forall V E bases fs kvs dsn db Pe a c set out sched (st : lst V) tr e css n,
  configured E bases fs kvs dsn db Pe a c set out ->
  loop_run (loop_init (map snd (labelled out))) sched = Some (st, tr) ->
  nth_error out e = Some css -> C.s_workload c <> [] ->
  (forall g cls grp, nth_error css g = Some cls -> group_at c out e g grp -> CS.decimal (C.g_iter_x grp) n) ->
  n <> 0%N -> (n + N.of_nat (length (concat css)) < 2 ^ 32)%N ->
  (total (exec_group e) starts (labelled out) 0 tr <= n)%N /\
  ((forall g cls grp, nth_error css g = Some cls -> group_at c out e g grp ->
      unset (C.g_iter grp) /\ unset (C.g_iter_c grp) /\ existsb (PipeProps.ddl_trx set) (trx_names c grp) = false) ->
   concat css <> [] ->
   (forall j g cl, nth_error (labelled out) j = Some (e, g, cl) ->
      queries cl <> [] /\ no_data_limit cl /\ reached_limit (events_of j tr)) ->
   total (exec_group e) starts (labelled out) 0 tr = n).
Proof.
  intros V E bases fs kvs dsn db Pe a c set out sched st tr e css n CF R He NW DN NZ FIT.
  destruct (config_facts _ _ _ _ _ _ _ _ _ _ _ CF) as (ws & sn & wl0 & qn & tn & w1 & w2 & wl & gs & HA & HG & NE & SH & CG & AG & NUM).
  specialize (AG NW).
  assert (GRP : forall g cg, cg_at wl gs e g = Some cg -> exists cls grp name, nth_error css g = Some cls /\ group_at c out e g grp /\
    cg = cg_with (P.cgcfg_of grp) name (trx_names c grp)
         (if existsb (PipeProps.ddl_trx set) (trx_names c grp) && (P.uint (C.g_iter grp) =? 0)%N then 1%N else P.uint (C.g_iter grp))%bool).
  { intros g cg X. assert (XX := X). unfold cg_at in X. destruct (nth_error gs e) as [refs|] eqn:Ge; [|discriminate].
    destruct (nth_error refs g) as [r|] eqn:Gr; [|discriminate].
    assert (LE : length css = length refs).
    { assert (Z : nth_error (map (@length _) out) e = nth_error (map (@length _) gs) e) by now rewrite SH.
      rewrite !nth_error_map, He, Ge in Z. cbn in Z. congruence. }
    destruct (nth_error css g) as [cls|] eqn:Hg.
    2:{ apply nth_error_None in Hg. assert (g < length refs)%nat by (apply nth_error_Some; congruence). lia. }
    assert (IDX : (list_sum (map (@length _) (firstn e out)) + g < length (C.s_workload c))%nat).
    { rewrite <- AG. assert (g < length css)%nat by (apply nth_error_Some; congruence).
      pose proof (nth_error_split _ _ He) as (l1 & l2 & -> & L1). rewrite <- L1, firstn_app, firstn_all, Nat.sub_diag. cbn [firstn].
      rewrite app_nil_r, map_app, list_sum_app. cbn [map list_sum fold_right]. unfold list_sum. cbn [fold_right]. lia. }
    destruct (nth_error (C.s_workload c) (list_sum (map (@length _) (firstn e out)) + g)) as [grp|] eqn:Gp; [|apply nth_error_None in Gp; lia].
    destruct (CG e css g cls grp He Hg Gp) as (name & Y & _). rewrite XX in Y. injection Y as ->.
    exists cls, grp, name. auto. }
  assert (XN : forall g cg, cg_at wl gs e g = Some cg -> cg_iterExecGroup cg = n).
  { intros g cg X. destruct (GRP g cg X) as (cls & grp & name & Hg & G & ->). cbn [cg_with cg_iterExecGroup P.cgcfg_of].
    apply PipeProps.uint_decimal; [eauto|lia]. }
  destruct (as_iterations _ _ _ _ _ R) as (isched & ist & IR & LEN & CL & UN).
  rewrite <- (clients_of_exec_group _ _ _ He) in FIT.
  assert (SEL : forall e' g', exec_group e e' g' = true -> e' = e).
  { intros e' g' S. unfold exec_group in S. apply Nat.eqb_eq in S. auto. }
  split.
  - etransitivity; [apply (total_le _ _ _ _ (is_cls ist) 0 LEN)|].
    + intros j e' g' c' k J K S. cbn [Nat.add]. unfold starts. destruct (queries c') as [|q qs]; [lia|]. exact (proj1 (CL j e' g' c' k J K) q).
    + assert (LIM : forall l ks, (forall e' g' c', In (e', g', c') l -> In (e', g', c') (labelled out)) ->
        iterations (exec_group e) l ks = iterations (limited wl gs e n) l ks).
      { induction l as [|[[e' g'] c'] l IH]; intros [|k ks] I; try reflexivity. cbn [iterations]. rewrite IH by (intros; apply I; now right).
        f_equal. unfold exec_group, limited. destruct (Nat.eqb_spec e e') as [<-|]; [|reflexivity]. cbn [andb].
        destruct (lab_cfg _ _ _ _ _ _ _ _ _ _ _ HA HG _ _ _ (I _ _ _ (or_introl eq_refl))) as (cg & X & _). rewrite X, (XN _ _ X).
        replace (0 <? n)%N with true by (symmetry; apply N.ltb_lt; lia). now rewrite N.leb_refl. }
      rewrite (LIM _ _ (fun _ _ _ I => I)).
      apply (eg_limit _ _ _ _ _ _ _ _ _ _ _ HA HG _ _ n isched _); auto. intros g cg X. rewrite (XN _ _ X). lia.
  - intros ONLY NEC AL. transitivity (iterations (exec_group e) (labelled out) (is_cls ist)).
    + apply total_iterations; [exact LEN|]. intros j e' g' c' k J K S. cbn [Nat.add]. rewrite (SEL _ _ S) in J.
      destruct (AL j g' c' J) as (QN & DL & RL). destruct (proj2 (CL j _ _ c' k J K) DL RL) as (_ & A & _). auto.
    + apply (eg_limit_exact _ _ _ _ _ _ _ _ _ _ _ HA HG _ n isched); auto; try lia.
      * intros g cg X. split; [exact (XN _ _ X)|]. destruct (GRP g cg X) as (cls & grp & name & Hg & G & ->).
        destruct (ONLY g cls grp Hg G) as (_ & U2 & _). exact (unset_uint _ U2).
      * intros g c' I. destruct (lab_cfg _ _ _ _ _ _ _ _ _ _ _ HA HG _ _ _ I) as (cg & X & _).
        rewrite (lab_iter _ _ _ _ _ _ _ _ _ _ _ HA HG _ _ _ _ NE I X). destruct (GRP g cg X) as (cls & grp & name & Hg & G & ->).
        destruct (ONLY g cls grp Hg G) as (U1 & _ & DD). cbn [cg_with cg_iter]. rewrite DD. exact (unset_uint _ U1).
      * destruct (concat css) as [|cl l] eqn:EC; [congruence|]. assert (I : In cl (concat css)) by (rewrite EC; now left).
        apply in_concat in I as (cls & I1 & I2). apply In_nth_error in I1 as (g & Hg). exists g, cl. eapply at_labelled; eauto.
      * apply UN. intros j e' g' c' J S. rewrite (SEL _ _ S) in J. destruct (AL j g' c' J) as (_ & DL & RL). auto.
      * intros j e' g' c' k J K S. rewrite (SEL _ _ S) in J. destruct (AL j g' c' J) as (_ & DL & RL).
        exact (proj1 (proj2 (CL j _ _ c' k J K) DL RL)).
Qed.
Print Assumptions C116_iter_exec_group.

(* ------------------------------------------------------------------------------------ *)
Module ExL.
  Definition ok : cenv := CEnv false None true false None (fun _ => None).
  Definition lost := Err 2006 true false.
  (** the next step of a client; [f]: the query fails *)
  Definition next (k : lcl Z) (f : bool) : linput Z :=
    match l_pc k with
    | PcStart => LConnect ok
    | PcStmt i => LStmt (SEnv (match nth_error (c_data (l_c k)) i with Some d => map (fun _ => [7%Z]) (d_inputs d) | None => [] end)
                         (Some true) (if f then Some lost else None) None false ok)
    | _ => LCheck
    end.
  (** [n] steps, round robin; [fail t]: a query executed in step [t] fails *)
  Fixpoint drive (fail : nat -> bool) (t n : nat) (st : lst Z) : list (nat * linput Z) :=
    match n with
    | O => []
    | S n' =>
      let i := Nat.modulo t (length (l_cls st)) in
      match nth_error (l_cls st) i with
      | Some k => match l_pc k with
                  | PcDone => drive fail (S t) n' st
                  | _ => let inp := next k (fail t) in
                         match loop_step st i inp with
                         | Some (st', _) => (i, inp) :: drive fail (S t) n' st'
                         | None => [] end
                  end
      | None => []
      end
    end.

  Definition files (f : string) : option (list string) :=
    if String.eqb f "both.sql" then Some ["SELECT a FROM t WHERE d=@d"; ""; "-- idle: 5s"; "SELECT 1"; ""; "UPDATE t SET a=a+1"] else PipeProps.files1 f.
  Definition xs : list C.trx := [C.Trx "r" "read.sql" [("d", PipeProps.d_int "")]; C.Trx "b" "both.sql" [("d", PipeProps.d_int "")]].
  Definition E : C.env :=
    C.Env (C.e_getenv ConfigProps.E0) (C.e_sys ConfigProps.E0)
      (fun s => if String.eqb s "3" then Some 3%N else if String.eqb s "5" then Some 5%N else if String.eqb s "2" then Some 2%N else None)
      (C.e_parse_duration ConfigProps.E0) (C.e_exists ConfigProps.E0) (C.e_base ConfigProps.E0) (C.e_order ConfigProps.E0).
  Definition gs : list C.cgroup :=
    [C.CGroup "2" "" false "3" "" "" "a" "" "" "" "" "" "" "" ["b"; "r"];
     C.CGroup "3" "" false "" "5" "" "a" "" "" "" "" "" "" "" ["r"; "b"];
     C.CGroup "2" "" false "" "" "5" "b" "" "" "" "" "" "" "" ["r"];
     C.CGroup "" "" false "" "" "5" "b" "" "" "" "" "" "" "" ["b"]].
  Definition out := match C.load E ConfigProps.no_base [ConfigProps.file (PipeProps.stage1 "s" xs gs)] [] "" "" with
    | Some cs => match P.load_stages (PipeProps.P1 files) cs [] with
                 | Some l => match P.prepare_run (PipeProps.P1 files) l with Some (_, [o]) => o | _ => [] end
                 | None => [] end
    | None => [] end.
  Definition sched (fail : nat -> bool) (n : nat) := drive fail 0 n (loop_init (map snd (labelled out))).
  Definition run (fail : nat -> bool) (n : nat) := loop_run (loop_init (map snd (labelled out))) (sched fail n).

  (** a query, an idle time, a query *)
  Definition cl : client :=
    let q t idle := Stmt "t" t false false 0 false false false false idle [] [] "" None [] in
    Client (RL 1 1 1 1 0 0) "" 4 0 None 0 None None None [q "UPDATE a" 0%Z; q "" 100%Z; q "UPDATE b" 0%Z]
      [SData [] [] None true false; SData [] [] None false false; SData [] [] None false true] [Some "t"].
End ExL.


Lemma reached_in {V} (evs : list (event V)) :
  existsb (fun e => match e with EvDone StopLimit _ => true | _ => false end) evs = true -> reached_limit evs.
Proof. intros H. apply existsb_exists in H as (e & I & X). destruct e as [| | | | | | | | | | | |[] r]; try discriminate. now exists r. Qed.
Lemma no_failure_in {V} (evs : list (event V)) : forallb (fun e => negb (failed_exec e)) (execs evs) = true -> no_failure evs.
Proof. intros H. apply Forall_forall. intros e I. rewrite forallb_forall in H. specialize (H e I). now apply negb_true_iff in H. Qed.
Lemma no_limit_in (c : client) : forallb (fun s => match st_limit s with None => true | _ => false end) (c_stmts c) = true -> no_data_limit c.
Proof. intros H. apply Forall_forall. intros s I. rewrite forallb_forall in H. specialize (H s I). now destruct (st_limit s). Qed.
Lemma decimal_one d : ConfigSpec.digit d -> CS.decimal (String d "") (N.of_nat (nat_of_ascii d - 48)).
Proof. apply CS.dec_one. Qed.

(** An iteration, one cut short by a failure, and one that reaches the iteration limit. *)
Example C114_example : exists (st : cst Z) evs,
  (let q := SEnv [] (Some true) None None false ExL.ok in
   let bad := SEnv [] (Some true) (Some ExL.lost) None false ExL.ok in
   client_run ExL.cl [IConnect ExL.ok; IGo; IStmt q; IStmt q; IStmt q; IGo; IStmt q; IStmt q; IStmt bad; IGo; IStmt bad; IGo; IStmt q; IStmt q; IStmt q; IStop]
     = Some (st, PcDone, evs)) /\
  map (fun e => (ex_stmt e, rc_iter (ex_rc e), failed_exec e)) (execs evs) =
    [(0, 1%N, false); (2, 1%N, false); (0, 2%N, false); (2, 2%N, true); (0, 3%N, true); (0, 4%N, false); (2, 4%N, false)]%nat /\
  reached_limit evs /\ no_data_limit ExL.cl /\ queries ExL.cl = [0; 2]%nat.
Proof.
  do 2 eexists. split; [vm_compute; reflexivity|]. split; [reflexivity|]. split; [apply reached_in; reflexivity|].
  split; [apply no_limit_in; reflexivity|reflexivity].
Qed.

(** Two clients with iter 3; the first one executes the queries of its two files three times. *)
Example C115_example : exists c set grp cl st tr,
  configured ExL.E ConfigProps.no_base [ConfigProps.file (PipeProps.stage1 "s" ExL.xs ExL.gs)] [] "" "" (PipeProps.P1 ExL.files) 0 c set ExL.out /\
  loop_run (loop_init (map snd (labelled ExL.out))) (ExL.sched (fun _ => false) 400) = Some (st, tr) /\
  nth_error (labelled ExL.out) 0 = Some (0%nat, 0%nat, cl) /\ group_at c ExL.out 0 0 grp /\
  CS.decimal (C.g_iter grp) 3 /\ unset (C.g_iter_c grp) /\ unset (C.g_iter_x grp) /\ no_data_limit cl /\
  reached_limit (events_of 0 tr) /\ queries cl <> [] /\ no_failure (events_of 0 tr) /\ NoDup (map C.x_name (C.s_trx c)) /\
  executed cl (events_of 0 tr) =
    ["SELECT a FROM t WHERE d=%d"; "UPDATE t SET a=a+1"; "SELECT c FROM t WHERE d=%d";
     "SELECT a FROM t WHERE d=%d"; "UPDATE t SET a=a+1"; "SELECT c FROM t WHERE d=%d";
     "SELECT a FROM t WHERE d=%d"; "UPDATE t SET a=a+1"; "SELECT c FROM t WHERE d=%d"].
Proof.
  do 6 eexists. split.
  { do 4 eexists. split; [vm_compute; reflexivity|]. split; [repeat constructor|]. split; [vm_compute; reflexivity|].
    split; [vm_compute; reflexivity|]. split; reflexivity. }
  split; [vm_compute; reflexivity|]. split; [vm_compute; reflexivity|]. split; [reflexivity|].
  split; [apply (decimal_one "3"); unfold CS.digit; vm_compute; lia|]. split; [now left|]. split; [now left|].
  split; [apply no_limit_in; reflexivity|]. split; [apply reached_in; reflexivity|]. split; [discriminate|].
  split; [apply no_failure_in; reflexivity|]. split; [repeat constructor; cbn; intuition discriminate|]. reflexivity.
Qed.

(** Three clients sharing iter-clients 5, with failures: the first query is executed five times, the last one
    three times. *)
Example C116_clients_example : exists c set grp cls css st tr,
  configured ExL.E ConfigProps.no_base [ConfigProps.file (PipeProps.stage1 "s" ExL.xs ExL.gs)] [] "" "" (PipeProps.P1 ExL.files) 0 c set ExL.out /\
  loop_run (loop_init (map snd (labelled ExL.out))) (ExL.sched (fun t => Nat.leb 40 t && Nat.leb t 64)%bool 400) = Some (st, tr) /\
  nth_error ExL.out 0 = Some css /\ nth_error css 1 = Some cls /\ group_at c ExL.out 0 1 grp /\
  CS.decimal (C.g_iter_c grp) 5 /\ (5 + N.of_nat (length cls) < 2 ^ 32)%N /\
  unset (C.g_iter grp) /\ unset (C.g_iter_x grp) /\ existsb (PipeProps.ddl_trx set) (trx_names c grp) = false /\
  (forall j cl, nth_error (labelled ExL.out) j = Some (0%nat, 1%nat, cl) -> no_data_limit cl /\ reached_limit (events_of j tr)) /\
  map queries cls = [[0; 1; 3]; [0; 1; 3]; [0; 1; 3]]%nat /\
  map (fun q => total (one_group 0 1) (fun _ => times q) (labelled ExL.out) 0 tr) [0; 1; 2; 3]%nat = [5; 5; 0; 2]%N.
Proof.
  do 7 eexists. split.
  { do 4 eexists. split; [vm_compute; reflexivity|]. split; [repeat constructor|]. split; [vm_compute; reflexivity|].
    split; [vm_compute; reflexivity|]. split; reflexivity. }
  split; [vm_compute; reflexivity|]. split; [vm_compute; reflexivity|]. split; [vm_compute; reflexivity|]. split; [reflexivity|].
  split; [apply (decimal_one "5"); unfold CS.digit; vm_compute; lia|]. split; [vm_compute; reflexivity|].
  split; [now left|]. split; [now left|]. split; [reflexivity|]. split.
  { intros j cl J. vm_compute in J. do 8 (destruct j as [|j]; [first [discriminate|injection J as <-; split;
      [apply no_limit_in; reflexivity|apply reached_in; vm_compute; reflexivity]]|]). destruct j; discriminate. }
  split; vm_compute; reflexivity.
Qed.

(** Three clients of two client groups sharing iter-exec-group 5. *)
Example C116_exec_group_example : exists c set css st tr,
  configured ExL.E ConfigProps.no_base [ConfigProps.file (PipeProps.stage1 "s" ExL.xs ExL.gs)] [] "" "" (PipeProps.P1 ExL.files) 0 c set ExL.out /\
  loop_run (loop_init (map snd (labelled ExL.out))) (ExL.sched (fun _ => false) 400) = Some (st, tr) /\
  nth_error ExL.out 1 = Some css /\ C.s_workload c <> [] /\
  (forall g cls grp, nth_error css g = Some cls -> group_at c ExL.out 1 g grp ->
     CS.decimal (C.g_iter_x grp) 5 /\ unset (C.g_iter grp) /\ unset (C.g_iter_c grp) /\ existsb (PipeProps.ddl_trx set) (trx_names c grp) = false) /\
  (5 + N.of_nat (length (concat css)) < 2 ^ 32)%N /\ map (@length _) css = [2; 1]%nat /\
  (forall j g cl, nth_error (labelled ExL.out) j = Some (1%nat, g, cl) ->
     queries cl <> [] /\ no_data_limit cl /\ reached_limit (events_of j tr)) /\
  map (fun j => N.of_nat (length (execs (events_of j tr)))) [5; 6; 7]%nat = [2; 2; 2]%N /\
  total (exec_group 1) starts (labelled ExL.out) 0 tr = 5%N.
Proof.
  do 5 eexists. split.
  { do 4 eexists. split; [vm_compute; reflexivity|]. split; [repeat constructor|]. split; [vm_compute; reflexivity|].
    split; [vm_compute; reflexivity|]. split; reflexivity. }
  split; [vm_compute; reflexivity|]. split; [vm_compute; reflexivity|]. split; [discriminate|]. split.
  { intros g cls grp Hg G. unfold group_at in G. vm_compute in G.
    do 2 (destruct g as [|g]; [injection G as <-; split; [apply (decimal_one "5"); unfold CS.digit; vm_compute; lia|];
      split; [now left|]; split; [now left|reflexivity]|]). destruct g; discriminate. }
  split; [vm_compute; reflexivity|]. split; [reflexivity|]. split.
  { intros j g cl J. vm_compute in J. do 8 (destruct j as [|j]; [first [discriminate|injection J as <- <-; split; [discriminate|];
      split; [apply no_limit_in; reflexivity|apply reached_in; vm_compute; reflexivity]]|]). destruct j; discriminate. }
  split; vm_compute; reflexivity.
Qed.
