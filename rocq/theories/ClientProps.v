(** C29-C35 and C60-C62: the execution of a client. *)
From Verif Require Import Prelude ListAux ScopeModel StmtModel WorkloadModel WorkloadSpec InstanceProofs IterSpec
  ClientModel ClientSpec ClientProofs ClientTrxProofs ClientConnProofs.
#[local] Open Scope string_scope.
#[local] Open Scope list_scope.

(* ------------------------------------------------------------------------------------ *)
(** The theorems below are about any client that has the statements of some trx in order, marked
    at trx boundaries, and a statistics slot for each trx ([has_trx]).  Every client the allocator
    makes is one. *)
Theorem C30_clients_have_trx ts ws stage w q t nx nx' out wl gs e g k c cg :
  allocate ts ws stage w q t nx = Some (nx', out) -> groups ts w = Some (wl, gs) -> no_empty_trx ts wl ->
  client_at out e g k = Some c -> cg_at wl gs e g = Some cg ->
  has_trx c (trx_lens ts cg) /\
  (if (ws && negb (cg_disableStats cg))%bool then stats_on c else stats_off c).
Proof.
  intros H G NE HC HG. unfold allocate in H.
  destruct (new_rate nx q) as [w1 sq]. destruct (new_rate w1 t) as [w2 st]. rewrite G in H.
  destruct (clients_of _ _ _ _ _ _ _ _ _ _ H NE) as [LO CO].
  unfold client_at in HC. destruct (nth_error out e) as [css|] eqn:H1; [|discriminate].
  destruct (nth_error css g) as [cs|] eqn:H2; [|discriminate].
  destruct (CO _ _ H1) as (refs & R1 & R2 & R3). destruct (R3 _ _ H2) as (r & cg' & Q1 & Q2 & Q3 & Q4).
  assert (cg' = cg) as -> by (unfold cg_at in HG; rewrite R1, Q1 in HG; congruence).
  destruct (Q4 _ _ HC) as (C1 & C2 & C3 & C4 & C5 & _).
  split.
  - split; [|split; [|split]].
    + unfold trx_lens. apply Forall_forall. intros n I. apply in_map_iff in I as (x & <- & I).
      pose proof (NE cg x (nth_error_In _ _ Q2) I). destruct (ts_stmts ts x); [congruence|cbn; lia].
    + rewrite C1. unfold trx_lens. clear. induction (cg_trx cg) as [|a l IH]; cbn; auto. rewrite app_length, IH. reflexivity.
    + rewrite C4. unfold marks, trx_lens. rewrite map_map. f_equal. apply map_ext. intros x.
      assert (X : forall A (l : list A) n L, mapi_from (fun i _ => (Nat.eqb i 0, Nat.eqb (S i) L)) n l =
        map (fun j => (Nat.eqb j 0, Nat.eqb (S j) L)) (seq n (length l))).
      { clear. induction l as [|a l IH]; intros n L; cbn; auto. now rewrite IH. }
      apply X.
    + rewrite C5, map_length. unfold trx_lens. now rewrite map_length.
  - unfold stats_on, stats_off. destruct (ws && negb (cg_disableStats cg))%bool; rewrite C5; apply Forall_forall; intros x I;
      apply in_map_iff in I as (y & <- & _); congruence.
Qed.

(* ------------------------------------------------------------------------------------ *)
Module ExC.
  Definition q_begin := Stmt "t" "BEGIN" false false 0 true false false false 0 [] [] "" None [].
  Definition q_sel := Stmt "t" "SELECT c FROM x WHERE id=%d" true false 0 false false false false 0 ["@id"] [] "" None [false].
  Definition q_upd := Stmt "t" "UPDATE x SET n=? WHERE id BETWEEN ? AND ?" false true 0 false false true false 0 ["@n"; "@r"; "@PREV"] [] "" (Some 0%nat) [false; false; false].
  Definition q_commit := Stmt "t" "COMMIT" false false 0 false true false false 0 [] [] "" None [].
  Definition q_ins := Stmt "u" "INSERT INTO x VALUES (NULL)" false false 0 false false true false 0 [] [] "@i" None [].
  Definition q_set := Stmt "u" "SET x=1" false false 0 false false false false 0 [] [] "" None [].
  Definition q_idle := Stmt "u" "" false false 0 false false false false 100 [] [] "" None [].
  Definition q_ddl := Stmt "u" "ALTER TABLE x" false false 0 false false false true 0 [] [] "" None [].
  Definition d (b e : bool) := SData [] [] None b e.

  (** trx t: BEGIN, SELECT, UPDATE, COMMIT; trx u: SET, idle, INSERT (saving its insert id) *)
  Definition c := Client (RL 1 1 1 2 0 0) "db" 0 0 None 0 None (Some (RLeaf 0 5)) (Some (RLeaf 1 5))
    [q_begin; q_sel; q_upd; q_commit; q_set; q_idle; q_ins]
    [d true false; d false false; d false false; d false true; d true false; d false false; SData [] [] (Some 7%nat) false true]
    [Some "t"; Some "u"].
  Definition lens := [4; 3]%nat.
  (** without statistics *)
  Definition c_off := Client (RL 1 1 1 2 0 0) "db" 0 0 None 0 None None None
    [q_set; q_ins] [d true false; d false true] [None].
  (** an idle time before the first query *)
  Definition c_idle := Client (RL 1 1 1 1 0 0) "" 0 0 None 0 None None None
    [q_idle; q_sel] [d true false; d false true] [Some "u"].
  Definition c_idle2 := Client (RL 1 1 1 1 0 0) "" 0 0 None 0 None None None
    [q_set; q_idle; q_sel] [d true true; d true false; d false true] [Some "t"; Some "u"].
  Definition c_ddl := Client (RL 1 1 1 1 0 0) "" 0 0 None 0 None None None
    [q_ddl] [d true true] [Some "u"].

  Lemma has : has_trx c lens.
  Proof. split; [repeat constructor|]. repeat split. Qed.
  Lemma start : trx_start_with_query c lens.
  Proof. intros [|[|[|[|[|[|[|i]]]]]]] s E F; try (injection E as <-; reflexivity); try discriminate F. destruct i; discriminate E. Qed.
  Lemma on : stats_on c.
  Proof. repeat constructor; discriminate. Qed.

  Definition ok : cenv := CEnv false None true false None (fun _ => None).
  Definition se (ins : list (list Z)) (e : option err) : senv Z := SEnv ins (Some true) e None false ok.
  Definition myerr (code : N) := Err code false false.
  (** an iteration; one in which the UPDATE fails with a lock wait timeout; one in which it fails
      because the connection is lost, and then COMMIT fails with a read-only error *)
  Definition run : list (cinput Z) :=
    [IConnect ok; IGo; IStmt (se [] None); IStmt (se [[5]]%Z None); IStmt (se [[3]; [10; 20]]%Z None); IStmt (se [] None);
     IStmt (se [] None); IStmt (se [] None); IStmt (se [] None);
     IGo; IStmt (se [] None); IStmt (se [[6]]%Z None); IStmt (se [[4]; [30; 40]]%Z (Some (myerr 1205)));
     IGo; IStmt (se [] None); IStmt (se [[7]]%Z None); IStmt (se [[4]; [50; 60]]%Z (Some (myerr 2013)));
     IGo; IStmt (se [] None); IStmt (se [[7]]%Z None); IStmt (se [[4]; [50; 60]]%Z None); IStmt (se [] (Some (myerr 1290)));
     IStop].
  Definition trace (c : client) (inps : list (cinput Z)) : list (event Z) :=
    match client_run c inps with Some (_, _, evs) => evs | None => [] end.
End ExC.

Example C29_example :
  has_trx ExC.c ExC.lens /\ trx_start_with_query ExC.c ExC.lens /\ stats_on ExC.c /\
  filter is_stat (ExC.trace ExC.c (firstn 9 ExC.run)) =
    (let x i ps n t it vals := EvExec i ps 0 (RC n t it 1 2 1 1 1) vals None false in
    [x 0%nat None 1%N 1%N 1%N []; EvRecord 0 TOTAL;
     x 1%nat None 2%N 1%N 1%N [Some 5%Z]; EvRecord 0 READ;
     x 2%nat (Some 0%nat) 3%N 1%N 1%N [Some 3; Some 10; Some 20]%Z; EvRecord 0 WRITE;
     x 3%nat None 4%N 1%N 1%N []; EvRecord 0 COMMIT;
     x 4%nat None 5%N 2%N 1%N []; EvRecord 1 TOTAL;
     x 6%nat None 6%N 2%N 1%N []; EvRecord 1 WRITE]) /\
  filter (fun e => match e with EvError _ _ | EvDone _ _ => true | _ => false end) (ExC.trace ExC.c ExC.run) =
    [EvError 0 1205; EvError 0 2013; EvError 0 1290; EvDone StopLimit None].
Proof. split; [apply ExC.has|]. split; [apply ExC.start|]. split; [apply ExC.on|]. vm_compute. split; reflexivity. Qed.

(** C29.  Partial: every trx must begin with a query (not an idle time, see [C29_refuted]). *)
Theorem C29_recorded_partial {V} c lens inps st pc (evs : list (event V)) :
  has_trx c lens -> trx_start_with_query c lens -> c_stmts c <> [] -> stats_on c ->
  client_run c inps = Some (st, pc, evs) ->
  exists parts, Forall2 (in_stats c lens) (execs evs) parts /\ filter is_stat evs = concat parts.
Proof. intros T S N O R. destruct (trx_run c lens T S N _ _ _ _ R) as (_ & _ & _ & H & _). exact (H O). Qed.

Theorem C29_disabled_partial {V} c lens inps st pc (evs : list (event V)) :
  has_trx c lens -> trx_start_with_query c lens -> c_stmts c <> [] -> stats_off c ->
  client_run c inps = Some (st, pc, evs) ->
  forall slot q code, ~ In (EvRecord slot q) evs /\ ~ In (EvError slot code) evs.
Proof.
  intros T S N O R slot q code. destruct (trx_run c lens T S N _ _ _ _ R) as (_ & _ & _ & _ & H). specialize (H O).
  split; intros I; [assert (X : In (EvRecord slot q) (execs evs))|assert (X : In (EvError slot code) (execs evs))];
    try (rewrite <- H; apply filter_In; auto); apply filter_In in X as [_ X]; discriminate.
Qed.

Example C29_disabled_example :
  has_trx ExC.c_off [2]%nat /\ trx_start_with_query ExC.c_off [2]%nat /\ stats_off ExC.c_off /\
  map (@ex_stmt Z) (execs (ExC.trace ExC.c_off [IConnect ExC.ok; IGo; IStmt (ExC.se [] None); IStmt (ExC.se [] (Some (ExC.myerr 1213)))])) = [0; 1]%nat.
Proof.
  split; [split; [repeat constructor|repeat split]|]. split; [|split; [repeat constructor|reflexivity]].
  intros [|[|i]] s E F; try discriminate F; [injection E as <-; reflexivity|]. destruct i; discriminate.
Qed.

(** The statistics of a trx that begins with an idle time are recorded under the trx before. *)
Theorem C29_refuted : ~ (forall c lens inps st pc (evs : list (event Z)),
  has_trx c lens -> c_stmts c <> [] -> stats_on c -> client_run c inps = Some (st, pc, evs) ->
  exists parts, Forall2 (in_stats c lens) (execs evs) parts /\ filter is_stat evs = concat parts).
Proof.
  intros H.
  destruct (client_run ExC.c_idle2 [IConnect ExC.ok; IGo; IStmt (ExC.se [] None); IStmt (ExC.se [] None); IStmt (ExC.se [[5]]%Z None)])
    as [[[st pc] evs]|] eqn:E; [|vm_compute in E; discriminate].
  specialize (H ExC.c_idle2 [1; 2]%nat _ _ _ _ ltac:(split; [repeat constructor|repeat split]) ltac:(discriminate) ltac:(repeat constructor; discriminate) E).
  destruct H as (parts & F & C). assert (EE := E). vm_compute in E. injection E as <- <- <-. cbn [execs filter is_exec] in F.
  inv F. match goal with H : Forall2 _ _ _ |- _ => inv H end. match goal with H : Forall2 _ [] _ |- _ => inv H end.
  match goal with H : in_stats _ _ _ y0 |- _ => destruct H as (s & q & _ & _ & ->) end.
  match goal with H : in_stats _ _ _ y |- _ => destruct H as (s' & q' & _ & _ & ->) end.
  vm_compute in C. discriminate.
Qed.

(* ------------------------------------------------------------------------------------ *)
(** C30.  Partial: every trx must begin with a query ([C30_refuted]). *)
Theorem C30_trx_boundaries_partial {V} c lens inps st pc (evs : list (event V)) pre e post :
  has_trx c lens -> trx_start_with_query c lens -> c_stmts c <> [] ->
  client_run c inps = Some (st, pc, evs) -> execs evs = pre ++ e :: post ->
  (* the counter is the number of trx executions started *)
  rc_trx (ex_rc e) = cntN (starts_trx lens) (pre ++ [e]) /\
  (* a trx is not entered in the middle *)
  (first_of_trx lens (ex_stmt e) = false ->
     exists pre' e', pre = pre' ++ [e'] /\ block_index lens (ex_stmt e') = block_index lens (ex_stmt e) /\
       (ex_stmt e' < ex_stmt e)%nat /\ rc_iter (ex_rc e') = rc_iter (ex_rc e)) /\
  (* there is a slot for it *)
  (block_index lens (ex_stmt e) < length (c_stats c))%nat.
Proof.
  intros T S N R E. destruct (trx_run c lens T S N _ _ _ _ R) as (_ & C & _). pose proof (C _ _ _ E) as (_ & C2 & _ & _ & _ & _ & _ & _ & C9).
  split; [exact C2|]. split; [exact C9|].
  assert (I : In e (execs evs)) by (rewrite E; apply in_elt). apply filter_In in I as [I X].
  destruct e; try discriminate. unfold client_run in R.
  destruct (step_of_run _ _ _ _ _ _ _ _ R I) as (i1 & inp & i2 & s1 & p1 & s2 & p2 & e1 & e2 & _ & _ & ST & I2).
  destruct (exec_of_step _ _ _ _ _ _ _ _ _ _ _ _ _ _ ST I2) as (j & se & nx & l0 & -> & -> & XC & _ & _ & I3).
  destruct (exec_in _ _ _ _ _ _ _ XC _ _ _ _ _ _ _ I3) as (<- & _ & _ & s & _ & _ & _ & ES & _).
  cbn [ex_stmt]. destruct T as (_ & L1 & _ & L2). rewrite L2. apply block_lt. rewrite <- L1. apply nth_error_Some. congruence.
Qed.

Example C30_example :
  map (fun e => (ex_stmt e, N.to_nat (rc_trx (ex_rc e)))) (execs (ExC.trace ExC.c ExC.run)) =
    [(0, 1); (1, 1); (2, 1); (3, 1); (4, 2); (6, 2); (0, 3); (1, 3); (2, 3); (0, 4); (1, 4); (2, 4); (0, 5); (1, 5); (2, 5); (3, 5)]%nat /\
  map (fun i => (first_of_trx ExC.lens i, block_index ExC.lens i)) (seq 0 7) =
    [(true, 0); (false, 0); (false, 0); (false, 0); (true, 1); (false, 1); (false, 1)]%nat.
Proof. vm_compute. auto. Qed.

(** A client whose first statement is an idle time executes the query after it with trx counter 0
    and then panics on [Stats[-1]]. *)
Theorem C30_refuted : exists c lens inps st (evs : list (event Z)),
  has_trx c lens /\ c_stmts c <> [] /\ stats_on c /\ client_run c inps = Some (st, PcDone, evs) /\
  (exists e, execs evs = [e] /\ rc_trx (ex_rc e) = 0%N) /\ In (EvDone StopPanic (Some (Err 0 false false))) evs.
Proof.
  exists ExC.c_idle, [2]%nat, [IConnect ExC.ok; IGo; IStmt (ExC.se [] None); IStmt (ExC.se [[5]]%Z None)].
  destruct (client_run ExC.c_idle [IConnect ExC.ok; IGo; IStmt (ExC.se [] None); IStmt (ExC.se [[5]]%Z None)]) as [[[st pc] evs]|] eqn:E;
    [|vm_compute in E; discriminate].
  exists st, evs. vm_compute in E. injection E as <- <- <-.
  split; [split; [repeat constructor|repeat split]|]. split; [discriminate|]. split; [repeat constructor; discriminate|].
  split; [reflexivity|]. split; [eexists; split; reflexivity|cbn; tauto].
Qed.

(* ------------------------------------------------------------------------------------ *)
(** C31: the errors after which the connection is kept (1062 is missing: [C31_refuted]), provided
    the run is not over and the ROLLBACK of C32 does not fail. *)
Theorem C31_keep_connection_partial {V} c lens inps st i evs (se : senv V) st' pc' l ps k rc vals e x :
  has_trx c lens -> trx_start_with_query c lens -> c_stmts c <> [] ->
  client_run c inps = Some (st, PcStmt i, evs) -> cstep c st (PcStmt i) (IStmt se) = Some (st', pc', l) ->
  In (EvExec i ps k rc vals (Some e) x) l -> In (er_code e) [1205; 1213; 1290; 1317; 1836]%N ->
  ce_ctx0 (v_conn se) = false -> ce_rollback (v_conn se) = None ->
  pc' = PcIter /\ s_conn st' = Some k /\ (forall ev, In ev l -> conn_event ev = false).
Proof.
  intros T S N R ST I K C0 C1.
  destruct (failed_run c lens T S N _ _ _ _ _ _ _ _ _ _ _ _ _ _ R ST I) as (s & d & values & st2 & evs2 & r & pre & A1 & A2 & A3 & A4 & A5 & A6 & A7 & A8 & A9 & _).
  destruct (connect_keep c (pre_state st d values) i e (v_conn se) st2 evs2 r k s A1 K C0 C1 A4 A3) as (-> & B2 & B3).
  split; [exact A6|]. split; [congruence|]. intros ev J. rewrite app_nil_r in A9. subst l.
  destruct (conn_event ev) eqn:E; auto. apply in_app_iff in J as [J|J].
  - assert (Q : In ev (filter conn_event pre)) by (apply filter_In; auto). rewrite A7 in Q. destruct Q.
  - destruct B3 as [->| ->]; [destruct J|destruct J as [<-|[]]; discriminate].
Qed.

(** Any other error: a fresh connection, and a new iteration. *)
Theorem C31_reconnect {V} c lens inps st i evs (se : senv V) st' pc' l ps k rc vals e x s :
  has_trx c lens -> trx_start_with_query c lens -> c_stmts c <> [] -> multi_fits c ->
  client_run c inps = Some (st, PcStmt i, evs) -> cstep c st (PcStmt i) (IStmt se) = Some (st', pc', l) ->
  In (EvExec i ps k rc vals (Some e) x) l -> nth_error (c_stmts c) i = Some s ->
  ~ In (er_code e) [1205; 1213; 1290; 1317; 1836; 1062]%N -> st_ddl s = false -> connects (v_conn se) ->
  exists k' pre rest, pc' = PcIter /\ s_conn st' = Some k' /\ l = pre ++ EvClose k :: EvConnect k' :: rest /\
    k <> k' /\ ~ In (EvConnect k') evs /\
    (forall ev, In ev pre -> conn_event ev = false) /\
    (forall ev, In ev rest -> ev = EvUse k' \/ exists j, ev = EvPrepare j k').
Proof.
  intros T S N MF R ST I HS K D CN.
  destruct (failed_run c lens T S N _ _ _ _ _ _ _ _ _ _ _ _ _ _ R ST I) as (s0 & d & values & st2 & evs2 & r & pre & A1 & A2 & A3 & A4 & A5 & A6 & A7 & A8 & A9 & _).
  assert (s0 = s) as -> by congruence.
  destruct (conn_run _ _ _ _ _ R) as (LP & _ & NX & LK & _ & _ & _ & _).
  rewrite (connect_other c _ i e _ s A1) in A3; [|apply CN|].
  2:{ right. split; auto. intros J. apply K. cbn in J |- *. tauto. }
  destruct (reconnect_success c (pre_state st d values) _ _ _ _ k CN MF LP A4 A3) as (-> & B2 & rest & B3 & B4).
  cbn [pre_state s_next] in *. exists (s_next st), pre, rest. split; [exact A6|]. split; [congruence|].
  split; [rewrite A9, B3, app_nil_r; reflexivity|]. split; [pose proof (LK _ A4); lia|]. split.
  - intros J. pose proof (fresh_conn c _ _ _ _ R _ J). lia.
  - split; auto. intros ev J. destruct (conn_event ev) eqn:E; auto.
    assert (Q : In ev (filter conn_event pre)) by (apply filter_In; auto). rewrite A7 in Q. destruct Q.
Qed.

(** An error on DDL that has no special handling stops the client, with an error. *)
Theorem C31_ddl_stops {V} c lens inps st i evs (se : senv V) st' pc' l ps k rc vals e x s :
  has_trx c lens -> trx_start_with_query c lens -> c_stmts c <> [] ->
  client_run c inps = Some (st, PcStmt i, evs) -> cstep c st (PcStmt i) (IStmt se) = Some (st', pc', l) ->
  In (EvExec i ps k rc vals (Some e) x) l -> nth_error (c_stmts c) i = Some s -> st_ddl s = true ->
  ~ In (er_code e) [1046; 1062; 1064; 1146; 1205; 1213; 1290; 1317; 1836]%N -> ce_ctx0 (v_conn se) = false ->
  pc' = PcDone /\ (exists stp er, In (EvDone stp (Some er)) l) /\ (forall k, ~ In (EvConnect k) l).
Proof.
  intros T S N R ST I HS D K C0.
  destruct (failed_run c lens T S N _ _ _ _ _ _ _ _ _ _ _ _ _ _ R ST I) as (s0 & d & values & st2 & evs2 & r & pre & A1 & A2 & A3 & A4 & A5 & A6 & A7 & A8 & A9 & _).
  assert (s0 = s) as -> by congruence.
  rewrite (connect_ddl c _ i e _ s A1 C0 D) in A3; [|intros J; apply K; cbn in J |- *; tauto|intros J; apply K; cbn in J |- *; tauto].
  injection A3 as <- <- <-. split; [exact A6|]. subst l. split.
  - exists (StopErr (err_text e)), (err_text e). rewrite app_nil_l. apply in_or_app. right. unfold finish. apply in_or_app. right. left. reflexivity.
  - intros k0 J. rewrite app_nil_l in J. apply in_app_iff in J as [J|J].
    + assert (Q : In (EvConnect k0) (filter conn_event pre)) by (apply filter_In; auto). rewrite A7 in Q. destruct Q.
    + unfold finish in J. apply in_app_iff in J as [J|[J|[]]]; [|discriminate]. destruct (s_conn st'); [destruct J as [J|[]]; discriminate|destruct J].
Qed.

Example C31_example :
  multi_fits ExC.c /\ connects ExC.ok /\
  (* 1205 on statement 2, then 2013 on it, then 1290 on statement 3 *)
  filter (fun e => conn_event e || failed_exec e || match e with EvRollback _ => true | _ => false end)%bool (ExC.trace ExC.c ExC.run) =
    [EvConnect 0; EvUse 0; EvPrepare 2 0;
     EvExec 2 (Some 0%nat) 0 (RC 9 3 2 1 2 1 1 1) [Some 4; Some 30; Some 40]%Z (Some (Err 1205 false false)) false; EvRollback 0;
     EvExec 2 (Some 0%nat) 0 (RC 12 4 3 2 2 1 1 1) [Some 4; Some 50; Some 60]%Z (Some (Err 2013 false false)) false; EvClose 0; EvConnect 1; EvUse 1;
     EvExec 3 None 1 (RC 16 5 4 3 2 1 1 1) [] (Some (Err 1290 false false)) false; EvClose 1] /\
  (* DDL *)
  has_trx ExC.c_ddl [1]%nat /\
  skipn 2 (ExC.trace ExC.c_ddl [IConnect ExC.ok; IGo; IStmt (ExC.se [] (Some (ExC.myerr 1091)))]) =
    [EvRecord 0 TOTAL; EvError 0 1091; EvClose 0; EvDone (StopErr (Err 0 false false)) (Some (Err 0 false false))].
Proof.
  split; [|split; [|vm_compute; split; [reflexivity|split; [split; [repeat constructor|repeat split]|reflexivity]]]].
  - intros [|[|[|[|[|[|[|i]]]]]]] s E; try (injection E as <-; cbn; lia). destruct i; discriminate E.
  - repeat split.
Qed.

(** A duplicate key error (1062) is documented to be ignored, but the client reconnects: its flag
    [Eabort] is 0, so no error is ever silent or aborting. *)
Theorem C31_refuted : ~ (forall c lens inps st i evs (se : senv Z) st' pc' l ps k rc vals e x,
  has_trx c lens -> trx_start_with_query c lens -> c_stmts c <> [] ->
  client_run c inps = Some (st, PcStmt i, evs) -> cstep c st (PcStmt i) (IStmt se) = Some (st', pc', l) ->
  In (EvExec i ps k rc vals (Some e) x) l -> er_code e = 1062%N -> connects (v_conn se) ->
  s_conn st' = Some k).
Proof.
  intros H.
  set (r := [IConnect ExC.ok; IGo; IStmt (ExC.se [] None); IStmt (ExC.se [[5]]%Z None)]).
  set (se := ExC.se [[3]; [10; 20]]%Z (Some (ExC.myerr 1062))).
  destruct (client_run ExC.c r) as [[[st pc] evs]|] eqn:R; [|vm_compute in R; discriminate].
  assert (pc = PcStmt 2) as -> by (vm_compute in R; injection R as _ <- _; reflexivity).
  destruct (cstep ExC.c st (PcStmt 2) (IStmt se)) as [[[st' pc'] l]|] eqn:ST; [|vm_compute in R; injection R as <- _; vm_compute in ST; discriminate].
  specialize (H ExC.c ExC.lens r st 2%nat evs se st' pc' l (Some 0%nat) 0%nat (RC 3 1 1 1 2 1 1 1) [Some 3; Some 10; Some 20]%Z (ExC.myerr 1062) false
    ExC.has ExC.start ltac:(discriminate) R ST).
  vm_compute in R. injection R as <- <-. vm_compute in ST. injection ST as <- <- <-.
  discriminate (H ltac:(cbn; tauto) eq_refl ltac:(repeat split)).
Qed.

(* ------------------------------------------------------------------------------------ *)
(** C32.  Partial: not for the last statement of a trx of several ([C32_refuted]). *)
Theorem C32_rollback_partial {V} c lens inps st i evs (se : senv V) st' pc' l ps k rc vals e x :
  has_trx c lens -> trx_start_with_query c lens -> c_stmts c <> [] ->
  client_run c inps = Some (st, PcStmt i, evs) -> cstep c st (PcStmt i) (IStmt se) = Some (st', pc', l) ->
  In (EvExec i ps k rc vals (Some e) x) l -> In (er_code e) [1205; 1290; 1836]%N ->
  ce_ctx0 (v_conn se) = false -> last_of_trx lens i = false \/ first_of_trx lens i = true ->
  In (EvRollback k) l.
Proof.
  intros T S N R ST I K C0 P.
  destruct (failed_run c lens T S N _ _ _ _ _ _ _ _ _ _ _ _ _ _ R ST I) as (s & d & values & st2 & evs2 & r & pre & A1 & A2 & A3 & A4 & A5 & A6 & A7 & A8 & A9 & A10).
  rewrite A9. apply in_or_app. right. apply in_or_app. left.
  exact (connect_rollback c (pre_state st d values) i e (v_conn se) st2 evs2 r k s A1 K C0 (A10 P) A4 A3).
Qed.

Example C32_example :
  map (fun i => (last_of_trx ExC.lens i || negb (first_of_trx ExC.lens i))%bool) [0; 2]%nat = [false; true] /\
  last_of_trx ExC.lens 2 = false /\
  In (EvRollback 0) (ExC.trace ExC.c ExC.run) /\
  last (ExC.trace ExC.c (firstn 13 ExC.run)) EvTps = EvRollback 0.
Proof. vm_compute. tauto. Qed.

(** The last statement (COMMIT) fails with a read-only error: no ROLLBACK. *)
Theorem C32_refuted : ~ (forall c lens inps st i evs (se : senv Z) st' pc' l ps k rc vals e x,
  has_trx c lens -> trx_start_with_query c lens -> c_stmts c <> [] ->
  client_run c inps = Some (st, PcStmt i, evs) -> cstep c st (PcStmt i) (IStmt se) = Some (st', pc', l) ->
  In (EvExec i ps k rc vals (Some e) x) l -> In (er_code e) [1205; 1290; 1836]%N ->
  ce_ctx0 (v_conn se) = false -> In (EvRollback k) l).
Proof.
  intros H.
  set (r := [IConnect ExC.ok; IGo; IStmt (ExC.se [] None); IStmt (ExC.se [[5]]%Z None); IStmt (ExC.se [[3]; [10; 20]]%Z None)]).
  set (se := ExC.se [] (Some (ExC.myerr 1290))).
  destruct (client_run ExC.c r) as [[[st pc] evs]|] eqn:R; [|vm_compute in R; discriminate].
  assert (pc = PcStmt 3) as -> by (vm_compute in R; injection R as _ <- _; reflexivity).
  destruct (cstep ExC.c st (PcStmt 3) (IStmt se)) as [[[st' pc'] l]|] eqn:ST; [|vm_compute in R; injection R as <- _; vm_compute in ST; discriminate].
  specialize (H ExC.c ExC.lens r st 3%nat evs se st' pc' l None 0%nat (RC 4 1 1 1 2 1 1 1) [] (ExC.myerr 1290) false
    ExC.has ExC.start ltac:(discriminate) R ST).
  vm_compute in R. injection R as <- <-. vm_compute in ST. injection ST as <- <- <-.
  specialize (H ltac:(cbn; tauto) ltac:(cbn; tauto) eq_refl).
  cbn in H. repeat destruct H as [H|H]; try discriminate; auto.
Qed.

(* ------------------------------------------------------------------------------------ *)
(** C33.  Partial: until the first reconnect ([C33_refuted]). *)
Theorem C33_prepared_partial {V} c inps st pc (evs : list (event V)) i p k rc vals res x :
  client_run c inps = Some (st, pc, evs) -> (length (filter is_connect evs) <= 1)%nat ->
  In (EvExec i (Some p) k rc vals res x) evs ->
  p = k /\ exists j s, In (EvPrepare j k) evs /\ nth_error (c_stmts c) j = Some s /\ st_prepare s = true /\
      (j <= i < j + Nat.max 1 (st_prepareMulti s))%nat.
Proof.
  intros R L I. destruct (conn_run _ _ _ _ _ R) as (_ & _ & NX & _ & _ & _ & EP & EK).
  destruct (EP _ _ _ _ _ _ _ I) as [A B]. pose proof (EK _ _ _ _ _ _ _ I). assert (p = k) as -> by lia. split; auto.
Qed.

(** In any case a prepared statement was prepared on some connection of the client before. *)
Theorem C33_prepared_once {V} c inps st pc (evs : list (event V)) i p k rc vals res x :
  client_run c inps = Some (st, pc, evs) -> In (EvExec i (Some p) k rc vals res x) evs ->
  exists j s, In (EvPrepare j p) evs /\ nth_error (c_stmts c) j = Some s /\ st_prepare s = true /\
      (j <= i < j + Nat.max 1 (st_prepareMulti s))%nat.
Proof. intros R I. destruct (conn_run _ _ _ _ _ R) as (_ & _ & _ & _ & _ & _ & EP & _). apply (EP _ _ _ _ _ _ _ I). Qed.

Example C33_example :
  length (filter is_connect (ExC.trace ExC.c (firstn 9 ExC.run))) = 1%nat /\
  In (EvExec 2 (Some 0%nat) 0 (RC 3 1 1 1 2 1 1 1) [Some 3; Some 10; Some 20]%Z None false) (ExC.trace ExC.c (firstn 9 ExC.run)) /\
  In (EvPrepare 2 0) (ExC.trace ExC.c (firstn 9 ExC.run)).
Proof. vm_compute. tauto. Qed.

(** After a reconnect the statement prepared on the old, closed connection is executed. *)
Theorem C33_refuted : exists c inps st pc (evs : list (event Z)) i p k rc vals res x,
  client_run c inps = Some (st, pc, evs) /\ In (EvExec i (Some p) k rc vals res x) evs /\ p <> k /\
  In (EvClose p) evs /\ ~ In (EvPrepare i k) evs.
Proof.
  destruct (client_run ExC.c ExC.run) as [[[st pc] evs]|] eqn:R; [|vm_compute in R; discriminate].
  exists ExC.c, ExC.run, st, pc, evs, 2%nat, 0%nat, 1%nat, (RC 15 5 4 3 2 1 1 1), [Some 4; Some 50; Some 60]%Z, None, false.
  split; [exact R|]. vm_compute in R. injection R as <- <- <-. split; [cbn; tauto|]. split; [discriminate|]. split; [cbn; tauto|].
  intros H. cbn in H. repeat destruct H as [H|H]; try discriminate; auto.
Qed.

(* ------------------------------------------------------------------------------------ *)
(** C34: a client reports exactly once, last, exactly when it is finished. *)
Theorem C34_finish_once {V} c inps st pc (evs : list (event V)) : client_run c inps = Some (st, pc, evs) ->
  (pc = PcDone -> exists l s r, evs = l ++ [EvDone s r] /\ forall s' r', ~ In (EvDone s' r') l) /\
  (pc <> PcDone -> forall s r, ~ In (EvDone s r) evs).
Proof.
  intros R. pose proof (done_run _ _ _ _ _ R) as D. split.
  - intros ->. destruct D as (l & s & -> & F). exists l, s, (reported s). split; auto. intros s' r'. now apply done_not_in.
  - intros N s r. apply done_not_in. destruct pc; auto; congruence.
Qed.

(** No step is possible after it. *)
Theorem C34_finished_is_final {V} c (st : cst V) inp : cstep c st PcDone inp = None.
Proof. destruct inp; reflexivity. Qed.

(** An error is reported iff the client did not stop for a limit or the end of the run.  Partial:
    the run must not end while statements are prepared or rolled back ([C34_refuted]). *)
Theorem C34_error_partial {V} c inps st pc (evs : list (event V)) s r :
  client_run c inps = Some (st, pc, evs) -> Forall real_input inps -> Forall quiet_input inps ->
  In (EvDone s r) evs -> (r = None <-> regular_stop s).
Proof.
  intros R RI QI I.
  destruct (stop_run c inps RI QI (client_init c) PcStart [] ltac:(intros ? ? []) _ _ _ R _ _ I) as [-> E].
  destruct s as [|e|]; cbn.
  - tauto.
  - rewrite (E _ eq_refl). destruct (er_root e); split; congruence.
  - split; [discriminate|tauto].
Qed.

Example C34_example :
  Forall real_input ExC.run /\ Forall quiet_input ExC.run /\
  last (ExC.trace ExC.c ExC.run) EvTps = EvDone StopLimit None /\
  (* the runtime ends while the client waits for a connection *)
  ExC.trace ExC.c [IConnect (CEnv false None false false None (fun _ => None))] = [EvDone (StopErr (Err 0 true true)) None] /\
  (* the query fails because the runtime ends *)
  last (ExC.trace ExC.c [IConnect ExC.ok; IGo; IStmt (SEnv [] (Some true) (Some (Err 0 true true)) None true (CEnv true None false false None (fun _ => None)))]) EvTps
    = EvDone (StopErr (Err 0 true true)) None /\
  (* USE fails *)
  last (ExC.trace ExC.c [IConnect (CEnv false None true false (Some (ExC.myerr 1049)) (fun _ => None))]) EvTps
    = EvDone (StopErr (Err 1049 false false)) (Some (Err 1049 false false)).
Proof.
  assert (OK : forall ins e, match e with Some e => er_cancel e = er_root e /\ er_root e = false | None => True end -> real_input (IStmt (ExC.se ins e)) /\ quiet_input (IStmt (ExC.se ins e))).
  { intros ins e H. split; [|split; discriminate]. split; [repeat split; discriminate|]. intros e0 [Q|Q]; [|discriminate].
    cbn in Q. subst e. destruct H as [H1 H2]. split; auto. rewrite H2. discriminate. }
  assert (ALL : Forall (fun i : cinput Z => real_input i /\ quiet_input i) ExC.run).
  { unfold ExC.run. repeat (apply Forall_cons; [first [apply OK; cbn; auto; fail|split; cbn; auto; repeat split; discriminate]|]). apply Forall_nil. }
  split; [eapply Forall_impl; [|exact ALL]; intros i H; apply H|]. split; [eapply Forall_impl; [|exact ALL]; intros i H; apply H|]. vm_compute. repeat split.
Qed.

(** The runtime ends while a statement is prepared: reported as an error. *)
Theorem C34_refuted : ~ (forall c inps st pc (evs : list (event Z)) s r,
  client_run c inps = Some (st, pc, evs) -> Forall real_input inps ->
  In (EvDone s r) evs -> regular_stop s -> r = None).
Proof.
  intros H.
  set (r := [IConnect (CEnv false None true false None (fun _ => Some (Err 0 true true)))] : list (cinput Z)).
  destruct (client_run ExC.c r) as [[[st pc] evs]|] eqn:R; [|vm_compute in R; discriminate].
  specialize (H _ _ _ _ _ (StopErr (Err 0 false true)) (Some (Err 0 false true)) R).
  vm_compute in R. injection R as <- <- <-.
  discriminate (H ltac:(repeat constructor; cbn; try discriminate; intros ? ? [= <-]; reflexivity) ltac:(cbn; tauto) eq_refl).
Qed.

(* ------------------------------------------------------------------------------------ *)
(** C35: [v_inputs] are the values the generators return for this execution, one list for each
    data key of the statement that is not @PREV. *)
Theorem C35_values_placed {V} c inps st pc (evs : list (event V)) se st' pc' l i ps k rc vals res x s :
  client_run c inps = Some (st, pc, evs) -> cstep c st pc (IStmt se) = Some (st', pc', l) ->
  In (EvExec i ps k rc vals res x) l -> nth_error (c_stmts c) i = Some s ->
  fst (arities (st_inputs s)) = 0%nat -> map (@length V) (v_inputs se) = snd (arities (st_inputs s)) ->
  vals = placed (st_inputs s) (v_inputs se) [].
Proof. apply values_placed. Qed.

Example C35_example :
  arities ["@n"; "@r"; "@PREV"] = (0, [1; 2])%nat /\
  placed ["@n"; "@r"; "@PREV"] [[3]; [10; 20]]%Z [] = [Some 3; Some 10; Some 20]%Z /\
  map (fun e => match e with EvExec _ _ _ _ vals _ _ => vals | _ => [] end)
      (filter (fun e => Nat.eqb (ex_stmt e) 2) (execs (ExC.trace ExC.c ExC.run))) =
    [[Some 3; Some 10; Some 20]; [Some 4; Some 30; Some 40]; [Some 4; Some 50; Some 60]; [Some 4; Some 50; Some 60]]%Z.
Proof. vm_compute. auto. Qed.

(* ------------------------------------------------------------------------------------ *)
(** C60: the counters generators receive.  Partial: every trx must begin with a query. *)
Theorem C60_run_counters_partial {V} c lens inps st pc (evs : list (event V)) pre e post :
  has_trx c lens -> trx_start_with_query c lens -> c_stmts c <> [] ->
  client_run c inps = Some (st, pc, evs) -> execs evs = pre ++ e :: post ->
  rc_statement (ex_rc e) = (cntN is_exec pre + 1)%N /\
  rc_trx (ex_rc e) = cntN (starts_trx lens) (pre ++ [e]) /\
  rc_iter (ex_rc e) = cntN (fun e => Nat.eqb (ex_stmt e) 0) (pre ++ [e]) /\
  rc_conn (ex_rc e) = (1 + cntN failed_exec pre)%N /\
  rc_client (ex_rc e) = rl_client (c_rl c) /\ rc_cg (ex_rc e) = rl_cg (c_rl c) /\
  rc_eg (ex_rc e) = rl_eg (c_rl c) /\ rc_stage (ex_rc e) = rl_stage (c_rl c).
Proof.
  intros T S N R E. destruct (trx_run c lens T S N _ _ _ _ R) as (_ & C & _).
  destruct (C _ _ _ E) as (C1 & C2 & C3 & C4 & C5 & C6 & C7 & C8 & _). repeat (split; auto).
Qed.

Example C60_example :
  map (@ex_rc Z) (filter (fun e => Nat.eqb (ex_stmt e) 1) (execs (ExC.trace ExC.c ExC.run))) =
    [RC 2 1 1 1 2 1 1 1; RC 8 3 2 1 2 1 1 1; RC 11 4 3 2 2 1 1 1; RC 14 5 4 3 2 1 1 1].
Proof. vm_compute. auto. Qed.

(** The connection counter counts every failed query as a new connection, also the ones after
    which the connection is kept. *)
Theorem C60_refuted_conn : ~ (forall c lens inps st pc (evs : list (event Z)) pre e post,
  has_trx c lens -> trx_start_with_query c lens -> c_stmts c <> [] ->
  client_run c inps = Some (st, pc, evs) -> evs = pre ++ e :: post -> is_exec e = true ->
  rc_conn (ex_rc e) = cntN is_connect pre).
Proof.
  intros H. destruct (client_run ExC.c ExC.run) as [[[st pc] evs]|] eqn:R; [|vm_compute in R; discriminate].
  set (n := S (S (length (ExC.trace ExC.c (firstn 13 ExC.run))))).
  set (pre := firstn n (ExC.trace ExC.c ExC.run)). set (post := skipn (S n) (ExC.trace ExC.c ExC.run)).
  set (e := nth n (ExC.trace ExC.c ExC.run) EvTps).
  assert (ET : evs = ExC.trace ExC.c ExC.run) by (unfold ExC.trace; now rewrite R).
  assert (E : evs = pre ++ e :: post) by (rewrite ET; vm_compute; reflexivity).
  specialize (H _ _ _ _ _ _ _ _ _ ExC.has ExC.start ltac:(discriminate) R E).
  assert (X : is_exec e = true) by (vm_compute; reflexivity). specialize (H X).
  assert (Y : (rc_conn (ex_rc e) =? cntN is_connect pre)%N = false) by (vm_compute; reflexivity). rewrite H, N.eqb_refl in Y. discriminate Y.
Qed.

(* ------------------------------------------------------------------------------------ *)
(** C61: each execution is preceded by its permits (TPS on BEGIN, QPS always, if limited), and
    permits are taken for nothing else except for at most the last statement, which a data limit
    keeps from being executed. *)
Theorem C61_permits {V} c inps st pc (evs : list (event V)) : client_run c inps = Some (st, pc, evs) ->
  exists rest, filter (fun e => is_permit e || is_exec e)%bool evs =
      concat (map (fun e => permits_for c (ex_stmt e) ++ [e]) (execs evs)) ++ rest /\
    Forall (fun e => is_permit e = true) rest /\ (pc <> PcDone -> rest = []) /\ (length rest <= 2)%nat.
Proof. exact (permit_run c inps st pc evs). Qed.

Example C61_example :
  filter (fun e => is_permit e || is_exec e)%bool (ExC.trace ExC.c (firstn 4 ExC.run)) =
    [EvTps; EvQps; EvExec 0 None 0 (RC 1 1 1 1 2 1 1 1) [] None false;
     EvQps; EvExec 1 None 0 (RC 2 1 1 1 2 1 1 1) [Some 5%Z] None false].
Proof. vm_compute. reflexivity. Qed.

(* ------------------------------------------------------------------------------------ *)
(** C62: after a successful execution, and only then, and once, the affected rows are counted
    against the statement's data limit and its insert id or columns are saved.  Partial: every trx
    must begin with a query. *)
Theorem C62_saved_partial {V} c lens inps st pc (evs : list (event V)) :
  has_trx c lens -> trx_start_with_query c lens -> c_stmts c <> [] ->
  client_run c inps = Some (st, pc, evs) ->
  filter (fun e => is_save e || is_exec e)%bool evs =
    concat (map (fun e => e :: match e with EvExec i _ _ _ _ None _ => after_success c i | _ => [] end) (execs evs)).
Proof. intros T S N R. exact (save_run c lens T S N _ _ _ _ R). Qed.

(** A trx that begins with an idle time: the row written by the next statement is not counted. *)
Theorem C62_refuted : exists c lens inps st (evs : list (event Z)) e,
  has_trx c lens /\ c_stmts c <> [] /\ client_run c inps = Some (st, PcDone, evs) /\
  execs evs = [e] /\ failed_exec e = false /\ after_success c (ex_stmt e) = [EvAffected (V := Z) (ex_stmt e)] /\
  filter is_save evs = [].
Proof.
  set (q := Stmt "t" "INSERT INTO t VALUES (1)" false false 0 false false true false 0 [] [] "" (Some 0%nat) []).
  set (w := Stmt "t" "" false false 0 false false false false 100 [] [] "" None []).
  set (c := Client (RL 1 1 1 1 0 0) "" 1 0 None 0 None None None [w; q] [SData [] [] None true false; SData [] [] None false true] [Some "t"]).
  set (inps := [IConnect ExC.ok; IGo; IStmt (ExC.se [] None); IStmt (ExC.se [] None)]).
  destruct (client_run c inps) as [[[st pc] evs]|] eqn:E; [|vm_compute in E; discriminate].
  exists c, [2]%nat, inps, st, evs. eexists. vm_compute in E. injection E as <- <- <-.
  split; [split; [repeat constructor|repeat split]|]. split; [discriminate|]. split; [reflexivity|].
  split; [reflexivity|]. split; [reflexivity|]. split; reflexivity.
Qed.

Example C62_example :
  filter (fun e => is_save e || Nat.eqb (ex_stmt e) 2 || Nat.eqb (ex_stmt e) 6)%bool (filter (fun e => is_save e || is_exec e)%bool (ExC.trace ExC.c (firstn 13 ExC.run))) =
    [EvExec 2 (Some 0%nat) 0 (RC 3 1 1 1 2 1 1 1) [Some 3; Some 10; Some 20]%Z None false; EvAffected 2;
     EvExec 6 None 0 (RC 6 2 1 1 2 1 1 1) [] None false; EvSaved 6;
     EvExec 2 (Some 0%nat) 0 (RC 9 3 2 1 2 1 1 1) [Some 4; Some 30; Some 40]%Z (Some (Err 1205 false false)) false].
Proof. vm_compute. reflexivity. Qed.

Print Assumptions C30_clients_have_trx.
Print Assumptions C29_recorded_partial.
Print Assumptions C29_disabled_partial.
Print Assumptions C29_refuted.
Print Assumptions C30_trx_boundaries_partial.
Print Assumptions C30_refuted.
Print Assumptions C31_keep_connection_partial.
Print Assumptions C31_reconnect.
Print Assumptions C31_ddl_stops.
Print Assumptions C31_refuted.
Print Assumptions C32_rollback_partial.
Print Assumptions C32_refuted.
Print Assumptions C33_prepared_partial.
Print Assumptions C33_prepared_once.
Print Assumptions C33_refuted.
Print Assumptions C34_finish_once.
Print Assumptions C34_finished_is_final.
Print Assumptions C34_error_partial.
Print Assumptions C34_refuted.
Print Assumptions C35_values_placed.
Print Assumptions C60_run_counters_partial.
Print Assumptions C60_refuted_conn.
Print Assumptions C61_permits.
Print Assumptions C62_saved_partial.
Print Assumptions C62_refuted.
