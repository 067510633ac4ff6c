(** Proofs about the execution of a client. *)
From Verif Require Import Prelude ListAux ScopeModel StmtModel WorkloadModel WorkloadSpec ClientModel ClientSpec.
From Verif Require Import LimitProofs.
#[local] Open Scope string_scope.
#[local] Open Scope list_scope.

Section C.
  Context {V : Type}.
  Notation event := (event V).
  Notation cst := (cst V).
  Variable c : client.

  Definition quiet (e : event) : bool := (conn_event e || match e with EvRollback _ => true | _ => false end)%bool.

  Lemma prepare_quiet conn prep : forall stmts i ps ps' evs r,
    prepare_stmts conn prep i stmts ps = (ps', evs, r) -> Forall (fun e : event => quiet e = true) evs.
  Proof.
    induction stmts as [|s stmts IH]; intros i ps ps' evs r H; cbn in H; [inv H; constructor|].
    destruct (negb (st_prepare s)); [eauto|].
    destruct (nth_error ps i) as [[k|]|]; [eauto| |inv H; constructor].
    destruct (prep i); [inv H; constructor|].
    destruct (set_nth ps i (Some conn)) as [ps1|]; [|inv H; constructor].
    destruct (copies_ps ps1 i (Some conn) 1 (st_prepareMulti s - 1)) as [ps2|]; [|inv H; repeat constructor].
    destruct (prepare_stmts conn prep (S i) stmts ps2) as [[ps3 e3] r3] eqn:E. inv H. constructor; eauto.
  Qed.

  (** What a connection attempt leaves alone. *)
  Definition same_run (st st' : cst) : Prop :=
    s_values st' = s_values st /\ s_rc st' = s_rc st /\ s_trxNo st' = s_trxNo st /\ s_active st' = s_active st.

  Lemma reconnect_inv st ce st' evs r : reconnect (V := V) c st ce = (st', evs, r) ->
    same_run st st' /\ Forall (fun e => quiet e = true) evs.
  Proof.
    unfold reconnect. intros H.
    assert (E0 : Forall (fun e : event => quiet e = true) match s_conn st with Some k => [EvClose k] | None => [] end)
      by (destruct (s_conn st); repeat constructor).
    destruct (negb (ce_conn ce)); [inv H; split; [repeat split|auto]|].
    destruct (ce_ctx1 ce); [inv H; split; [repeat split|apply Forall_app; split; auto; repeat constructor]|].
    destruct (if negb (c_defaultDb c =? "")%string then ce_use ce else None);
      [inv H; split; [repeat split|apply Forall_app; split; auto; repeat constructor]|].
    destruct (prepare_stmts (s_next st) (ce_prep ce) 0 (c_stmts c) (s_ps st)) as [[ps e3] r3] eqn:E. inv H.
    split; [repeat split|]. rewrite !Forall_app. split; [split; [split; [exact E0|repeat constructor]|]|eapply prepare_quiet; eauto].
    destruct (negb _); repeat constructor.
  Qed.

  Lemma connect_inv st cerr ce st' evs r : connect (V := V) c st cerr ce = (st', evs, r) ->
    same_run st st' /\ Forall (fun e => quiet e = true) evs.
  Proof.
    unfold connect. intros H.
    assert (T : forall r0, (st, @nil event, r0) = (st', evs, r) -> same_run st st' /\ Forall (fun e => quiet e = true) evs)
      by (intros r0 Q; inv Q; repeat split; auto).
    destruct (ce_ctx0 ce); [eauto|]. destruct cerr as [[e i]|]; [|eapply reconnect_inv; eauto].
    destruct (nth_error (c_stmts c) i) as [s|]; [|eauto].
    destruct (st_ddl s && _)%bool; [eauto|].
    destruct (error_handling (er_code e)) as [fl|]; [|eapply reconnect_inv; eauto].
    destruct (negb (N.land fl Eabort =? 0)%N); [eauto|].
    destruct (negb (N.land fl Erollback =? 0)%N && s_active st)%bool.
    - destruct (s_conn st) as [k|]; [|eauto]. destruct (ce_rollback ce); [inv H; repeat split; auto; repeat constructor|].
      destruct (negb (N.land fl Econtinue =? 0)%N); [inv H; repeat split; auto; repeat constructor|].
      destruct (reconnect c st ce) as [[st1 e1] r1] eqn:E. inv H. destruct (reconnect_inv _ _ _ _ _ E). split; auto.
    - destruct (negb (N.land fl Econtinue =? 0)%N); [inv H; repeat split; auto; repeat constructor|].
      eapply reconnect_inv; eauto.
  Qed.

  (** The state in which statement [i] is executed. *)
  Definition pre_rc (st : cst) (d : sdata) : runcount :=
    let rc := s_rc st in
    RC (rc_statement rc + 1) (if d_begin d then rc_trx rc + 1 else rc_trx rc) (rc_iter rc) (rc_conn rc)
       (rc_client rc) (rc_cg rc) (rc_eg rc) (rc_stage rc).
  Definition pre_no (st : cst) (d : sdata) : Z := if d_begin d then (s_trxNo st + 1)%Z else s_trxNo st.
  Definition pre_active (st : cst) (d : sdata) : bool :=
    if d_begin d then true else if d_end d then false else s_active st.
  Definition pre_state (st : cst) (d : sdata) (values : list (list (option V))) : cst :=
    CSt (s_conn st) (s_next st) (s_ps st) values (pre_rc st d) (pre_no st d) (pre_active st d).

  Definition record_of (slot : option nat) (s : stmt) : list event :=
    match slot with Some n => [EvRecord n (class_of s)] | None => [] end.
  Definition saved_of (i : nat) (s : stmt) (d : sdata) : list event :=
    if st_resultset s then match d_outputs d with [] => [] | _ => [EvSaved i] end
    else (match st_limit s with Some _ => [EvAffected i] | None => [] end)
         ++ match d_insertId d with Some _ => [EvSaved i] | None => [] end.
  Definition error_of (slot : option nat) (e : err) (se : senv V) : list event :=
    match slot with Some k => if v_ctx se then [] else [EvError k (er_code e)] | None => [] end.
  Definition result_of (s : stmt) (d : sdata) (se : senv V) : option err :=
    match v_res se with
    | Some e => Some e
    | None => if (st_resultset s && match d_outputs d with [] => false | _ => true end)%bool then v_scan se else None
    end.

  Inductive exec_case (st : cst) (i : nat) (se : senv V) : cst -> list event -> next -> Prop :=
  | XIndex : exec_case st i se st [] (NStop StopPanic)
  | XIdle s : nth_error (c_stmts c) i = Some s -> is_idle s = true -> exec_case st i se st [] NStmt
  | XNoConn s : nth_error (c_stmts c) i = Some s -> is_idle s = false ->
      exec_case st i se st (permits_for c i) (NStop StopPanic)
  | XNoExec s d vals values stp : nth_error (c_stmts c) i = Some s -> nth_error (c_data c) i = Some d -> is_idle s = false ->
      nth_error (s_values st) i = Some vals -> set_nth (s_values st) i (fill_values vals 0 (v_inputs se)) = Some values ->
      stp = StopPanic \/ stp = StopLimit ->
      exec_case st i se (pre_state st d values) (permits_for c i) (NStop stp)
  | XSlot s d vals k ps values : nth_error (c_stmts c) i = Some s -> nth_error (c_data c) i = Some d ->
      nth_error (s_ps st) i = Some ps -> s_conn st = Some k -> is_idle s = false ->
      nth_error (s_values st) i = Some vals -> set_nth (s_values st) i (fill_values vals 0 (v_inputs se)) = Some values ->
      stats_slot c (pre_no st d) = None ->
      exec_case st i se (pre_state st d values)
        (permits_for c i ++ [EvExec i ps k (pre_rc st d) (fill_values vals 0 (v_inputs se)) (result_of s d se) (v_ctx se)]) (NStop StopPanic)
  | XOk s d vals k ps values slot : nth_error (c_stmts c) i = Some s -> nth_error (c_data c) i = Some d ->
      nth_error (s_ps st) i = Some ps -> s_conn st = Some k -> is_idle s = false ->
      nth_error (s_values st) i = Some vals -> set_nth (s_values st) i (fill_values vals 0 (v_inputs se)) = Some values ->
      stats_slot c (pre_no st d) = Some slot -> result_of s d se = None ->
      exec_case st i se (pre_state st d values)
        (permits_for c i ++ [EvExec i ps k (pre_rc st d) (fill_values vals 0 (v_inputs se)) None (v_ctx se)]
           ++ record_of slot s ++ saved_of i s d) NStmt
  | XErr s d vals k ps values slot e st2 evs r : nth_error (c_stmts c) i = Some s -> nth_error (c_data c) i = Some d ->
      nth_error (s_ps st) i = Some ps -> s_conn st = Some k -> is_idle s = false ->
      nth_error (s_values st) i = Some vals -> set_nth (s_values st) i (fill_values vals 0 (v_inputs se)) = Some values ->
      stats_slot c (pre_no st d) = Some slot -> result_of s d se = Some e ->
      connect c (pre_state st d values) (Some (e, i)) (v_conn se) = (st2, evs, r) ->
      exec_case st i se
        (match r with PDoneOk =>
           with_rc st2 (let rc := pre_rc st d in
             RC (rc_statement rc) (rc_trx rc) (rc_iter rc) (rc_conn rc + 1) (rc_client rc) (rc_cg rc) (rc_eg rc) (rc_stage rc))
         | _ => st2 end)
        (permits_for c i ++ [EvExec i ps k (pre_rc st d) (fill_values vals 0 (v_inputs se)) (Some e) (v_ctx se)]
           ++ record_of slot s ++ error_of slot e se ++ evs)
        (match r with PDoneOk => NIter | PDoneErr e' => NStop (StopErr e') | PDonePanic => NStop StopPanic end).

  Lemma exec_inv st i se st' evs nx : exec_stmt c st i se = (st', evs, nx) -> exec_case st i se st' evs nx.
  Proof.
    unfold exec_stmt. intros H.
    destruct (nth_error (c_stmts c) i) as [s|] eqn:ES; [|inv H; constructor].
    destruct (nth_error (c_data c) i) as [d|] eqn:ED; [|inv H; constructor].
    destruct (nth_error (s_values st) i) as [vals|] eqn:EV; [|inv H; constructor].
    destruct (nth_error (s_ps st) i) as [ps|] eqn:EP; [|inv H; constructor].
    destruct (negb (st_idle s =? 0)%Z) eqn:EI; [inv H; eapply XIdle; eauto|].
    assert (PM : forall A (f : list event -> A),
      f ((if (match c_tps c with Some _ => true | None => false end && st_begin s)%bool then [EvTps] else []) ++
         (if match c_qps c with Some _ => true | None => false end then [EvQps] else [])) = f (permits_for c i)).
    { intros A f. f_equal. unfold permits_for. rewrite ES. destruct (c_tps c), (c_qps c), (st_begin s); reflexivity. }
    assert (DD : (let '(trx1, trxNo1, active1) :=
          if d_begin d then ((rc_trx (s_rc st) + 1)%N, (s_trxNo st + 1)%Z, true)
          else (rc_trx (s_rc st), s_trxNo st, if d_end d then false else s_active st) in (trx1, trxNo1, active1)) =
        ((if d_begin d then rc_trx (s_rc st) + 1 else rc_trx (s_rc st))%N, pre_no st d, pre_active st d)).
    { unfold pre_no, pre_active. destruct (d_begin d); reflexivity. }
    destruct (if d_begin d then ((rc_trx (s_rc st) + 1)%N, (s_trxNo st + 1)%Z, true)
          else (rc_trx (s_rc st), s_trxNo st, if d_end d then false else s_active st)) as [[trx1 trxNo1] active1].
    injection DD as -> -> ->.
    destruct (set_nth (s_values st) i (fill_values vals 0 (v_inputs se))) as [values|] eqn:EW.
    2:{ rewrite (PM _ (fun l => (st, l, NStop StopPanic))) in H. inv H. eapply XNoConn; eauto. }
    destruct (s_conn st) as [k|] eqn:EK.
    2:{ rewrite (PM _ (fun l => (st, l, NStop StopPanic))) in H. inv H. eapply XNoConn; eauto. }
    assert (PS : pre_state st d values = CSt (Some k) (s_next st) (s_ps st) values (pre_rc st d) (pre_no st d) (pre_active st d))
      by (unfold pre_state; now rewrite EK).
    change (RC (rc_statement (s_rc st) + 1) (if d_begin d then rc_trx (s_rc st) + 1 else rc_trx (s_rc st)) (rc_iter (s_rc st))
             (rc_conn (s_rc st)) (rc_client (s_rc st)) (rc_cg (s_rc st)) (rc_eg (s_rc st)) (rc_stage (s_rc st)))%N with (pre_rc st d) in H.
    rewrite <- PS in H.
    destruct (if st_resultset s then Some true else match st_limit s with Some _ => v_more se | None => Some true end) as [[|]|].
    - cbv zeta in H. rewrite (PM _ (fun l => l ++ _)) in H.
      change (match v_res se with Some e => Some e | None => if (st_resultset s && match d_outputs d with [] => false | _ => true end)%bool then v_scan se else None end)
        with (result_of s d se) in H.
      destruct (stats_slot c (pre_no st d)) as [slot|] eqn:ESL.
      + destruct (result_of s d se) as [e|] eqn:ER.
        * unfold handle_error in H.
          destruct (connect c (pre_state st d values) (Some (e, i)) (v_conn se)) as [[st2 e2] r] eqn:EC.
          assert (RC2 : s_rc st2 = pre_rc st d) by (destruct (connect_inv _ _ _ _ _ _ EC) as ((_ & -> & _) & _); reflexivity).
          pose proof (XErr st i se s d vals k ps values slot e st2 e2 r ES ED EP EK EI EV EW ESL ER EC) as X.
          destruct r; cbv zeta in H; injection H as <- <- <-; rewrite ?RC2, <- !app_assoc; exact X.
        * injection H as <- <- <-. rewrite <- !app_assoc. exact (XOk st i se s d vals k ps values slot ES ED EP EK EI EV EW ESL ER).
      + injection H as <- <- <-. exact (XSlot st i se s d vals k ps values ES ED EP EK EI EV EW ESL).
    - rewrite (PM _ (fun l => (_, l, NStop StopLimit))) in H. injection H as <- <- <-. eapply XNoExec; eauto.
    - rewrite (PM _ (fun l => (_, l, NStop StopPanic))) in H. injection H as <- <- <-. eapply XNoExec; eauto.
  Qed.

  (** Induction over runs. *)
  Lemma run_ind (P : cst -> cpc -> list event -> Prop) :
    (forall st pc evs inp st' pc' evs', P st pc evs -> cstep c st pc inp = Some (st', pc', evs') -> P st' pc' (evs ++ evs')) ->
    forall inps st pc evs, P st pc evs -> forall st' pc' evs', crun c st pc inps = Some (st', pc', evs') -> P st' pc' (evs ++ evs').
  Proof.
    intros STEP. induction inps as [|inp inps IH]; intros st pc evs HP st' pc' evs' H; cbn in H.
    - inv H. now rewrite app_nil_r.
    - destruct (cstep c st pc inp) as [[[st1 pc1] e1]|] eqn:E; [|discriminate].
      destruct (crun c st1 pc1 inps) as [[[st2 pc2] e2]|] eqn:E2; [|discriminate]. inv H.
      rewrite app_assoc. eapply IH; [eapply STEP; eauto|eauto].
  Qed.

  Lemma client_run_ind (P : cst -> cpc -> list event -> Prop) :
    P (client_init c) PcStart [] ->
    (forall st pc evs inp st' pc' evs', P st pc evs -> cstep c st pc inp = Some (st', pc', evs') -> P st' pc' (evs ++ evs')) ->
    forall inps st pc evs, client_run c inps = Some (st, pc, evs) -> P st pc evs.
  Proof. intros H0 HS inps st pc evs H. apply (run_ind P HS inps _ _ [] H0 _ _ _ H). Qed.

  (** One step of the machine in terms of the above. *)
  Inductive step_case (st : cst) : cpc -> cinput V -> cst -> cpc -> list event -> Prop :=
  | SStart ce st' evs r : connect c st None ce = (st', evs, r) ->
      step_case st PcStart (IConnect ce) st'
        (match r with PDoneOk => PcIter | _ => PcDone end)
        (evs ++ match r with PDoneOk => [] | PDoneErr e => finish st' (StopErr e) | PDonePanic => finish st' StopPanic end)
  | SStop : step_case st PcIter IStop st PcDone (finish st StopLimit)
  | SGo : step_case st PcIter IGo
      (let rc := s_rc st in CSt (s_conn st) (s_next st) (s_ps st) (s_values st)
        (RC (rc_statement rc) (rc_trx rc) (rc_iter rc + 1) (rc_conn rc) (rc_client rc) (rc_cg rc) (rc_eg rc) (rc_stage rc))
        (-1) false) (stmt_pc c 0) []
  | SStmt i se st' evs nx : exec_case st i se st' evs nx -> exec_stmt c st i se = (st', evs, nx) ->
      step_case st (PcStmt i) (IStmt se) st'
        (match nx with NStmt => stmt_pc c (S i) | NIter => PcIter | NStop _ => PcDone end)
        (evs ++ match nx with NStop s => finish st' s | _ => [] end).

  Lemma step_inv st pc inp st' pc' evs : cstep c st pc inp = Some (st', pc', evs) -> step_case st pc inp st' pc' evs.
  Proof.
    unfold cstep. intros H. destruct pc, inp; try discriminate.
    - destruct (connect c st None ce) as [[st1 e1] r] eqn:E.
      pose proof (SStart st ce st1 e1 r E) as X. destruct r; inv H; rewrite ?app_nil_r in X; exact X.
    - inv H. constructor.
    - inv H. constructor.
    - destruct (exec_stmt c st i se) as [[st1 e1] nx] eqn:E. pose proof (SStmt st i se st1 e1 nx (exec_inv _ _ _ _ _ _ E) E) as X.
      destruct nx; inv H; rewrite ?app_nil_r in X; exact X.
  Qed.
End C.
