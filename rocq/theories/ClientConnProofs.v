(** Connections, prepared statements, permits, values and the end of a run. *)
From Verif Require Import Prelude ListAux ScopeModel StmtModel WorkloadModel WorkloadSpec ClientModel ClientSpec ClientProofs ClientTrxProofs LimitProofs.
#[local] Open Scope string_scope.
#[local] Open Scope list_scope.

Section Conn.
  Context {V : Type}.
  Notation event := (event V).
  Notation cst := (cst V).
  Variable c : client.

  (* ---------------------------------------------------------------------------------- *)
  (** * The end *)

  Lemma quiet_done (e : event) : quiet e = true -> is_done e = false.
  Proof. destruct e; cbn; congruence. Qed.

  Definition done_inv (st : cst) (pc : cpc) (evs : list event) : Prop :=
    match pc with
    | PcDone => exists l s, evs = l ++ [EvDone s (reported s)] /\ filter is_done l = []
    | _ => filter is_done evs = []
    end.

  Lemma exec_no_done st i se st' evs nx : exec_case c st i se st' evs nx -> filter (@is_done V) evs = [].
  Proof.
    intros X. assert (PD : forall i, filter is_done (permits_for c i) = @nil event) by (intros; apply permits_no; intros []; cbn; congruence).
    assert (RD : forall slot s, filter is_done (record_of slot s) = @nil event) by (intros [|]; reflexivity).
    assert (ED : forall slot e (se : senv V), filter is_done (error_of slot e se) = @nil event)
      by (intros [|] e se0; unfold error_of; [destruct (v_ctx se0)|]; reflexivity).
    assert (SD : forall i s d, filter is_done (saved_of i s d) = @nil event)
      by (intros j s d; unfold saved_of; destruct (st_resultset s), (d_outputs d), (st_limit s), (d_insertId d); reflexivity).
    inv X; rewrite ?filter_app, ?PD, ?RD, ?ED, ?SD; auto.
    match goal with H : connect _ _ _ _ = _ |- _ => destruct (connect_inv _ _ _ _ _ _ _ H) as (_ & Q) end.
    rewrite (quiet_no _ _ quiet_done Q). reflexivity.
  Qed.

  Lemma finish_done (st : cst) (evs : list event) s : filter is_done evs = [] ->
    exists l s', evs ++ finish st s = l ++ [EvDone s' (reported s')] /\ filter is_done l = [].
  Proof.
    intros H. unfold finish. rewrite app_assoc. eexists _, s. split; [reflexivity|]. rewrite filter_app, H. destruct (s_conn st); reflexivity.
  Qed.

  Lemma done_step st pc evs inp st' pc' l : done_inv st pc evs -> cstep c st pc inp = Some (st', pc', l) -> done_inv st' pc' (evs ++ l).
  Proof.
    intros D H. apply step_inv in H. inv H; cbn [done_inv] in D.
    - match goal with H : connect _ _ _ _ = _ |- _ => destruct (connect_inv _ _ _ _ _ _ _ H) as (_ & Q) end.
      assert (DQ : filter is_done (evs ++ evs0) = []) by now rewrite filter_app, D, (quiet_no _ _ quiet_done Q).
      rewrite app_assoc. destruct r; cbn [done_inv]; [now rewrite app_nil_r| |]; now apply finish_done.
    - now apply finish_done.
    - rewrite app_nil_r. unfold stmt_pc. destruct (_ <? _)%nat; exact D.
    - match goal with H : exec_case _ _ _ _ _ _ _ |- _ => apply exec_no_done in H; rename H into X end.
      assert (DQ : filter is_done (evs ++ evs0) = []) by now rewrite filter_app, D, X.
      rewrite app_assoc. destruct nx; cbn [done_inv].
      + rewrite app_nil_r. unfold stmt_pc. destruct (_ <? _)%nat; exact DQ.
      + now rewrite app_nil_r.
      + now apply finish_done.
  Qed.

  Lemma done_run inps st pc evs : client_run c inps = Some (st, pc, evs) -> done_inv st pc evs.
  Proof. revert inps st pc evs. apply client_run_ind; [reflexivity|apply done_step]. Qed.

  (** The error of a connection attempt. *)
  Lemma prepare_err conn prep : forall stmts i ps ps' evs e,
    prepare_stmts (V := V) conn prep i stmts ps = (ps', evs, PDoneErr e) -> exists j e', prep j = Some e' /\ e = err_text e'.
  Proof.
    induction stmts as [|s stmts IH]; intros i ps ps' evs e H; cbn in H; [inv H|].
    destruct (negb (st_prepare s)); [eauto|].
    destruct (nth_error ps i) as [[k|]|]; [eauto| |inv H].
    destruct (prep i) eqn:EP; [inv H; eauto|].
    destruct (set_nth ps i (Some conn)) as [ps1|]; [|inv H].
    destruct (copies_ps ps1 i (Some conn) 1 (st_prepareMulti s - 1)) as [ps2|]; [|inv H].
    destruct (prepare_stmts conn prep (S i) stmts ps2) as [[ps3 e3] r3] eqn:E. inv H. eauto.
  Qed.

  Lemma reconnect_err st ce st' evs e : real_cenv ce -> quiet_setup ce ->
    reconnect (V := V) c st ce = (st', evs, PDoneErr e) -> real_err e.
  Proof.
    unfold reconnect, real_err. intros (R1 & _ & _) (_ & Q) H.
    destruct (negb (ce_conn ce)); [inv H; reflexivity|]. destruct (ce_ctx1 ce); [inv H; reflexivity|].
    destruct (negb (c_defaultDb c =? "")%string); [destruct (ce_use ce) eqn:EU; [inv H; now apply R1|]|].
    all: destruct (prepare_stmts (s_next st) (ce_prep ce) 0 (c_stmts c) (s_ps st)) as [[ps e3] r3] eqn:E; inv H;
      destruct (prepare_err _ _ _ _ _ _ _ _ E) as (j & e' & P & ->); cbn; symmetry; eauto.
  Qed.

  Lemma connect_err st cerr ce st' evs e : real_cenv ce -> quiet_setup ce ->
    (forall er i, cerr = Some (er, i) -> real_err er /\ (er_root er = true -> ce_ctx0 ce = true)) ->
    connect (V := V) c st cerr ce = (st', evs, PDoneErr e) -> real_err e.
  Proof.
    intros R Q CE H. unfold connect in H. destruct (ce_ctx0 ce) eqn:E0; [inv H; reflexivity|].
    destruct cerr as [[er i]|]; [|eapply reconnect_err; eauto].
    destruct (CE _ _ eq_refl) as [RE CT]. assert (ER : er_root er = false) by (destruct (er_root er); auto; discriminate (CT eq_refl)).
    destruct (nth_error (c_stmts c) i) as [s|]; [|inv H].
    destruct (st_ddl s && _)%bool; [inv H; unfold real_err; cbn; auto|].
    destruct (error_handling (er_code er)) as [fl|]; [|eapply reconnect_err; eauto].
    destruct (negb (N.land fl Eabort =? 0)%N); [inv H; auto|].
    destruct (negb (N.land fl Erollback =? 0)%N && s_active st)%bool.
    - destruct (s_conn st) as [k|]; [|inv H]. destruct (ce_rollback ce) as [er'|] eqn:EB.
      { inv H. unfold real_err. cbn. symmetry. apply (proj1 Q). auto. }
      destruct (negb (N.land fl Econtinue =? 0)%N); [inv H|].
      destruct (reconnect c st ce) as [[st1 e1] r1] eqn:E. inv H. eapply reconnect_err; eauto.
    - destruct (negb (N.land fl Econtinue =? 0)%N); [inv H|]. eapply reconnect_err; eauto.
  Qed.

  Lemma result_in s d (se : senv V) e : result_of s d se = Some e -> v_res se = Some e \/ v_scan se = Some e.
  Proof. unfold result_of. destruct (v_res se); auto. destruct (_ && _)%bool; [auto|discriminate]. Qed.

  Definition stop_inv (st : cst) (pc : cpc) (evs : list event) : Prop :=
    forall s r, In (EvDone s r) evs -> r = reported s /\ (forall e, s = StopErr e -> real_err e).

  Lemma done_not_in (evs : list event) s r : filter is_done evs = [] -> ~ In (EvDone s r) evs.
  Proof. intros H I. assert (X : In (EvDone s r) (filter is_done evs)) by (apply filter_In; auto). rewrite H in X. destruct X. Qed.

  Lemma stop_step st pc evs inp st' pc' l : real_input inp -> quiet_input inp -> stop_inv st pc evs ->
    cstep c st pc inp = Some (st', pc', l) -> stop_inv st' pc' (evs ++ l).
  Proof.
    intros RI QI D H s r I. apply in_app_iff in I as [I|I]; [eauto|]. apply step_inv in H.
    assert (FIN : forall (st1 : cst) s1, (forall e, s1 = StopErr e -> real_err e) -> In (EvDone s r) (finish st1 s1) -> r = reported s /\ (forall e, s = StopErr e -> real_err e)).
    { intros st1 s1 HE J. unfold finish in J. apply in_app_iff in J as [J|[J|[]]]; [destruct (s_conn st1); [destruct J as [J|[]]; discriminate|destruct J]|].
      injection J as <- <-. auto. }
    inv H.
    - match goal with H : connect _ _ _ _ = _ |- _ => destruct (connect_inv _ _ _ _ _ _ _ H) as (_ & Q); rename H into HC end.
      apply in_app_iff in I as [I|I]; [exfalso; eapply done_not_in; [apply (quiet_no _ _ quiet_done Q)|eauto]|].
      destruct r0; [destruct I| |eapply FIN; [|eauto]; discriminate].
      eapply FIN; [|eauto]. intros e0 [= <-]. eapply connect_err; [exact RI|exact QI| |exact HC]. discriminate.
    - eapply FIN; [|eauto]; discriminate.
    - destruct I.
    - match goal with H : exec_case _ _ _ _ _ _ _ |- _ => pose proof (exec_no_done _ _ _ _ _ _ H) as ND; rename H into X end.
      apply in_app_iff in I as [I|I]; [exfalso; eapply done_not_in; eauto|].
      destruct nx; try destruct I. eapply FIN; [|eauto]. intros e0 ->. inv X.
      + match goal with H : _ \/ _ |- _ => destruct H; discriminate end.
      + destruct r0; try discriminate. match goal with H : NStop _ = NStop _ |- _ => injection H as -> end.
        destruct RI as [RI1 RI2]. eapply connect_err; [exact RI1|exact QI| |eauto].
        intros er j [= -> ->]. apply RI2. eapply result_in; eauto.
  Qed.

  Lemma stop_run : forall inps, Forall real_input inps -> Forall quiet_input inps -> forall st pc (evs : list event),
    stop_inv st pc evs -> forall st' pc' evs', crun c st pc inps = Some (st', pc', evs') -> stop_inv st' pc' (evs ++ evs').
  Proof.
    induction inps as [|inp inps IH]; intros R Q st pc evs HP st' pc' evs' H; cbn in H.
    - inv H. now rewrite app_nil_r.
    - destruct (cstep c st pc inp) as [[[st1 pc1] e1]|] eqn:E; [|discriminate].
      destruct (crun c st1 pc1 inps) as [[[st2 pc2] e2]|] eqn:E2; [|discriminate]. inv R. inv Q. inv H.
      rewrite app_assoc. eapply IH; eauto. eapply stop_step; eauto.
  Qed.

  (* ---------------------------------------------------------------------------------- *)
  (** * Connections and prepared statements *)

  Definition prepared_by (evs : list event) (i p : nat) : Prop :=
    exists j s, In (EvPrepare j p) evs /\ nth_error (c_stmts c) j = Some s /\ st_prepare s = true /\
      (j <= i < j + Nat.max 1 (st_prepareMulti s))%nat.

  Definition ps_ok (evs : list event) (next : nat) (ps : list (option nat)) : Prop :=
    forall i p, nth_error ps i = Some (Some p) -> (p < next)%nat /\ prepared_by evs i p.

  Lemma ps_ok_more evs evs' n n' ps : ps_ok evs n ps -> (n <= n')%nat -> ps_ok (evs ++ evs') n' ps.
  Proof. intros H L i p E. destruct (H _ _ E) as (A & j & s & I & B). split; [lia|]. exists j, s. split; auto. apply in_or_app; auto. Qed.

  Lemma copies_inv : forall n ps i p j ps', copies_ps ps i p j n = Some ps' ->
    length ps' = length ps /\ forall m, nth_error ps' m = if ((i + j <=? m) && (m <? i + j + n))%nat%bool then Some p else nth_error ps m.
  Proof.
    induction n as [|n IH]; intros ps i p j ps' H; cbn in H.
    - inv H. split; auto. intros m. destruct ((i + j <=? m) && (m <? i + j + 0))%nat%bool eqn:E; [lia|reflexivity].
    - destruct (set_nth ps (i + j) p) as [ps1|] eqn:E; [|discriminate]. destruct (IH _ _ _ _ _ H) as [L N].
      rewrite (set_nth_length _ _ _ _ E) in L. split; auto. intros m. rewrite N.
      destruct (Nat.eq_dec m (i + j)) as [->|NE].
      + rewrite (set_nth_same _ _ _ _ E).
        destruct ((i + S j <=? i + j) && (i + j <? i + S j + n))%nat%bool eqn:Q1; [lia|].
        destruct ((i + j <=? i + j) && (i + j <? i + j + S n))%nat%bool eqn:Q2; [reflexivity|lia].
      + rewrite (set_nth_diff _ _ _ _ m E) by auto.
        destruct ((i + S j <=? m) && (m <? i + S j + n))%nat%bool eqn:Q1, ((i + j <=? m) && (m <? i + j + S n))%nat%bool eqn:Q2; auto; lia.
  Qed.

  Lemma prepare_ok conn prep next (evs0 : list event) : (conn < next)%nat -> forall stmts i ps ps' evs r,
    (forall m s, nth_error stmts m = Some s -> nth_error (c_stmts c) (i + m) = Some s) ->
    prepare_stmts conn prep i stmts ps = (ps', evs, r) ->
    length ps' = length ps /\ (ps_ok evs0 next ps -> ps_ok (evs0 ++ evs) next ps').
  Proof.
    intros LC. assert (GEN : forall stmts i ps ps' evs r (evs0 : list event),
      (forall m s, nth_error stmts m = Some s -> nth_error (c_stmts c) (i + m) = Some s) ->
      prepare_stmts conn prep i stmts ps = (ps', evs, r) ->
      length ps' = length ps /\ (ps_ok evs0 next ps -> ps_ok (evs0 ++ evs) next ps')).
    2:{ intros; eapply GEN; eauto. }
    clear evs0. induction stmts as [|s stmts IH]; intros i ps ps' evs r evs0 SUB H; cbn in H; [inv H; rewrite app_nil_r; auto|].
    assert (SUB' : forall m s0, nth_error stmts m = Some s0 -> nth_error (c_stmts c) (S i + m) = Some s0).
    { intros m s0 E. replace (S i + m)%nat with (i + S m)%nat by lia. apply SUB. exact E. }
    assert (SI : nth_error (c_stmts c) i = Some s) by (specialize (SUB 0%nat s eq_refl); now rewrite Nat.add_0_r in SUB).
    destruct (negb (st_prepare s)) eqn:EPR; [eauto|].
    destruct (nth_error ps i) as [[k|]|] eqn:EI; [eauto| |inv H; rewrite app_nil_r; auto].
    destruct (prep i); [inv H; rewrite app_nil_r; auto|].
    destruct (set_nth ps i (Some conn)) as [ps1|] eqn:E1; [|inv H; rewrite app_nil_r; auto].
    assert (STEP1 : ps_ok evs0 next ps -> ps_ok (evs0 ++ [EvPrepare i conn]) next ps1).
    { intros OK m p E. destruct (Nat.eq_dec m i) as [->|NE].
      - rewrite (set_nth_same _ _ _ _ E1) in E. injection E as <-. split; auto. exists i, s.
        split; [apply in_or_app; right; left; reflexivity|]. split; auto. split; [destruct (st_prepare s); auto|lia].
      - rewrite (set_nth_diff _ _ _ _ m E1) in E by auto. eapply ps_ok_more; eauto. }
    destruct (copies_ps ps1 i (Some conn) 1 (st_prepareMulti s - 1)) as [ps2|] eqn:E2.
    2:{ inv H. split; [eapply set_nth_length; eauto|exact STEP1]. }
    destruct (copies_inv _ _ _ _ _ _ E2) as [L2 N2].
    assert (STEP2 : ps_ok evs0 next ps -> ps_ok (evs0 ++ [EvPrepare i conn]) next ps2).
    { intros OK m p E. rewrite N2 in E. destruct ((i + 1 <=? m) && (m <? i + 1 + (st_prepareMulti s - 1)))%nat%bool eqn:Q.
      - injection E as <-. split; auto. exists i, s. split; [apply in_or_app; right; left; reflexivity|]. split; auto.
        split; [destruct (st_prepare s); auto|lia].
      - exact (STEP1 OK _ _ E). }
    destruct (prepare_stmts conn prep (S i) stmts ps2) as [[ps3 e3] r3] eqn:E3. inv H.
    destruct (IH _ _ _ _ _ (evs0 ++ [EvPrepare i conn]) SUB' E3) as [L3 OK3].
    split; [rewrite L3, L2; eapply set_nth_length; eauto|]. intros OK. change (EvPrepare i conn :: e3) with ([EvPrepare i conn] ++ e3).
    rewrite app_assoc. auto.
  Qed.

  Definition conn_inv (st : cst) (pc : cpc) (evs : list event) : Prop :=
    length (s_ps st) = length (c_stmts c) /\
    map (@length _) (s_values st) = map (fun s => length (st_inputs s)) (c_stmts c) /\
    length (filter is_connect evs) = s_next st /\
    (forall k, s_conn st = Some k -> (k < s_next st)%nat) /\
    (match pc with PcIter | PcStmt _ => s_conn st <> None | _ => True end) /\
    ps_ok evs (s_next st) (s_ps st) /\
    (forall i p k rc vals res x, In (EvExec i (Some p) k rc vals res x) evs -> (p < s_next st)%nat /\ prepared_by evs i p) /\
    (forall i ps k rc vals res x, In (EvExec i ps k rc vals res x) evs -> (k < s_next st)%nat).

  (** What a connection attempt does to the connection part of the state. *)
  Lemma reconnect_conn st ce st' evs r evs0 : length (s_ps st) = length (c_stmts c) ->
    reconnect (V := V) c st ce = (st', evs, r) ->
    length (s_ps st') = length (c_stmts c) /\
    (s_next st' = s_next st + length (filter is_connect evs))%nat /\
    (forall k, s_conn st' = Some k -> (k < s_next st')%nat) /\
    (r = PDoneOk -> s_conn st' <> None) /\
    (ps_ok evs0 (s_next st) (s_ps st) -> ps_ok (evs0 ++ evs) (s_next st') (s_ps st')).
  Proof.
    intros LP H. unfold reconnect in H.
    assert (F0 : filter is_connect match s_conn st with Some k => [EvClose k] | None => [] end = @nil event) by (destruct (s_conn st); reflexivity).
    destruct (negb (ce_conn ce)).
    { inv H. cbn [s_ps s_next s_conn]. rewrite F0. cbn. (split; [|split; [|split; [|split]]]); auto; try discriminate; try lia.
      intros OK. eapply ps_ok_more; eauto. }
    destruct (ce_ctx1 ce).
    { inv H. cbn [s_ps s_next s_conn]. rewrite filter_app, F0. cbn. (split; [|split; [|split; [|split]]]); auto; try discriminate; try lia.
      - intros k [= <-]. lia.
      - intros OK. eapply ps_ok_more; eauto. }
    destruct (if negb (c_defaultDb c =? "")%string then ce_use ce else None).
    { inv H. cbn [s_ps s_next s_conn]. rewrite filter_app, F0. cbn. (split; [|split; [|split; [|split]]]); auto; try discriminate; try lia.
      - intros k [= <-]. lia.
      - intros OK. eapply ps_ok_more; eauto. }
    destruct (prepare_stmts (s_next st) (ce_prep ce) 0 (c_stmts c) (s_ps st)) as [[ps e3] r3] eqn:E. inv H.
    assert (X := prepare_ok (s_next st) (ce_prep ce) (S (s_next st))
      (evs0 ++ (match s_conn st with Some k => [EvClose k] | None => [] end ++ [EvConnect (s_next st)]) ++ (if negb (c_defaultDb c =? "")%string then [EvUse (s_next st)] else []))
      ltac:(lia) (c_stmts c) 0 (s_ps st) ps e3 r ltac:(auto) E). destruct X as [L OK].
    assert (F3 : filter is_connect e3 = []).
    { clear - E. revert E. generalize 0%nat, (s_ps st), (s_next st). revert ps e3 r. induction (c_stmts c) as [|s stmts IH]; intros ps' evs r i ps conn H; cbn in H; [inv H; auto|].
      destruct (negb (st_prepare s)); [eauto|].
      destruct (nth_error ps i) as [[k|]|]; [eauto| |inv H; auto].
      destruct (ce_prep ce i); [inv H; auto|].
      destruct (set_nth ps i (Some conn)) as [ps1|]; [|inv H; auto].
      destruct (copies_ps ps1 i (Some conn) 1 (st_prepareMulti s - 1)) as [ps2|]; [|inv H; auto].
      destruct (prepare_stmts conn (ce_prep ce) (S i) stmts ps2) as [[ps3 e3] r3] eqn:E3. inv H. cbn. eauto. }
    cbn [s_ps s_next s_conn]. rewrite !filter_app, F0, F3.
    assert (filter is_connect (if negb (c_defaultDb c =? "")%string then [EvUse (s_next st)] else []) = @nil event) as -> by (destruct (negb _); reflexivity).
    cbn. (split; [|split; [|split; [|split]]]); auto; try discriminate; try lia.
    - intros k [= <-]. lia.
    - intros OK0. rewrite <- !app_assoc in OK. rewrite <- !app_assoc. apply OK. 
      intros i p E0. destruct (OK0 _ _ E0) as (A & j & s & I & B). split; [lia|]. exists j, s. split; auto. rewrite !in_app_iff. auto.
  Qed.

  Lemma connect_conn st cerr ce st' evs r evs0 : length (s_ps st) = length (c_stmts c) ->
    (forall k, s_conn st = Some k -> (k < s_next st)%nat) ->
    (cerr <> None -> s_conn st <> None) ->
    connect (V := V) c st cerr ce = (st', evs, r) ->
    length (s_ps st') = length (c_stmts c) /\
    (s_next st' = s_next st + length (filter is_connect evs))%nat /\
    (forall k, s_conn st' = Some k -> (k < s_next st')%nat) /\
    (r = PDoneOk -> s_conn st' <> None) /\
    (ps_ok evs0 (s_next st) (s_ps st) -> ps_ok (evs0 ++ evs) (s_next st') (s_ps st')).
  Proof.
    intros LP LK NC H. unfold connect in H.
    assert (T : forall r0 l, filter is_connect l = [] -> (r0 = PDoneOk -> cerr <> None) -> (st, l, r0) = (st', evs, r) ->
      length (s_ps st') = length (c_stmts c) /\
      (s_next st' = s_next st + length (filter is_connect evs))%nat /\
      (forall k, s_conn st' = Some k -> (k < s_next st')%nat) /\
      (r = PDoneOk -> s_conn st' <> None) /\
      (ps_ok evs0 (s_next st) (s_ps st) -> ps_ok (evs0 ++ evs) (s_next st') (s_ps st'))).
    { intros r0 l F NP Q. injection Q as <- <- <-. rewrite F. cbn. (split; [|split; [|split; [|split]]]); auto; try lia. intros OK. eapply ps_ok_more; eauto. }
    destruct (ce_ctx0 ce); [eapply T; eauto; [reflexivity|discriminate]|].
    destruct cerr as [[e i]|]; [|eapply reconnect_conn; eauto].
    destruct (nth_error (c_stmts c) i) as [s|]; [|eapply T; eauto; [reflexivity|discriminate]].
    destruct (st_ddl s && _)%bool; [eapply T; eauto; [reflexivity|discriminate]|].
    destruct (error_handling (er_code e)) as [fl|]; [|eapply reconnect_conn; eauto].
    destruct (negb (N.land fl Eabort =? 0)%N); [eapply T; eauto; [reflexivity|discriminate]|].
    destruct (negb (N.land fl Erollback =? 0)%N && s_active st)%bool.
    - destruct (s_conn st) as [k|] eqn:EK; [|eapply T; eauto; [reflexivity|discriminate]].
      destruct (ce_rollback ce); [eapply T; eauto; [reflexivity|discriminate]|].
      destruct (negb (N.land fl Econtinue =? 0)%N); [eapply T; eauto; [reflexivity|discriminate]|].
      destruct (reconnect c st ce) as [[st1 e1] r1] eqn:E. inv H.
      destruct (reconnect_conn _ _ _ _ _ (evs0 ++ [EvRollback k]) LP E) as (A1 & A2 & A3 & A4 & A5).
      split; auto. split; auto. split; auto. split; auto. intros OK. rewrite <- app_assoc in A5. apply A5. eapply ps_ok_more; eauto.
    - destruct (negb (N.land fl Econtinue =? 0)%N); [eapply T; eauto; [reflexivity|discriminate]|].
      eapply reconnect_conn; eauto.
  Qed.

  Lemma map_set_nth {A B} (f : A -> B) : forall (l : list A) i x l', set_nth l i x = Some l' ->
    (forall y, nth_error l i = Some y -> f x = f y) -> map f l' = map f l.
  Proof.
    induction l as [|a l IH]; intros [|i] x l' H E; cbn in H; try discriminate.
    - inv H. cbn. f_equal. apply E. reflexivity.
    - destruct (set_nth l i x) as [l1|] eqn:EL; [|discriminate]. inv H. cbn. f_equal. eapply IH; eauto.
  Qed.

  Lemma copy_at_length : forall vals d new, length (fst (copy_at (V := V) vals d new)) = length vals.
  Proof.
    induction vals as [|v vals IH]; intros d new; destruct new as [|x new]; try (destruct d; reflexivity).
    destruct d as [|d]; cbn.
    - specialize (IH 0%nat new). destruct (copy_at vals 0 new). cbn in *. auto.
    - specialize (IH d (x :: new)). destruct (copy_at vals d (x :: new)). cbn in *. auto.
  Qed.
  Lemma fill_length : forall ins vals d, length (fill_values (V := V) vals d ins) = length vals.
  Proof.
    induction ins as [|new ins IH]; intros vals d; cbn; auto. pose proof (copy_at_length vals d new) as L.
    destruct (copy_at vals d new) as [v' n]. cbn in L. rewrite IH. auto.
  Qed.

  Lemma prepared_more evs evs' i p : prepared_by evs i p -> prepared_by (evs ++ evs') i p.
  Proof. intros (j & s & I & B). exists j, s. split; auto. apply in_or_app; auto. Qed.

  Lemma quiet_exec (e : event) : quiet e = true -> is_exec e = false.
  Proof. destruct e; cbn; congruence. Qed.

  Lemma exec_not_in (evs : list event) i ps k rc vals res x : filter is_exec evs = [] -> ~ In (EvExec i ps k rc vals res x) evs.
  Proof. intros H I. assert (X : In (EvExec i ps k rc vals res x) (filter is_exec evs)) by (apply filter_In; auto). rewrite H in X. destruct X. Qed.

  (** The executions and connections of the pieces of a step. *)
  Lemma permits_none (f : event -> bool) i : f EvTps = false -> f EvQps = false -> filter f (permits_for c i) = [].
  Proof.
    intros A B. unfold permits_for. destruct (c_tps c), (c_qps c), (nth_error (c_stmts c) i) as [s|]; try destruct (st_begin s); cbn; now rewrite ?A, ?B.
  Qed.
  Lemma record_none (f : event -> bool) slot s : (forall n q, f (EvRecord n q) = false) -> filter f (record_of slot s) = [].
  Proof. intros A. unfold record_of. destruct slot; cbn; now rewrite ?A. Qed.
  Lemma error_none (f : event -> bool) slot e (se : senv V) : (forall n q, f (EvError n q) = false) -> filter f (error_of slot e se) = [].
  Proof. intros A. unfold error_of. destruct slot; [destruct (v_ctx se)|]; cbn; now rewrite ?A. Qed.
  Lemma saved_none (f : event -> bool) i s d : f (EvSaved i) = false -> f (EvAffected i) = false -> filter f (saved_of i s d) = [].
  Proof. intros A B. unfold saved_of. destruct (st_resultset s), (d_outputs d), (st_limit s), (d_insertId d); cbn; now rewrite ?A, ?B. Qed.
  Lemma finish_none (f : event -> bool) (st : cst) s : (forall k, f (EvClose k) = false) -> (forall s r, f (EvDone s r) = false) -> filter f (finish st s) = [].
  Proof. intros A B. unfold finish. rewrite filter_app. destruct (s_conn st); cbn; now rewrite ?A, ?B. Qed.
  Lemma conn_step st pc evs inp st' pc' l : conn_inv st pc evs -> cstep c st pc inp = Some (st', pc', l) -> conn_inv st' pc' (evs ++ l).
  Proof.
    intros (LP & LV & NX & LK & CN & OK & EP & EK) H. apply step_inv in H.
    assert (FC : forall (st1 : cst) s, filter is_connect (finish st1 s) = []) by (intros; apply finish_none; reflexivity).
    assert (FE : forall (st1 : cst) s, filter is_exec (finish st1 s) = []) by (intros; apply finish_none; reflexivity).
    inv H.
    - match goal with H : connect _ _ _ _ = _ |- _ => rename H into HC end.
      destruct (connect_inv _ _ _ _ _ _ _ HC) as (SR & Q).
      destruct (connect_conn _ _ _ _ _ _ evs LP LK ltac:(intros N; now elim N) HC) as (A1 & A2 & A3 & A4 & A5).
      assert (SV : s_values st' = s_values st) by (destruct SR; tauto).
      assert (TL : forall tl, filter is_connect tl = [] -> filter is_exec tl = [] ->
        (match match r with PDoneOk => PcIter | _ => PcDone end with PcIter | PcStmt _ => s_conn st' <> None | _ => True end) ->
        conn_inv st' (match r with PDoneOk => PcIter | _ => PcDone end) (evs ++ evs0 ++ tl)).
      { intros tl T1 T2 T3. unfold conn_inv. split; auto. split; [now rewrite SV|].
        split; [rewrite !filter_app, T1, app_nil_r, app_length; lia|]. split; auto. split; auto.
        split; [rewrite app_assoc; eapply ps_ok_more; eauto|]. split.
        - intros i p k rc vals res x I. apply in_app_iff in I as [I|I].
          + destruct (EP _ _ _ _ _ _ _ I) as [B1 B2]. split; [lia|]. now apply prepared_more.
          + exfalso. eapply exec_not_in; [|exact I]. rewrite filter_app, T2, (quiet_no _ _ quiet_exec Q). reflexivity.
        - intros i p k rc vals res x I. apply in_app_iff in I as [I|I].
          + pose proof (EK _ _ _ _ _ _ _ I). lia.
          + exfalso. eapply exec_not_in; [|exact I]. rewrite filter_app, T2, (quiet_no _ _ quiet_exec Q). reflexivity. }
      apply TL; destruct r; auto.
    - unfold conn_inv. split; auto. split; auto. split; [rewrite filter_app, FC, app_nil_r; auto|]. split; auto. split; auto.
      split; [eapply ps_ok_more; eauto|]. split.
      + intros i p k rc vals res x I. apply in_app_iff in I as [I|I]; [|exfalso; eapply exec_not_in; eauto].
        destruct (EP _ _ _ _ _ _ _ I) as [B1 B2]. split; auto. now apply prepared_more.
      + intros i p k rc vals res x I. apply in_app_iff in I as [I|I]; [eauto|exfalso; eapply exec_not_in; eauto].
    - rewrite app_nil_r. unfold conn_inv. cbn [s_ps s_values s_next s_conn]. split; auto. split; auto. split; auto. split; auto.
      split; [unfold stmt_pc; destruct (_ <? _)%nat; exact CN|]. split; auto.
    - match goal with H : exec_case _ _ _ _ _ _ _ |- _ => rename H into X end.
      assert (FP : filter is_connect (permits_for c i) = []) by (apply permits_none; reflexivity).
      assert (FQ : filter is_exec (permits_for c i) = []) by (apply permits_none; reflexivity).
      assert (NF : forall (st1 : cst) nx0, filter is_connect (match nx0 with NStop s => finish st1 s | _ => [] end) = [] /\
                                filter is_exec (match nx0 with NStop s => finish st1 s | _ => [] end) = []) by (intros st1 []; auto).
      (* nothing executed *)
      assert (NOEX : forall st1 pc1 l1, filter is_connect l1 = [] -> filter is_exec l1 = [] ->
        s_conn st1 = s_conn st -> s_next st1 = s_next st -> s_ps st1 = s_ps st ->
        map (@length _) (s_values st1) = map (@length _) (s_values st) ->
        conn_inv st1 pc1 (evs ++ l1)).
      { intros st1 pc1 l1 T1 T2 Q1 Q2 Q3 EV. unfold conn_inv. rewrite Q1, Q2, Q3. split; auto. split; [congruence|].
        split; [rewrite filter_app, T1, app_nil_r; auto|]. split; auto. split; [destruct pc1; auto|].
        split; [eapply ps_ok_more; eauto|]. split.
        - intros i0 p k rc0 vals res x I. apply in_app_iff in I as [I|I]; [|exfalso; eapply exec_not_in; eauto].
          destruct (EP _ _ _ _ _ _ _ I) as [B1 B2]. split; auto. now apply prepared_more.
        - intros i0 p k rc0 vals res x I. apply in_app_iff in I as [I|I]; [eauto|exfalso; eapply exec_not_in; eauto]. }
      (* executed *)
      assert (EX : forall ps k rc1 vals1 res x st1 pc1 l1, nth_error (s_ps st) i = Some ps -> s_conn st = Some k ->
        filter is_exec l1 = [EvExec i ps k rc1 vals1 res x] ->
        length (s_ps st1) = length (c_stmts c) ->
        map (@length _) (s_values st1) = map (@length _) (s_values st) ->
        (s_next st1 = s_next st + length (filter is_connect l1))%nat ->
        (forall k0, s_conn st1 = Some k0 -> (k0 < s_next st1)%nat) ->
        (match pc1 with PcIter | PcStmt _ => s_conn st1 <> None | _ => True end) ->
        ps_ok (evs ++ l1) (s_next st1) (s_ps st1) ->
        conn_inv st1 pc1 (evs ++ l1)).
      { intros ps k rc1 vals1 res x st1 pc1 l1 EPI EKI T2 A1 A2 A3 A4 A5 A6.
        unfold conn_inv. split; auto. split; [congruence|]. split; [rewrite filter_app, app_length; lia|]. split; auto. split; auto. split; auto.
        assert (ONE : forall i0 ps0 k0 rc0 vals0 res0 x0, In (EvExec i0 ps0 k0 rc0 vals0 res0 x0) l1 -> i0 = i /\ ps0 = ps /\ k0 = k).
        { intros i0 ps0 k0 rc0 vals0 res0 x0 I. assert (J : In (EvExec i0 ps0 k0 rc0 vals0 res0 x0) (filter is_exec l1)) by (apply filter_In; auto).
          rewrite T2 in J. destruct J as [J|[]]. injection J as <- <- <- _ _ _ _. auto. }
        split.
        - intros i0 p k0 rc0 vals res0 x0 I. apply in_app_iff in I as [I|I].
          + destruct (EP _ _ _ _ _ _ _ I) as [B1 B2]. split; [lia|]. now apply prepared_more.
          + destruct (ONE _ _ _ _ _ _ _ I) as (-> & <- & ->). destruct (OK _ _ EPI). split; [lia|]. now apply prepared_more.
        - intros i0 p k0 rc0 vals res0 x0 I. apply in_app_iff in I as [I|I].
          + pose proof (EK _ _ _ _ _ _ _ I). lia.
          + destruct (ONE _ _ _ _ _ _ _ I) as (-> & _ & ->). pose proof (LK _ EKI). lia. }
      assert (SETV : forall vals values, nth_error (s_values st) i = Some vals ->
        set_nth (s_values st) i (fill_values vals 0 (v_inputs se)) = Some values -> map (@length _) values = map (@length _) (s_values st)).
      { intros vals values E1 E2. eapply map_set_nth; eauto. intros y E3. rewrite fill_length. congruence. }
      inversion X; subst.
      + apply NOEX; auto; apply (NF st' (NStop StopPanic)).
      + apply NOEX; auto.
      + apply NOEX; auto; rewrite filter_app, ?FP, ?FQ; apply (NF st' (NStop StopPanic)).
      + apply NOEX; auto.
        * rewrite filter_app, FP. apply (NF (pre_state st d values) (NStop stp)).
        * rewrite filter_app, FQ. apply (NF (pre_state st d values) (NStop stp)).
        * cbn. eauto.
      + eapply EX; eauto; cbn [pre_state s_conn s_next s_ps s_values].
        * rewrite !filter_app, FQ, FE. reflexivity.
        * rewrite !filter_app, FP, FC. cbn. lia.
        * eapply ps_ok_more; eauto.
      + assert (R1 : filter is_connect (record_of (V:=V) slot s ++ saved_of i s d) = []) by (rewrite filter_app, record_none, saved_none by reflexivity; reflexivity).
        assert (R2 : filter is_exec (record_of (V:=V) slot s ++ saved_of i s d) = []) by (rewrite filter_app, record_none, saved_none by reflexivity; reflexivity).
        eapply EX; eauto; cbn [pre_state s_conn s_next s_ps s_values].
        * rewrite app_nil_r, !filter_app, FQ, <- filter_app, R2. reflexivity.
        * rewrite app_nil_r, !filter_app, FP, <- filter_app, R1. cbn. lia.
        * unfold stmt_pc; destruct (_ <? _)%nat; congruence.
        * eapply ps_ok_more; eauto.
      + match goal with H : connect _ _ _ _ = _ |- _ => rename H into HC end.
        destruct (connect_inv _ _ _ _ _ _ _ HC) as (SR & Q).
        assert (HCC := connect_conn (pre_state st d values) _ _ _ _ _ (evs ++ permits_for c i ++ [EvExec i ps k (pre_rc st d) (fill_values vals 0 (v_inputs se)) (Some e) (v_ctx se)]
           ++ record_of slot s ++ error_of slot e se) LP LK ltac:(cbn; congruence) HC). cbn [pre_state s_next s_conn s_ps] in HCC.
        destruct HCC as (A1 & A2 & A3 & A4 & A5).
        set (pre := permits_for c i ++ [EvExec i ps k (pre_rc st d) (fill_values vals 0 (v_inputs se)) (Some e) (v_ctx se)] ++ record_of slot s ++ error_of slot e se) in *.
        assert (PE : filter is_exec pre = [EvExec i ps k (pre_rc st d) (fill_values vals 0 (v_inputs se)) (Some e) (v_ctx se)]).
        { subst pre. rewrite !filter_app, FQ, record_none, error_none by reflexivity. reflexivity. }
        assert (PC : filter is_connect pre = []).
        { subst pre. rewrite !filter_app, FP, record_none, error_none by reflexivity. reflexivity. }
        match goal with |- conn_inv ?s1 ?p1 (evs ++ (permits_for c i ++ ?a ++ ?b ++ ?d0 ++ ?e0) ++ ?t) =>
          replace ((permits_for c i ++ a ++ b ++ d0 ++ e0) ++ t) with (pre ++ evs1 ++ t) by (subst pre; rewrite <- !app_assoc; reflexivity);
          assert (TC : filter is_connect t = []) by apply NF; assert (TE : filter is_exec t = []) by apply NF end.
        eapply EX; eauto; try (destruct r; exact A1 || exact A3).
        * rewrite !filter_app, PE, TE, (quiet_no _ _ quiet_exec Q). reflexivity.
        * assert (s_values st2 = values) by (destruct SR; tauto). destruct r; cbn [with_rc s_values]; subst; eauto.
        * rewrite !filter_app, PC, TC, app_nil_r. cbn [app]. destruct r; exact A2.
        * destruct r; cbn; auto.
        * rewrite !app_assoc. eapply ps_ok_more; [|destruct r; apply Nat.le_refl].
          destruct r; (apply A5; eapply ps_ok_more; eauto).
  Qed.

  Lemma conn_init : conn_inv (client_init c) PcStart [].
  Proof.
    unfold conn_inv, client_init. cbn [s_ps s_values s_next s_conn]. rewrite map_length, map_map. split; auto. split.
    { apply map_ext. intros s. apply repeat_length. }
    split; auto. split; [discriminate|]. split; auto. split; [|split; intros; contradiction].
    intros i p E. rewrite nth_error_map in E. destruct (nth_error (c_stmts c) i); discriminate.
  Qed.

  Lemma conn_run inps st pc evs : client_run c inps = Some (st, pc, evs) -> conn_inv st pc evs.
  Proof. revert inps st pc evs. apply client_run_ind; [apply conn_init|apply conn_step]. Qed.

  (* ---------------------------------------------------------------------------------- *)
  (** * Permits *)

  Definition permit_or_exec (e : event) : bool := (is_permit e || is_exec e)%bool.
  Definition permit_part (e : event) : list event := permits_for c (ex_stmt e) ++ [e].

  Definition permit_inv (st : cst) (pc : cpc) (evs : list event) : Prop :=
    exists rest, filter permit_or_exec evs = concat (map permit_part (execs evs)) ++ rest /\
      Forall (fun e => is_permit e = true) rest /\ (pc <> PcDone -> rest = []) /\ (length rest <= 2)%nat.

  Lemma permits_len i : (length (permits_for (V := V) c i) <= 2)%nat.
  Proof. unfold permits_for. destruct (c_tps c), (c_qps c), (nth_error (c_stmts c) i) as [s|]; try destruct (st_begin s); cbn; lia. Qed.
  Lemma permits_all i : Forall (fun e : event => is_permit e = true) (permits_for c i).
  Proof. unfold permits_for. destruct (c_tps c), (c_qps c), (nth_error (c_stmts c) i) as [s|]; try destruct (st_begin s); cbn; repeat constructor. Qed.
  Lemma permits_filter i : filter permit_or_exec (permits_for c i) = permits_for c i.
  Proof. unfold permits_for. destruct (c_tps c), (c_qps c), (nth_error (c_stmts c) i) as [s|]; try destruct (st_begin s); reflexivity. Qed.
  Lemma quiet_permit (e : event) : quiet e = true -> permit_or_exec e = false.
  Proof. destruct e; cbn; congruence. Qed.

  Lemma permit_step st pc evs inp st' pc' l : permit_inv st pc evs -> cstep c st pc inp = Some (st', pc', l) -> permit_inv st' pc' (evs ++ l).
  Proof.
    intros (rest & E & P & R & L) H. unfold permit_inv. rewrite filter_app, E. unfold execs. rewrite filter_app. fold (execs evs).
    assert (FF : forall (st1 : cst) s, filter permit_or_exec (finish st1 s) = []) by (intros; apply finish_none; reflexivity).
    assert (FE : forall (st1 : cst) s, filter is_exec (finish st1 s) = []) by (intros; apply finish_none; reflexivity).
    apply step_inv in H. inv H.
    - match goal with H : connect _ _ _ _ = _ |- _ => destruct (connect_inv _ _ _ _ _ _ _ H) as (_ & Q) end.
      rewrite (R ltac:(discriminate)) in *. rewrite !filter_app, (quiet_no _ _ quiet_permit Q), (quiet_no _ _ quiet_exec Q).
      exists []. destruct r; rewrite ?FF, ?FE; cbn [filter app]; rewrite ?app_nil_r; auto.
    - rewrite FF, FE, !app_nil_r. rewrite (R ltac:(discriminate)) in *. exists []. rewrite !app_nil_r. auto.
    - cbn [filter app]. rewrite !app_nil_r. rewrite (R ltac:(discriminate)) in *. exists []. rewrite !app_nil_r. auto.
    - match goal with H : exec_case _ _ _ _ _ _ _ |- _ => rename H into X end.
      rewrite (R ltac:(discriminate)) in *. rewrite app_nil_r.
      assert (FQ : filter is_exec (permits_for c i) = []) by (apply permits_none; reflexivity).
      assert (NF : forall (st1 : cst) nx0, filter permit_or_exec (match nx0 with NStop s => finish st1 s | _ => [] end) = [] /\
                                filter is_exec (match nx0 with NStop s => finish st1 s | _ => [] end) = []) by (intros st1 []; auto).
      rewrite !filter_app, (proj1 (NF st' nx)), (proj2 (NF st' nx)), !app_nil_r.
      assert (NX : nx <> NStmt -> nx <> NIter -> match nx with NStmt => stmt_pc c (S i) | NIter => PcIter | NStop _ => PcDone end = PcDone) by (destruct nx; congruence).
      assert (ONE : forall rr l0, filter permit_or_exec l0 = permits_for c i ++ [rr] -> filter is_exec l0 = [rr] -> ex_stmt rr = i ->
        exists rest0, concat (map permit_part (execs evs)) ++ filter permit_or_exec l0 = concat (map permit_part (execs evs ++ filter is_exec l0)) ++ rest0 /\
          Forall (fun e => is_permit e = true) rest0 /\ (match nx with NStmt => stmt_pc c (S i) | NIter => PcIter | NStop _ => PcDone end <> PcDone -> rest0 = []) /\ (length rest0 <= 2)%nat).
      { intros rr l0 A B C0. exists []. rewrite A, B, map_app, concat_app, app_nil_r. cbn [map concat]. unfold permit_part at 3. rewrite C0, app_nil_r. auto. }
      inv X.
      + exists []. cbn. rewrite !app_nil_r. auto.
      + exists []. cbn. rewrite !app_nil_r. auto.
      + exists (permits_for c i). rewrite FQ, app_nil_r, permits_filter. split; auto. split; [apply permits_all|]. split; [congruence|apply permits_len].
      + exists (permits_for c i). rewrite FQ, app_nil_r, permits_filter. split; auto. split; [apply permits_all|]. split; [congruence|apply permits_len].
      + eapply ONE; [rewrite filter_app, permits_filter; reflexivity|rewrite filter_app, FQ; reflexivity|reflexivity].
      + eapply ONE; [rewrite !filter_app, permits_filter, record_none, saved_none by reflexivity; reflexivity
          |rewrite !filter_app, FQ, record_none, saved_none by reflexivity; reflexivity|reflexivity].
      + match goal with H : connect _ _ _ _ = _ |- _ => destruct (connect_inv _ _ _ _ _ _ _ H) as (_ & Q) end.
        eapply ONE; [rewrite !filter_app, permits_filter, record_none, error_none, (quiet_no _ _ quiet_permit Q) by reflexivity; reflexivity
          |rewrite !filter_app, FQ, record_none, error_none, (quiet_no _ _ quiet_exec Q) by reflexivity; reflexivity|reflexivity].
  Qed.

  Lemma permit_run inps st pc evs : client_run c inps = Some (st, pc, evs) -> permit_inv st pc evs.
  Proof.
    revert inps st pc evs. apply client_run_ind; [|apply permit_step].
    exists []. cbn. repeat (split; auto).
  Qed.

  (* ---------------------------------------------------------------------------------- *)
  (** * Saved values and data limits *)

  Definition save_or_exec (e : event) : bool := (is_save e || is_exec e)%bool.
  Definition save_part (e : event) : list event :=
    e :: match e with EvExec i _ _ _ _ None _ => after_success c i | _ => [] end.
  Lemma quiet_save (e : event) : quiet e = true -> save_or_exec e = false.
  Proof. destruct e; cbn; congruence. Qed.

  (* ---------------------------------------------------------------------------------- *)
  (** * Values *)

  Lemma copy_at_fill : forall pre new post, (length new <= length post)%nat ->
    copy_at (V := V) (pre ++ post) (length pre) new = (pre ++ map Some new ++ skipn (length new) post, length new).
  Proof.
    induction pre as [|p pre IH]; intros new post L; cbn [app length].
    - revert post L. induction new as [|x new IHn]; intros post L; [destruct post; reflexivity|].
      destruct post as [|y post]; cbn in L; [lia|]. cbn. rewrite IHn by lia. reflexivity.
    - destruct new as [|x new]; [reflexivity|]. cbn. rewrite IH by auto. reflexivity.
  Qed.

  Lemma fill_all : forall ins pre post, length post = list_sum (map (@length V) ins) ->
    fill_values (pre ++ post) (length pre) ins = pre ++ map Some (concat ins).
  Proof.
    induction ins as [|new ins IH]; intros pre post L.
    - destruct post; [reflexivity|discriminate].
    - assert (L' : length post = (length new + list_sum (map (@length V) ins))%nat) by exact L. clear L.
      cbn [fill_values concat]. rewrite copy_at_fill by lia. rewrite app_assoc.
      replace (length pre + length new)%nat with (length (pre ++ map Some new)) by (rewrite app_length, map_length; reflexivity).
      rewrite IH by (rewrite skipn_length; lia). rewrite <- app_assoc, map_app. reflexivity.
  Qed.

  Lemma placed_concat : forall ins (vs : list (list V)) cur,
    length cur = fst (arities ins) -> map (@length V) vs = snd (arities ins) ->
    placed ins vs cur = map Some (cur ++ concat vs).
  Proof.
    induction ins as [|k ins IH]; intros vs cur LC LV; cbn in *.
    - destruct cur; [|discriminate]. destruct vs; [reflexivity|discriminate].
    - destruct (arities ins) as [n l] eqn:E. destruct (k =? PREV)%string.
      + cbn in LC, LV. destruct cur as [|x cur]; [discriminate|]. cbn. f_equal. apply IH; auto.
      + cbn in LC, LV. destruct cur; [|discriminate]. destruct vs as [|v vs]; [discriminate|]. cbn in LV. injection LV as L1 L2.
        destruct v as [|x v]; [discriminate|]. cbn. f_equal. apply IH; auto.
  Qed.

  Lemma arities_sum ins : (fst (arities ins) + list_sum (snd (arities ins)) = length ins)%nat.
  Proof.
    induction ins as [|k ins IH]; cbn; auto. destruct (arities ins) as [n l]. cbn in IH. destruct (k =? PREV)%string; cbn; lia.
  Qed.

  (** The execution within a step. *)
  Lemma exec_in st i (se : senv V) st' evs nx : exec_case c st i se st' evs nx -> forall j ps k rc vals res x,
    In (EvExec j ps k rc vals res x) evs ->
    j = i /\ s_conn st = Some k /\ nth_error (s_ps st) i = Some ps /\
    exists s d vals0 values, nth_error (c_stmts c) i = Some s /\ nth_error (c_data c) i = Some d /\ is_idle s = false /\
      nth_error (s_values st) i = Some vals0 /\ vals = fill_values vals0 0 (v_inputs se) /\ res = result_of s d se /\
      rc = pre_rc st d /\ x = v_ctx se /\ set_nth (s_values st) i (fill_values vals0 0 (v_inputs se)) = Some values.
  Proof.
    intros X j ps k rc vals res x I.
    assert (NP : ~ In (EvExec j ps k rc vals res x) (permits_for c i)) by (apply exec_not_in, permits_none; reflexivity).
    inv X; try contradiction.
    - apply in_app_iff in I as [I|[I|[]]]; [contradiction|]. injection I as <- <- <- <- <- <- <-. repeat (split; auto). exists s, d, vals0, values. repeat (split; auto).
    - apply in_app_iff in I as [I|[I|I]]; [contradiction| |].
      + injection I as <- <- <- <- <- <- <-. repeat (split; auto). exists s, d, vals0, values. repeat (split; auto).
      + exfalso. eapply exec_not_in; [|exact I]. rewrite !filter_app, record_none, saved_none by reflexivity. reflexivity.
    - apply in_app_iff in I as [I|[I|I]]; [contradiction| |].
      + injection I as <- <- <- <- <- <- <-. repeat (split; auto). exists s, d, vals0, values. repeat (split; auto).
      + exfalso. match goal with H : connect _ _ _ _ = _ |- _ => destruct (connect_inv _ _ _ _ _ _ _ H) as (_ & Q) end.
        eapply exec_not_in; [|exact I]. rewrite !filter_app, record_none, error_none, (quiet_no _ _ quiet_exec Q) by reflexivity. reflexivity.
  Qed.

  (** Every execution of a run is the execution of a step of it. *)
  Lemma step_of_run : forall inps st pc st' pc' evs e, crun (V := V) c st pc inps = Some (st', pc', evs) -> In e evs ->
    exists inps1 inp inps2 st1 pc1 st2 pc2 evs1 evs2, inps = inps1 ++ inp :: inps2 /\
      crun c st pc inps1 = Some (st1, pc1, evs1) /\ cstep c st1 pc1 inp = Some (st2, pc2, evs2) /\ In e evs2.
  Proof.
    induction inps as [|inp inps IH]; intros st pc st' pc' evs e H I; cbn in H; [inv H; destruct I|].
    destruct (cstep c st pc inp) as [[[st1 pc1] e1]|] eqn:E; [|discriminate].
    destruct (crun c st1 pc1 inps) as [[[st2 pc2] e2]|] eqn:E2; [|discriminate]. inv H.
    apply in_app_iff in I as [I|I].
    - exists [], inp, inps, st, pc, st1, pc1, [], e1. auto.
    - destruct (IH _ _ _ _ _ _ E2 I) as (i1 & i & i2 & s1 & p1 & s2 & p2 & v1 & v2 & -> & R & S1 & I1).
      exists (inp :: i1), i, i2, s1, p1, s2, p2, (e1 ++ v1), v2. split; auto. split; auto. cbn. now rewrite E, R.
  Qed.

  Lemma exec_of_step st pc inp st' pc' l j ps k rc vals res x : cstep (V := V) c st pc inp = Some (st', pc', l) ->
    In (EvExec j ps k rc vals res x) l ->
    exists i se nx evs, pc = PcStmt i /\ inp = IStmt se /\ exec_case c st i se st' evs nx /\
      pc' = match nx with NStmt => stmt_pc c (S i) | NIter => PcIter | NStop _ => PcDone end /\
      l = evs ++ match nx with NStop s => finish st' s | _ => [] end /\
      In (EvExec j ps k rc vals res x) evs.
  Proof.
    intros H I. apply step_inv in H. inv H.
    - exfalso. match goal with H : connect _ _ _ _ = _ |- _ => destruct (connect_inv _ _ _ _ _ _ _ H) as (_ & Q) end.
      eapply exec_not_in; [|exact I]. rewrite filter_app, (quiet_no _ _ quiet_exec Q). destruct r; auto; apply finish_none; reflexivity.
    - exfalso. eapply exec_not_in; [|exact I]. apply finish_none; reflexivity.
    - destruct I.
    - exists i, se, nx, evs. repeat (split; auto). apply in_app_iff in I as [I|I]; auto.
      exfalso. eapply exec_not_in; [|exact I]. destruct nx; auto; apply finish_none; reflexivity.
  Qed.

  Lemma values_placed inps st pc evs (se : senv V) st' pc' l i ps k rc vals res x s :
    client_run c inps = Some (st, pc, evs) -> cstep c st pc (IStmt se) = Some (st', pc', l) ->
    In (EvExec i ps k rc vals res x) l -> nth_error (c_stmts c) i = Some s ->
    fst (arities (st_inputs s)) = 0%nat -> map (@length V) (v_inputs se) = snd (arities (st_inputs s)) ->
    vals = placed (st_inputs s) (v_inputs se) [].
  Proof.
    intros R ST I S A0 AV. destruct (conn_run _ _ _ _ R) as (_ & LV & _).
    destruct (exec_of_step _ _ _ _ _ _ _ _ _ _ _ _ _ ST I) as (i0 & se0 & nx & e0 & -> & [= <-] & X & _ & _ & I0).
    destruct (exec_in _ _ _ _ _ _ X _ _ _ _ _ _ _ I0) as (-> & _ & _ & s0 & d & vals0 & values & E1 & _ & _ & E4 & -> & _).
    rewrite S in E1. injection E1 as <-.
    rewrite placed_concat by auto. cbn [app].
    assert (L : length vals0 = length (st_inputs s)).
    { assert (Q : nth_error (map (@length _) (s_values st)) i0 = Some (length vals0)) by (now apply map_nth_error).
      rewrite LV in Q. erewrite map_nth_error in Q by eauto. congruence. }
    apply (fill_all (v_inputs se) [] vals0). rewrite AV, L. pose proof (arities_sum (st_inputs s)). lia.
  Qed.

  (* ---------------------------------------------------------------------------------- *)
  (** * Errors *)

  Lemma failed_step st i (se : senv V) st' pc' l ps k rc vals e x :
    cstep c st (PcStmt i) (IStmt se) = Some (st', pc', l) -> In (EvExec i ps k rc vals (Some e) x) l ->
    (exists n, stats_slot c (pre_no st n) = None /\ nth_error (c_data c) i = Some n) \/
    exists s d values st2 evs r pre, nth_error (c_stmts c) i = Some s /\ nth_error (c_data c) i = Some d /\
      connect c (pre_state st d values) (Some (e, i)) (v_conn se) = (st2, evs, r) /\ s_conn st = Some k /\
      s_conn st' = s_conn st2 /\
      pc' = (match r with PDoneOk => PcIter | _ => PcDone end) /\
      filter conn_event pre = [] /\ (forall k, ~ In (EvRollback k) pre) /\
      l = pre ++ evs ++ match r with PDoneOk => [] | PDoneErr e' => finish st' (StopErr e') | PDonePanic => finish st' StopPanic end.
  Proof.
    intros H I. destruct (exec_of_step _ _ _ _ _ _ _ _ _ _ _ _ _ H I) as (i0 & se0 & nx & l0 & [= <-] & [= <-] & X & -> & -> & I0).
    destruct (exec_in _ _ _ _ _ _ X _ _ _ _ _ _ _ I0) as (_ & CK & PI & s0 & d0 & vals0 & values0 & E1 & E2 & E3 & E4 & E5 & E6 & E7).
    inv X.
    - destruct I0.
    - destruct I0.
    - exfalso. eapply exec_not_in; [|exact I0]. apply permits_none; reflexivity.
    - exfalso. eapply exec_not_in; [|exact I0]. apply permits_none; reflexivity.
    - left. exists d. auto.
    - exfalso. assert (s0 = s /\ d0 = d) as [-> ->] by (split; congruence). congruence.
    - right. assert (s0 = s /\ d0 = d) as [-> ->] by (split; congruence).
      assert (e0 = e) as -> by congruence. assert (k0 = k) as -> by congruence.
      exists s, d, values, st2, evs, r, (permits_for c i ++ [EvExec i ps0 k (pre_rc st d) (fill_values vals1 0 (v_inputs se)) (Some e) (v_ctx se)] ++ record_of slot s ++ error_of slot e se).
      split; auto. split; auto. split; auto. split; auto. split; [destruct r; reflexivity|]. split; [destruct r; reflexivity|].
      split; [rewrite !filter_app, permits_none, record_none, error_none by reflexivity; reflexivity|].
      split.
      + intros k0 J. assert (Q : In (EvRollback k0) (filter (fun e => match e with EvRollback _ => true | _ => false end)
          (permits_for c i ++ [EvExec i ps0 k (pre_rc st d) (fill_values vals1 0 (v_inputs se)) (Some e) (v_ctx se)] ++ record_of slot s ++ error_of slot e se)))
          by (apply filter_In; auto).
        rewrite !filter_app, permits_none, record_none, error_none in Q by reflexivity. destruct Q.
      + rewrite <- !app_assoc. destruct r; reflexivity.
  Qed.

  Lemma conn_event_prepare conn prep : forall stmts i ps ps' evs r, prepare_stmts (V := V) conn prep i stmts ps = (ps', evs, r) ->
    forall e, In e evs -> exists j, e = EvPrepare j conn.
  Proof.
    induction stmts as [|s stmts IH]; intros i ps ps' evs r H e I; cbn in H; [inv H; destruct I|].
    destruct (negb (st_prepare s)); [eauto|].
    destruct (nth_error ps i) as [[k|]|]; [eauto| |inv H; destruct I].
    destruct (prep i) eqn:EP; [inv H; destruct I|].
    destruct (set_nth ps i (Some conn)) as [ps1|]; [|inv H; destruct I].
    destruct (copies_ps ps1 i (Some conn) 1 (st_prepareMulti s - 1)) as [ps2|]; [|inv H; destruct I as [<-|[]]; eauto].
    destruct (prepare_stmts conn prep (S i) stmts ps2) as [[ps3 e3] r3] eqn:E. inv H. destruct I as [<-|I]; eauto.
  Qed.

  Lemma set_nth_some {A} (l : list A) i x : (i < length l)%nat -> set_nth l i x <> None.
  Proof.
    revert i. induction l as [|a l IH]; intros [|i] L; cbn in *; try lia; try discriminate.
    destruct (set_nth l i x) eqn:E; [discriminate|]. exfalso. exact (IH i ltac:(lia) E).
  Qed.
  Lemma copies_some : forall n ps i p j, (i + j + n <= length ps)%nat \/ n = 0%nat -> copies_ps ps i p j n <> None.
  Proof.
    induction n as [|n IH]; intros ps i p j L; cbn; [discriminate|].
    destruct (set_nth ps (i + j) p) as [ps1|] eqn:E; [|exfalso; eapply set_nth_some; [|exact E]; lia].
    apply IH. rewrite (set_nth_length _ _ _ _ E). lia.
  Qed.

  Lemma prepare_success conn prep : (forall i, prep i = None) -> forall stmts i ps ps' evs r,
    (forall m s, nth_error stmts m = Some s -> (i + m + st_prepareMulti s <= length ps)%nat) ->
    (i + length stmts <= length ps)%nat ->
    prepare_stmts (V := V) conn prep i stmts ps = (ps', evs, r) -> r = PDoneOk.
  Proof.
    intros NP. induction stmts as [|s stmts IH]; intros i ps ps' evs r MF LL H; cbn in H, LL; [inv H; auto|].
    assert (MF' : forall m s0, nth_error stmts m = Some s0 -> (S i + m + st_prepareMulti s0 <= length ps)%nat).
    { intros m s0 E. specialize (MF (S m) s0 E). lia. }
    pose proof (MF 0%nat s eq_refl) as M0.
    destruct (negb (st_prepare s)); [eapply IH; eauto; lia|].
    destruct (nth_error ps i) as [[k|]|] eqn:EI; [eapply IH; eauto; lia| |apply nth_error_None in EI; lia].
    rewrite NP in H.
    destruct (set_nth ps i (Some conn)) as [ps1|] eqn:E1; [|exfalso; eapply set_nth_some; [|exact E1]; lia].
    pose proof (set_nth_length _ _ _ _ E1) as L1.
    destruct (copies_ps ps1 i (Some conn) 1 (st_prepareMulti s - 1)) as [ps2|] eqn:E2.
    2:{ exfalso. eapply copies_some; [|exact E2]. lia. }
    pose proof (proj1 (copies_inv _ _ _ _ _ _ E2)) as L2.
    destruct (prepare_stmts conn prep (S i) stmts ps2) as [[ps3 e3] r3] eqn:E. inv H. eapply IH; [| |exact E].
    - intros m s0 Q. rewrite L2, L1. eauto.
    - lia.
  Qed.

  Lemma reconnect_success st ce st' evs r k : connects ce -> multi_fits c -> length (s_ps st) = length (c_stmts c) ->
    s_conn st = Some k -> reconnect (V := V) c st ce = (st', evs, r) ->
    r = PDoneOk /\ s_conn st' = Some (s_next st) /\ exists rest, evs = EvClose k :: EvConnect (s_next st) :: rest /\
      forall e, In e rest -> e = EvUse (s_next st) \/ exists j, e = EvPrepare j (s_next st).
  Proof.
    intros (C0 & C1 & C2 & C3 & C4) MF LP EK H. unfold reconnect in H. rewrite C1, C2, C3, EK in H. cbn [negb] in H.
    replace (if negb (c_defaultDb c =? "")%string then None else None) with (@None err) in H by (destruct (negb _); reflexivity).
    destruct (prepare_stmts (s_next st) (ce_prep ce) 0 (c_stmts c) (s_ps st)) as [[ps e3] r3] eqn:E. inv H.
    split; [|split; [reflexivity|]].
    - eapply prepare_success; [exact C4| | |exact E]; [|lia]. intros m s Q. cbn. rewrite LP. apply MF. exact Q.
    - cbn [app]. eexists. split; [reflexivity|]. intros e I. apply in_app_iff in I as [I|I].
      + destruct (negb _); [destruct I as [<-|[]]; auto|destruct I].
      + right. eapply conn_event_prepare; eauto.
  Qed.

  (** The connection attempt of a failed statement. *)
  Definition keep_codes : list N := [1205; 1213; 1290; 1317; 1836]%N.
  Definition abort_codes : list N := [1046; 1062; 1064; 1146]%N.

  Lemma handling_other code : ~ In code keep_codes -> ~ In code abort_codes -> error_handling code = None.
  Proof.
    intros A B. unfold keep_codes, abort_codes in *. cbn in A, B.
    destruct (error_handling code) eqn:E; auto. exfalso. unfold error_handling in E.
    repeat match type of E with (match ?x with _ => _ end) = _ => destruct x; try discriminate; try tauto end.
  Qed.

  Lemma connect_keep (st : cst) i e ce st2 evs r k s : nth_error (c_stmts c) i = Some s -> In (er_code e) keep_codes ->
    ce_ctx0 ce = false -> ce_rollback ce = None -> s_conn st = Some k ->
    connect c st (Some (e, i)) ce = (st2, evs, r) ->
    r = PDoneOk /\ s_conn st2 = Some k /\ (evs = [] \/ evs = [EvRollback k]).
  Proof.
    intros S K C0 C1 EK H. unfold connect in H. rewrite C0, S, C1, EK in H.
    destruct K as [K|[K|[K|[K|[K|[]]]]]]; rewrite <- K in H; cbn in H; rewrite Bool.andb_false_r in H; destruct (s_active st); inv H; auto.
  Qed.

  Lemma connect_rollback (st : cst) i e ce st2 evs r k s : nth_error (c_stmts c) i = Some s -> In (er_code e) [1205; 1290; 1836]%N ->
    ce_ctx0 ce = false -> s_active st = true -> s_conn st = Some k ->
    connect c st (Some (e, i)) ce = (st2, evs, r) -> In (EvRollback k) evs.
  Proof.
    intros S K C0 A EK H. unfold connect in H. rewrite C0, S, A, EK in H.
    destruct K as [K|[K|[K|[]]]]; rewrite <- K in H; cbn in H; rewrite Bool.andb_false_r in H; destruct (ce_rollback ce); inv H; left; reflexivity.
  Qed.

  Lemma connect_other (st : cst) i e ce s : nth_error (c_stmts c) i = Some s -> ce_ctx0 ce = false ->
    In (er_code e) abort_codes \/ (~ In (er_code e) keep_codes /\ st_ddl s = false) ->
    connect c st (Some (e, i)) ce = reconnect c st ce.
  Proof.
    intros S C0 H. unfold connect. rewrite C0, S. destruct H as [K|[K D]].
    - destruct K as [K|[K|[K|[K|[]]]]]; rewrite <- K; cbn; rewrite Bool.andb_false_r; reflexivity.
    - rewrite D. cbn [andb]. destruct (in_dec N.eq_dec (er_code e) abort_codes) as [J|J].
      + destruct J as [J|[J|[J|[J|[]]]]]; rewrite <- J; reflexivity.
      + now rewrite (handling_other _ K J).
  Qed.

  Lemma connect_ddl (st : cst) i e ce s : nth_error (c_stmts c) i = Some s -> ce_ctx0 ce = false -> st_ddl s = true ->
    ~ In (er_code e) keep_codes -> ~ In (er_code e) abort_codes ->
    connect c st (Some (e, i)) ce = (st, [], PDoneErr (err_text e)).
  Proof. intros S C0 D K J. unfold connect. now rewrite C0, S, (handling_other _ K J), D. Qed.
End Conn.

(* ------------------------------------------------------------------------------------ *)
Section Started.
  Context {V : Type}.
  Notation event := (event V).
  Notation cst := (cst V).
  Variables (c : client) (lens : list nat).
  Hypothesis TRX : has_trx c lens.
  Hypothesis START : trx_start_with_query c lens.
  Hypothesis NE : c_stmts c <> [].

  Lemma step_slot (st : cst) i evs d : pos_ok c lens st (PcStmt i) evs -> nth_error (c_data c) i = Some d -> stats_slot c (pre_no st d) <> None.
  Proof. intros P D. rewrite (proj1 (pre_no_ok _ _ TRX _ _ _ _ P D)). apply (slot_ok c lens TRX). apply P. Qed.

  Definition save_inv' (st : cst) (pc : cpc) (evs : list event) : Prop :=
    trx_inv c lens st pc evs /\ filter save_or_exec evs = concat (map (save_part c) (execs evs)).

  Lemma save_step st pc evs inp st' pc' l : save_inv' st pc evs -> cstep c st pc inp = Some (st', pc', l) -> save_inv' st' pc' (evs ++ l).
  Proof.
    intros (T & E) H. split; [eapply trx_step; eauto|]. destruct T as (POS & _).
    rewrite filter_app, E. unfold execs. rewrite filter_app. fold (execs evs).
    assert (FF : forall (st1 : cst) s, filter save_or_exec (finish st1 s) = []) by (intros; apply finish_none; reflexivity).
    assert (FE : forall (st1 : cst) s, filter is_exec (finish st1 s) = []) by (intros; apply finish_none; reflexivity).
    apply step_inv in H. inv H.
    - match goal with H : connect _ _ _ _ = _ |- _ => destruct (connect_inv _ _ _ _ _ _ _ H) as (_ & Q) end.
      rewrite !filter_app, (quiet_no _ _ quiet_save Q), (quiet_no _ _ quiet_exec Q).
      destruct r; rewrite ?FF, ?FE; cbn [filter app]; rewrite ?app_nil_r; auto.
    - rewrite FF, FE, !app_nil_r. auto.
    - cbn [filter app]. rewrite !app_nil_r. auto.
    - match goal with H : exec_case _ _ _ _ _ _ _ |- _ => rename H into X end.
      assert (FQ : filter is_exec (permits_for (V := V) c i) = []) by (apply permits_none; reflexivity).
      assert (FS : filter save_or_exec (permits_for (V := V) c i) = []) by (apply permits_none; reflexivity).
      assert (NF : forall (st1 : cst) nx0, filter save_or_exec (match nx0 with NStop s => finish st1 s | _ => [] end) = [] /\
                                filter is_exec (match nx0 with NStop s => finish st1 s | _ => [] end) = []) by (intros st1 []; auto).
      rewrite !filter_app, (proj1 (NF st' nx)), (proj2 (NF st' nx)), !app_nil_r.
      rewrite map_app, concat_app. f_equal.
      inv X; rewrite ?filter_app, ?FQ, ?FS; auto.
      + exfalso. eapply step_slot; eauto.
      + rewrite !record_none, (saved_none is_exec) by reflexivity. cbn [filter is_exec save_or_exec is_save orb app map concat save_part].
        f_equal. unfold after_success. match goal with H : nth_error (c_stmts c) i = _, H' : nth_error (c_data c) i = _ |- _ => rewrite H, H' end.
        unfold saved_of. destruct (st_resultset s), (d_outputs d), (st_limit s), (d_insertId d); reflexivity.
      + match goal with H : connect _ _ _ _ = _ |- _ => destruct (connect_inv _ _ _ _ _ _ _ H) as (_ & Q) end.
        rewrite !record_none, !error_none, (quiet_no _ _ quiet_save Q), (quiet_no _ _ quiet_exec Q) by reflexivity. reflexivity.
  Qed.

  Lemma save_run inps st pc (evs : list event) : client_run c inps = Some (st, pc, evs) -> filter save_or_exec evs = concat (map (save_part c) (execs evs)).
  Proof.
    intros H. apply (client_run_ind c save_inv') in H; [apply H| |apply save_step].
    split; [apply trx_init|reflexivity].
  Qed.

  (** A failed statement in a run. *)
  Lemma failed_run inps st i evs (se : senv V) st' pc' l ps k rc vals e x :
    client_run c inps = Some (st, PcStmt i, evs) -> cstep c st (PcStmt i) (IStmt se) = Some (st', pc', l) ->
    In (EvExec i ps k rc vals (Some e) x) l ->
    exists s d values st2 evs2 r pre, nth_error (c_stmts c) i = Some s /\ nth_error (c_data c) i = Some d /\
      connect c (pre_state st d values) (Some (e, i)) (v_conn se) = (st2, evs2, r) /\ s_conn st = Some k /\
      s_conn st' = s_conn st2 /\
      pc' = (match r with PDoneOk => PcIter | _ => PcDone end) /\
      filter conn_event pre = [] /\ (forall k, ~ In (EvRollback k) pre) /\
      l = pre ++ evs2 ++ (match r with PDoneOk => [] | PDoneErr e' => finish st' (StopErr e') | PDonePanic => finish st' StopPanic end) /\
      (last_of_trx lens i = false \/ first_of_trx lens i = true -> pre_active st d = true).
  Proof.
    intros R S I. destruct (trx_run _ _ TRX START NE _ _ _ _ R) as (POS & _).
    destruct (failed_step _ _ _ _ _ _ _ _ _ _ _ _ _ S I) as [(d & N & D)|(s & d & values & st2 & evs2 & r & pre & A)].
    - exfalso. eapply step_slot; eauto.
    - exists s, d, values, st2, evs2, r, pre. destruct A as (A1 & A2 & A3 & A4 & A5 & A6 & A7 & A8 & A9). repeat (split; auto).
      intros [Q|Q]; [now apply (pre_no_ok _ _ TRX _ _ _ _ POS A2)|].
      unfold pre_active. destruct (data_marks _ _ TRX _ _ A2) as [-> _]. now rewrite Q.
  Qed.
End Started.

(** Connections are numbered in order. *)
Section Fresh.
  Context {V : Type}.
  Notation event := (event V).
  Notation cst := (cst V).
  Variable c : client.

  Lemma reconnect_fresh (st : cst) ce st' evs r : reconnect c st ce = (st', evs, r) ->
    (s_next st <= s_next st')%nat /\ forall k, In (EvConnect k) evs -> (k < s_next st')%nat.
  Proof.
    unfold reconnect. intros H.
    assert (N0 : forall k, ~ In (EvConnect k) (match s_conn st with Some k => [EvClose k] | None => [] end : list event)).
    { intros k I. destruct (s_conn st); [destruct I as [I|[]]; discriminate|destruct I]. }
    destruct (negb (ce_conn ce)); [inv H; cbn; split; auto; intros k I; destruct (N0 _ I)|].
    destruct (ce_ctx1 ce).
    { inv H; cbn; split; auto. intros k I. apply in_app_iff in I as [I|[[= <-]|[]]]; [destruct (N0 _ I)|lia]. }
    destruct (if negb (c_defaultDb c =? "")%string then ce_use ce else None).
    { inv H; cbn; split; auto. intros k I. apply in_app_iff in I as [I|[[= <-]|[]]]; [destruct (N0 _ I)|lia]. }
    destruct (prepare_stmts (s_next st) (ce_prep ce) 0 (c_stmts c) (s_ps st)) as [[ps e3] r3] eqn:E. inv H. cbn. split; [lia|].
    intros k I. rewrite !in_app_iff in I. destruct I as [[[I|[[= <-]|[]]]|I]|I]; [destruct (N0 _ I)|lia| |].
    - destruct (negb _); [destruct I as [I|[]]; discriminate|destruct I].
    - destruct (conn_event_prepare _ _ _ _ _ _ _ _ E _ I); discriminate.
  Qed.

  Lemma connect_fresh (st : cst) cerr ce st' evs r : connect c st cerr ce = (st', evs, r) ->
    (s_next st <= s_next st')%nat /\ forall k, In (EvConnect k) evs -> (k < s_next st')%nat.
  Proof.
    unfold connect. intros H.
    assert (T : forall r0 l, (forall k, ~ In (EvConnect k) l) -> (st, l, r0) = (st', evs, r) ->
      (s_next st <= s_next st')%nat /\ forall k, In (EvConnect k) evs -> (k < s_next st')%nat).
    { intros r0 l N Q. injection Q as <- <- <-. split; auto. intros k I. destruct (N _ I). }
    assert (N1 : forall k : nat, ~ In (EvConnect k) (@nil event)) by (intros k []).
    assert (N2 : forall k j : nat, ~ In (EvConnect k) ([EvRollback j] : list event)) by (intros k j [I|[]]; discriminate).
    destruct (ce_ctx0 ce); [eauto|]. destruct cerr as [[e i]|]; [|eapply reconnect_fresh; eauto].
    destruct (nth_error (c_stmts c) i) as [s|]; [|eauto].
    destruct (st_ddl s && _)%bool; [eauto|].
    destruct (error_handling (er_code e)) as [fl|]; [|eapply reconnect_fresh; eauto].
    destruct (negb (N.land fl Eabort =? 0)%N); [eauto|].
    destruct (negb (N.land fl Erollback =? 0)%N && s_active st)%bool.
    - destruct (s_conn st) as [k|]; [|eauto].
      destruct (ce_rollback ce); [eauto|].
      destruct (negb (N.land fl Econtinue =? 0)%N); [eauto|].
      destruct (reconnect c st ce) as [[st1 e1] r1] eqn:E. inv H. destruct (reconnect_fresh _ _ _ _ _ E) as [A B].
      split; auto. intros k0 [I|I]; [discriminate|eauto].
    - destruct (negb (N.land fl Econtinue =? 0)%N); [eauto|]. eapply reconnect_fresh; eauto.
  Qed.

  Lemma fresh_conn inps st pc (evs : list event) : client_run c inps = Some (st, pc, evs) ->
    forall k, In (EvConnect k) evs -> (k < s_next st)%nat.
  Proof.
    revert inps st pc evs. apply (client_run_ind c (fun st pc evs => forall k, In (EvConnect k) evs -> (k < s_next st)%nat)); [intros k []|].
    intros st pc evs inp st' pc' l P H k I. apply step_inv in H.
    assert (NOT : forall l0 : list event, filter is_connect l0 = [] -> ~ In (EvConnect k) l0).
    { intros l0 F J. assert (X : In (EvConnect k) (filter is_connect l0)) by (apply filter_In; auto). rewrite F in X. destruct X. }
    assert (FC : forall (st1 : cst) s, ~ In (EvConnect k) (finish st1 s)) by (intros; apply NOT, finish_none; reflexivity).
    apply in_app_iff in I as [I|I].
    - specialize (P _ I). inv H; auto.
      + match goal with H : connect _ _ _ _ = _ |- _ => apply connect_fresh in H end. lia.
      + match goal with H : exec_case _ _ _ _ _ _ _ |- _ => inv H end; auto.
        match goal with H : connect _ _ _ _ = _ |- _ => apply connect_fresh in H end. cbn in *. destruct r; cbn; lia.
    - inv H.
      + match goal with H : connect _ _ _ _ = _ |- _ => apply connect_fresh in H as [A B] end.
        apply in_app_iff in I as [I|I]; auto. destruct r; [destruct I| |]; destruct (FC _ _ I).
      + destruct (FC _ _ I).
      + destruct I.
      + apply in_app_iff in I as [I|I]; [|destruct nx; [destruct I|destruct I|destruct (FC _ _ I)]].
        match goal with H : exec_case _ _ _ _ _ _ _ |- _ => inv H end; try (destruct I; fail).
        * exfalso. revert I. apply NOT, permits_none; reflexivity.
        * exfalso. revert I. apply NOT, permits_none; reflexivity.
        * exfalso. revert I. apply NOT. rewrite filter_app, permits_none by reflexivity. reflexivity.
        * exfalso. revert I. apply NOT. rewrite !filter_app, permits_none, record_none, saved_none by reflexivity. reflexivity.
        * rewrite !app_assoc in I. apply in_app_iff in I as [I|I].
          { exfalso. revert I. apply NOT. rewrite !filter_app, permits_none, record_none, error_none by reflexivity. reflexivity. }
          match goal with H : connect _ _ _ _ = _ |- _ => apply connect_fresh in H as [A B] end. specialize (B _ I). destruct r; exact B.
  Qed.
End Fresh.
