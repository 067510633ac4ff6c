(** Trx boundaries, statistics and counters along a run. *)
From Verif Require Import Prelude ListAux ScopeModel StmtModel WorkloadModel WorkloadSpec ClientModel ClientSpec ClientProofs.
#[local] Open Scope string_scope.
#[local] Open Scope list_scope.

Lemma block_lt lens : forall i, (i < list_sum lens)%nat -> (block_index lens i < length lens)%nat.
Proof.
  induction lens as [|L lens IH]; intros i H; [cbn in H; lia|].
  change (list_sum (L :: lens)) with (L + list_sum lens)%nat in H. cbn [block_index length].
  destruct (i <? L)%nat eqn:E; [lia|]. specialize (IH (i - L)%nat ltac:(lia)). lia.
Qed.

Lemma block_succ lens : Forall (fun L => 0 < L)%nat lens -> forall i, (i < list_sum lens)%nat ->
  block_index lens (S i) = (block_index lens i + if last_of_trx lens i then 1 else 0)%nat.
Proof.
  unfold last_of_trx. induction 1 as [|L lens P F IH]; intros i H; [cbn in H; lia|].
  change (list_sum (L :: lens)) with (L + list_sum lens)%nat in H. cbn [block_index].
  destruct (i <? L)%nat eqn:E, (S i <? L)%nat eqn:E'; cbn [Nat.eqb negb]; try lia.
  - assert (S i - L = 0)%nat as -> by lia. destruct lens as [|L' lens]; [reflexivity|].
    inv F. cbn [block_index]. destruct (0 <? L')%nat eqn:E2; [reflexivity|lia].
  - replace (S i - L)%nat with (S (i - L)) by lia. specialize (IH (i - L)%nat ltac:(lia)).
    destruct (negb (block_index lens (S (i - L)) =? block_index lens (i - L)))%nat eqn:Q; rewrite IH; lia.
Qed.

Lemma first_succ lens i : first_of_trx lens (S i) = last_of_trx lens i.
Proof. unfold first_of_trx, last_of_trx. now rewrite Nat.eqb_sym. Qed.

Lemma marks_nth lens : Forall (fun L => 0 < L)%nat lens -> forall i, (i < list_sum lens)%nat ->
  nth_error (marks lens) i = Some (first_of_trx lens i, last_of_trx lens i).
Proof.
  unfold marks. induction 1 as [|L lens P F IH]; intros i H; [cbn in H; lia|].
  change (list_sum (L :: lens)) with (L + list_sum lens)%nat in H. cbn [map concat].
  assert (LEN : length (map (fun j => (Nat.eqb j 0, Nat.eqb (S j) L)) (seq 0 L)) = L) by now rewrite map_length, seq_length.
  unfold first_of_trx, last_of_trx. destruct (i <? L)%nat eqn:E.
  - rewrite nth_error_app1 by lia. rewrite nth_error_map, nth_error_nth' with (d := 0%nat) by (rewrite seq_length; lia).
    rewrite seq_nth by lia. cbn [option_map Nat.add block_index]. rewrite E. f_equal. f_equal.
    + destruct i as [|j]; [reflexivity|]. cbn [Nat.eqb]. destruct (j <? L)%nat eqn:E2; [reflexivity|lia].
    + destruct (S i <? L)%nat eqn:E2; cbn [Nat.eqb negb]; lia.
  - rewrite nth_error_app2 by lia. rewrite LEN, (IH (i - L)%nat) by lia. unfold first_of_trx, last_of_trx. cbn [block_index]. rewrite E.
    replace (S i - L)%nat with (S (i - L)) by lia. assert (E2 : (S i <? L)%nat = false) by lia. rewrite E2.
    f_equal. f_equal. destruct i as [|j]; [lia|]. cbn [block_index]. destruct (j <? L)%nat eqn:E3.
    + assert (S j - L = 0)%nat as -> by lia. reflexivity.
    + replace (S j - L)%nat with (S (j - L)) by lia. reflexivity.
Qed.

Section Trx.
  Context {V : Type}.
  Notation event := (event V).
  Notation cst := (cst V).
  Variables (c : client) (lens : list nat).
  Hypothesis TRX : has_trx c lens.
  Hypothesis START : trx_start_with_query c lens.
  Hypothesis NE : c_stmts c <> [].

  Lemma data_marks i d : nth_error (c_data c) i = Some d -> d_begin d = first_of_trx lens i /\ d_end d = last_of_trx lens i.
  Proof.
    intros H. destruct TRX as (F & L & M & _).
    assert (Q : nth_error (map (fun d => (d_begin d, d_end d)) (c_data c)) i = Some (d_begin d, d_end d)) by (exact (map_nth_error _ _ _ H)).
    rewrite M in Q. assert (I : (i < list_sum lens)%nat).
    { assert (LM : length (marks lens) = list_sum lens).
      { unfold marks. clear. induction lens as [|a l IH]; cbn; auto. rewrite app_length, map_length, seq_length, IH. reflexivity. }
      rewrite <- LM. apply nth_error_Some. congruence. }
    rewrite (marks_nth _ F _ I) in Q. injection Q as -> ->. auto.
  Qed.

  Definition pos_ok (st : cst) (pc : cpc) (evs : list event) : Prop :=
    match pc with
    | PcStmt i =>
      (i < length (c_stmts c))%nat /\
      if first_of_trx lens i then s_trxNo st = (Z.of_nat (block_index lens i) - 1)%Z
      else s_trxNo st = Z.of_nat (block_index lens i) /\ s_active st = true /\
           exists pre e, execs evs = pre ++ [e] /\ block_index lens (ex_stmt e) = block_index lens i /\
                         (ex_stmt e < i)%nat /\ rc_iter (ex_rc e) = rc_iter (s_rc st)
    | _ => True
    end.

  Lemma pre_no_ok st i evs d : pos_ok st (PcStmt i) evs -> nth_error (c_data c) i = Some d ->
    pre_no st d = Z.of_nat (block_index lens i) /\ (last_of_trx lens i = false -> pre_active st d = true).
  Proof.
    intros (L & H) D. destruct (data_marks _ _ D) as [B E]. unfold pre_no, pre_active. rewrite B, E.
    destruct (first_of_trx lens i); [split; auto; lia|]. destruct H as (-> & -> & _). split; [reflexivity|]. now intros ->.
  Qed.

  Lemma next_pos i st' evs' : (i < length (c_stmts c))%nat -> s_trxNo st' = Z.of_nat (block_index lens i) ->
    (last_of_trx lens i = false -> s_active st' = true /\
      exists pre e, execs evs' = pre ++ [e] /\ block_index lens (ex_stmt e) = block_index lens i /\
                    (ex_stmt e < S i)%nat /\ rc_iter (ex_rc e) = rc_iter (s_rc st')) ->
    pos_ok st' (stmt_pc c (S i)) evs'.
  Proof.
    intros L HN HA. unfold stmt_pc. destruct (S i <? length (c_stmts c))%nat eqn:E; [|exact I]. cbn [pos_ok].
    split; [lia|]. destruct TRX as (F & LS & _). rewrite first_succ.
    pose proof (block_succ lens F i ltac:(lia)) as BS. destruct (last_of_trx lens i).
    - rewrite HN, BS. lia.
    - rewrite Nat.add_0_r in BS. rewrite BS. destruct (HA eq_refl) as (A1 & pre & e & A2 & A3 & A4 & A5).
      split; [auto|]. split; [auto|]. exists pre, e. auto.
  Qed.

  Lemma slot_ok i : (i < length (c_stmts c))%nat ->
    stats_slot c (Z.of_nat (block_index lens i)) <> None /\
    (stats_on c -> stats_slot c (Z.of_nat (block_index lens i)) = Some (Some (block_index lens i))) /\
    (stats_off c -> stats_slot c (Z.of_nat (block_index lens i)) = Some None).
  Proof.
    intros L. destruct TRX as (F & LS & _ & LST). pose proof (block_lt lens i ltac:(lia)) as B.
    unfold stats_slot. assert (Z.of_nat (block_index lens i) <? 0 = false)%Z as -> by lia. rewrite Nat2Z.id.
    destruct (nth_error (c_stats c) (block_index lens i)) as [[t|]|] eqn:E.
    - split; [discriminate|]. split; auto. intros O. unfold stats_on, stats_off in O. rewrite Forall_forall in O. specialize (O _ (nth_error_In _ _ E)). discriminate.
    - split; [discriminate|]. split; auto. intros O. unfold stats_on, stats_off in O. rewrite Forall_forall in O. specialize (O _ (nth_error_In _ _ E)). congruence.
    - apply nth_error_None in E. lia.
  Qed.

  Lemma execs_app (a b : list event) : execs (a ++ b) = execs a ++ execs b.
  Proof. apply filter_app. Qed.
  Lemma filter_nil {A} (f : A -> bool) l : Forall (fun x => f x = false) l -> filter f l = [].
  Proof. induction 1 as [|x l H F IH]; cbn; auto. now rewrite H. Qed.
  Lemma quiet_no f (l : list event) : (forall e, quiet e = true -> f e = false) -> Forall (fun e => quiet e = true) l -> filter f l = [].
  Proof. intros H F. apply filter_nil. eapply Forall_impl; [|exact F]. auto. Qed.
  Lemma permits_no f i : (forall e : event, is_permit e = true -> f e = false) -> filter f (permits_for c i) = [].
  Proof.
    intros H. apply filter_nil. unfold permits_for. apply Forall_app. split.
    - destruct (c_tps c), (nth_error (c_stmts c) i); auto. destruct (st_begin s); auto.
    - destruct (c_qps c); auto.
  Qed.
  Lemma finish_no f (st : cst) s : (forall e : event, quiet e = true -> f e = false) -> (forall s r, f (EvDone s r) = false) -> filter f (finish st s) = [].
  Proof. intros H H'. apply filter_nil. unfold finish. apply Forall_app. split; [destruct (s_conn st); auto|auto]. Qed.
  Lemma finish_if_no f (st : cst) nx : (forall e : event, quiet e = true -> f e = false) -> (forall s r, f (EvDone s r) = false) ->
    filter f (match nx with NStop s => finish st s | _ => [] end) = [].
  Proof. destruct nx; auto. apply finish_no. Qed.

  (** Counters at each execution. *)
  Definition counters_at (pre : list event) (e : event) : Prop :=
    rc_statement (ex_rc e) = (cntN is_exec pre + 1)%N /\
    rc_trx (ex_rc e) = cntN (starts_trx lens) (pre ++ [e]) /\
    rc_iter (ex_rc e) = cntN (fun e => Nat.eqb (ex_stmt e) 0) (pre ++ [e]) /\
    rc_conn (ex_rc e) = (1 + cntN failed_exec pre)%N /\
    rc_client (ex_rc e) = rl_client (c_rl c) /\ rc_cg (ex_rc e) = rl_cg (c_rl c) /\
    rc_eg (ex_rc e) = rl_eg (c_rl c) /\ rc_stage (ex_rc e) = rl_stage (c_rl c) /\
    (first_of_trx lens (ex_stmt e) = false ->
       exists pre' e', pre = pre' ++ [e'] /\ block_index lens (ex_stmt e') = block_index lens (ex_stmt e) /\
         (ex_stmt e' < ex_stmt e)%nat /\ rc_iter (ex_rc e') = rc_iter (ex_rc e)).

  Definition rc_ok (st : cst) (pc : cpc) (evs : list event) : Prop :=
    let rc := s_rc st in
    rc_statement rc = cntN is_exec (execs evs) /\
    rc_trx rc = cntN (starts_trx lens) (execs evs) /\
    rc_iter rc = (cntN (fun e => Nat.eqb (ex_stmt e) 0) (execs evs) + match pc with PcStmt 0 => 1 | _ => 0 end)%N /\
    rc_conn rc = (1 + cntN failed_exec (execs evs))%N /\
    rc_client rc = rl_client (c_rl c) /\ rc_cg rc = rl_cg (c_rl c) /\
    rc_eg rc = rl_eg (c_rl c) /\ rc_stage rc = rl_stage (c_rl c).

  Definition trx_inv (st : cst) (pc : cpc) (evs : list event) : Prop :=
    pos_ok st pc evs /\
    (forall pre e post, execs evs = pre ++ e :: post -> counters_at pre e) /\
    (pc <> PcDone -> rc_ok st pc evs) /\
    (stats_on c -> stats_of c lens (execs evs) (filter is_stat evs)) /\
    (stats_off c -> filter is_stat evs = execs evs).

  Lemma cntN_app {A} (f : A -> bool) a b : cntN f (a ++ b) = (cntN f a + cntN f b)%N.
  Proof. unfold cntN. rewrite filter_app, app_length. lia. Qed.
  Lemma cntN_one {A} (f : A -> bool) a : cntN f [a] = (if f a then 1 else 0)%N.
  Proof. unfold cntN. cbn. now destruct (f a). Qed.

  Lemma class_of_is s : class_is s (class_of s).
  Proof. unfold class_of. destruct (st_resultset s) eqn:A, (st_write s) eqn:B, (st_commit s) eqn:C; cbn; auto. Qed.

  (** events without statistics or executions *)
  Lemma trx_inv_quiet st pc evs st' pc' l : trx_inv st pc evs -> filter is_stat l = [] -> execs l = [] ->
    pos_ok st' pc' (evs ++ l) -> (pc' <> PcDone -> rc_ok st' pc' (evs ++ l)) -> trx_inv st' pc' (evs ++ l).
  Proof.
    intros (P & C & R & S1 & S2) F E P' R'. unfold trx_inv. rewrite filter_app, F, app_nil_r, execs_app, E, app_nil_r.
    split; [exact P'|]. split; auto.
  Qed.

  Lemma last_split {A} (l : list A) x pre e post : l ++ [x] = pre ++ e :: post ->
    (post = [] /\ pre = l /\ e = x) \/ (exists post', post = post' ++ [x] /\ l = pre ++ e :: post').
  Proof.
    intros H. destruct post as [|y post] using rev_ind.
    - left. apply app_inj_tail in H as [-> ->]. auto.
    - right. clear IHpost. exists post. change (pre ++ e :: post ++ [y]) with (pre ++ (e :: post) ++ [y]) in H. rewrite app_assoc in H.
      apply app_inj_tail in H as [-> ->]. auto.
  Qed.

  Lemma cntN_exec (l : list event) : cntN is_exec (execs l) = cntN is_exec l.
  Proof.
    unfold cntN, execs. f_equal. f_equal. induction l as [|a l IH]; cbn; auto. destruct (is_exec a) eqn:E; cbn; rewrite ?E, IH; auto.
  Qed.

  Lemma trx_step st pc evs inp st' pc' l : trx_inv st pc evs -> cstep c st pc inp = Some (st', pc', l) -> trx_inv st' pc' (evs ++ l).
  Proof.
    intros INV H. apply step_inv in H. assert (INV0 := INV). destruct INV as (P & C & R & S1 & S2).
    assert (QS : forall e : event, quiet e = true -> is_stat e = false) by (intros []; cbn; congruence).
    assert (QE : forall e : event, quiet e = true -> is_exec e = false) by (intros []; cbn; congruence).
    assert (DS : forall s r, is_stat (EvDone s r : event) = false) by reflexivity.
    assert (DE : forall s r, is_exec (EvDone s r : event) = false) by reflexivity.
    assert (PS : forall i, filter is_stat (permits_for c i) = @nil event) by (intros; apply permits_no; intros []; cbn; congruence).
    assert (PE : forall i, filter is_exec (permits_for c i) = @nil event) by (intros; apply permits_no; intros []; cbn; congruence).
    inv H.
    - (* connect *)
      match goal with H : connect _ _ _ _ = _ |- _ => destruct (connect_inv _ _ _ _ _ _ _ H) as ((E1 & E2 & E3 & E4) & Q) end.
      apply trx_inv_quiet with st PcStart; auto.
      + rewrite filter_app, (quiet_no _ _ QS Q). destruct r; cbn; auto using finish_no.
      + unfold execs. rewrite filter_app, (quiet_no _ _ QE Q). destruct r; cbn; auto using finish_no.
      + destruct r; exact I.
      + intros ND. assert (RR := R ltac:(discriminate)). unfold rc_ok in *. rewrite E2. rewrite execs_app.
        assert (X : execs (evs0 ++ match r with PDoneOk => [] | PDoneErr e => finish st' (StopErr e) | PDonePanic => finish st' StopPanic end) = []).
        { unfold execs. rewrite filter_app, (quiet_no _ _ QE Q). destruct r; cbn; auto using finish_no. }
        rewrite X, app_nil_r. destruct r; auto; congruence.
    - (* limit *)
      apply trx_inv_quiet with st' PcIter; auto; try (apply finish_no; auto); try exact I; congruence.
    - (* new iteration *)
      assert (RR := R ltac:(discriminate)). rewrite app_nil_r. 
      assert (L0 : (0 < length (c_stmts c))%nat) by (destruct (c_stmts c); [congruence|cbn; lia]).
      assert (SP : stmt_pc c 0 = PcStmt 0) by (unfold stmt_pc; destruct (0 <? length (c_stmts c))%nat eqn:E; [auto|lia]). rewrite SP.
      split; [|split; [exact C|split; [|auto]]].
      + cbn [pos_ok first_of_trx s_trxNo]. split; auto. destruct TRX as (F & LS & _). destruct lens as [|L ls]; [cbn in LS; lia|].
        inv F. cbn [block_index]. destruct (0 <? L)%nat eqn:E; [reflexivity|lia].
      + intros _. unfold rc_ok in *. cbn [s_rc rc_statement rc_trx rc_iter rc_conn rc_client rc_cg rc_eg rc_stage].
        destruct RR as (R1 & R2 & R3 & R4 & R5). rewrite R3. repeat split; try tauto. lia.
    - (* statement *)
      assert (RR := R ltac:(discriminate)). destruct P as (LI & POS).
      match goal with H : exec_case _ _ _ _ _ _ _ |- _ => rename H into X end. match goal with H : exec_stmt _ _ _ _ = _ |- _ => clear H end.
      assert (TAIL : forall nx (s1 : cst), filter is_stat (match nx with NStop s => finish s1 s | _ => [] end) = @nil event) by (intros; apply finish_if_no; auto).
      assert (TAILE : forall nx (s1 : cst), filter is_exec (match nx with NStop s => finish s1 s | _ => [] end) = @nil event) by (intros; apply finish_if_no; auto).
      assert (NOEXEC : forall st1 l1 stp, filter is_stat l1 = [] -> execs l1 = [] -> trx_inv st1 PcDone (evs ++ l1 ++ finish st1 stp)).
      { intros st1 l1 stp F1 F2. apply trx_inv_quiet with st (PcStmt i); auto; [| |exact I|congruence].
        - now rewrite filter_app, F1, finish_no.
        - unfold execs in *. now rewrite filter_app, F2, finish_no. }
      (* a real execution: event x then statistics, then quiet events *)
      assert (EXEC : forall s d vals k ps res rest tl st1 pc1 slot,
        nth_error (c_stmts c) i = Some s -> nth_error (c_data c) i = Some d -> is_idle s = false ->
        stats_slot c (pre_no st d) = Some slot ->
        let x := EvExec i ps k (pre_rc st d) vals res (v_ctx se) in
        rest = match res with Some e => error_of slot e se | None => [] end ->
        filter is_stat tl = [] -> execs tl = [] ->
        (forall evs', execs evs' = execs evs ++ [x] -> pos_ok st1 pc1 evs' /\ (pc1 <> PcDone -> rc_ok st1 pc1 evs')) ->
        trx_inv st1 pc1 (evs ++ permits_for c i ++ [x] ++ record_of slot s ++ rest ++ tl)).
      { intros s d vals k ps res rest tl st1 pc1 slot ES ED EI ESL x RE T1 T2 POST.
        destruct (pre_no_ok st i evs d (conj LI POS) ED) as [NO ACT]. rewrite NO in ESL. destruct (slot_ok i LI) as (_ & SON & SOFF).
        destruct (data_marks _ _ ED) as [BEG END].
        assert (EX : execs (evs ++ permits_for c i ++ [x] ++ record_of slot s ++ rest ++ tl) = execs evs ++ [x]).
        { rewrite !execs_app. unfold execs at 2. rewrite PE, T2.
          assert (execs (record_of slot s) = @nil event) as -> by (destruct slot; reflexivity).
          assert (execs rest = @nil event) as ->.
          { rewrite RE. destruct res as [e|]; [|reflexivity]. unfold error_of. destruct slot; [|reflexivity]. destruct (v_ctx se); reflexivity. }
          reflexivity. }
        destruct (POST _ EX) as [POST1 POST2].
        split; [exact POST1|]. split; [|split; [exact POST2|]].
        - intros pre e post Q. rewrite EX in Q. apply last_split in Q as [(-> & -> & ->)|(post' & -> & Q)]; [|eauto].
          unfold rc_ok in RR. destruct RR as (R1 & R2 & R3 & R4 & R5 & R6 & R7 & R8).
          unfold counters_at. subst x. cbn [ex_rc ex_stmt pre_rc rc_statement rc_trx rc_iter rc_conn rc_client rc_cg rc_eg rc_stage].
          rewrite !cntN_app, !cntN_one. unfold starts_trx at 2. cbn [is_exec ex_stmt andb]. rewrite BEG, R1, R2, R3, R4.
          split; [lia|]. split; [destruct (first_of_trx lens i); lia|]. split; [destruct i; cbn [Nat.eqb]; lia|].
          split; [reflexivity|]. split; [tauto|]. split; [tauto|]. split; [tauto|]. split; [tauto|].
          intros NF. rewrite NF in POS. destruct POS as (_ & _ & pre & e' & Q1 & Q2 & Q3 & Q4). exists pre, e'. rewrite R3 in Q4.
          split; auto.
        - split.
          + intros ON. specialize (SON ON). rewrite SON in ESL. injection ESL as <-.
            destruct (S1 ON) as (parts & F & EQ). unfold stats_of. rewrite EX, !filter_app, PS, T1, EQ, app_nil_r.
            exists (parts ++ [x :: EvRecord (block_index lens i) (class_of s) :: match res with Some er => if v_ctx se then [] else [EvError (block_index lens i) (er_code er)] | None => [] end]).
            split.
            * apply Forall2_app; auto. constructor; [|constructor]. cbn [in_stats]. exists s, (class_of s). split; auto. split; [apply class_of_is|reflexivity].
            * rewrite concat_app. cbn [concat]. rewrite app_nil_r. f_equal. cbn [app filter is_stat x record_of]. f_equal. f_equal.
              rewrite RE. destruct res as [e|]; [|reflexivity]. unfold error_of. destruct (v_ctx se); reflexivity.
          + intros OFF. specialize (SOFF OFF). rewrite SOFF in ESL. injection ESL as <-.
            rewrite EX, !filter_app, PS, T1, (S2 OFF), app_nil_r. cbn [record_of filter app]. 
            assert (filter is_stat rest = @nil event) as -> by (rewrite RE; destruct res; reflexivity). reflexivity. }
      inv X.
      + (* index *) apply NOEXEC; reflexivity.
      + (* idle *)
        rewrite !app_nil_r. assert (NF : first_of_trx lens i = false).
        { destruct (first_of_trx lens i) eqn:FF; auto. rewrite (START _ _ H FF) in H0. discriminate. }
        rewrite NF in POS. destruct POS as (N1 & A1 & pre & e & Q1 & Q2 & Q3 & Q4).
        split; [|split; [exact C|split; [|auto]]].
        * apply next_pos; auto. intros _. split; auto. exists pre, e. repeat split; auto.
        * intros _. unfold rc_ok in *. destruct i as [|i]; [cbn in NF; discriminate|]. unfold stmt_pc. destruct (S (S i) <? length (c_stmts c))%nat; exact RR.
      + (* no connection *) apply NOEXEC; [exact (PS _)|exact (PE _)].
      + (* not executed *) apply NOEXEC; [exact (PS _)|exact (PE _)].
      + (* no slot: impossible *)
        match goal with H : nth_error (c_data c) i = Some d |- _ => destruct (pre_no_ok st i evs d (conj LI POS) H) as [NO _] end.
        match goal with H : stats_slot _ _ = None |- _ => rewrite NO in H; exfalso; apply (proj1 (slot_ok i LI)); exact H end.
      + (* ok *)
        rewrite app_nil_r. rewrite <- (app_nil_l (saved_of i s d)).
        eapply EXEC; eauto.
        * unfold saved_of. destruct (st_resultset s), (d_outputs d), (st_limit s), (d_insertId d); reflexivity.
        * unfold saved_of. destruct (st_resultset s), (d_outputs d), (st_limit s), (d_insertId d); reflexivity.
        * intros evs' EE. match goal with H : nth_error (c_data c) i = Some d |- _ => rename H into ED end.
          destruct (pre_no_ok st i evs d (conj LI POS) ED) as [NO ACT]. destruct (data_marks _ _ ED) as [BEG END]. split.
          -- apply next_pos; auto. intros NL. split; [exact (ACT NL)|]. eexists _, _. split; [exact EE|]. cbn. repeat split; auto.
          -- intros _. unfold rc_ok in *. rewrite EE, !cntN_app, !cntN_one.
             destruct RR as (R1 & R2 & R3 & R4 & R5 & R6 & R7 & R8). cbn [pre_state s_rc pre_rc rc_statement rc_trx rc_iter rc_conn rc_client rc_cg rc_eg rc_stage].
             unfold starts_trx at 2. cbn [is_exec ex_stmt andb failed_exec]. rewrite BEG, R1, R2, R3, R4, R5, R6, R7, R8.
             split; [lia|]. split; [destruct (first_of_trx lens i); lia|]. split; [|repeat split; lia].
             unfold stmt_pc. destruct (S i <? length (c_stmts c))%nat; destruct i; cbn [Nat.eqb]; lia.
      + (* error *)
        match goal with H : connect _ _ _ _ = _ |- _ => destruct (connect_inv _ _ _ _ _ _ _ H) as ((E1 & E2 & E3 & E4) & Q) end.
        match goal with H : nth_error (c_data c) i = Some d |- _ => rename H into ED end.
        destruct (data_marks _ _ ED) as [BEG END].
        rewrite <- !app_assoc.
        eapply (EXEC s d _ k ps (Some e) _ _ _ _ slot); eauto.
        * rewrite filter_app, (quiet_no _ _ QS Q). apply TAIL.
        * unfold execs. rewrite filter_app, (quiet_no _ _ QE Q). apply TAILE.
        * intros evs' EE. split; [destruct r; exact I|]. intros ND. destruct r; try congruence.
          unfold rc_ok in *. rewrite EE, !cntN_app, !cntN_one.
          destruct RR as (R1 & R2 & R3 & R4 & R5 & R6 & R7 & R8). cbn [with_rc s_rc pre_rc rc_statement rc_trx rc_iter rc_conn rc_client rc_cg rc_eg rc_stage].
          unfold starts_trx at 2. cbn [is_exec ex_stmt andb failed_exec]. rewrite BEG, R1, R2, R3, R4, R5, R6, R7, R8.
          split; [lia|]. split; [destruct (first_of_trx lens i); lia|]. split; [|repeat split; lia]. destruct i; cbn [Nat.eqb]; lia.
  Qed.

  Lemma trx_init : trx_inv (client_init c) PcStart [].
  Proof.
    split; [exact I|]. split; [intros pre e post H; destruct pre; discriminate|]. split; [|split].
    - intros _. unfold rc_ok, cntN. cbn. repeat split; lia.
    - intros _. exists []. split; [constructor|reflexivity].
    - reflexivity.
  Qed.

  Lemma trx_run inps st pc evs : client_run c inps = Some (st, pc, evs) -> trx_inv st pc evs.
  Proof. revert inps st pc evs. apply client_run_ind; [apply trx_init|apply trx_step]. Qed.
End Trx.
