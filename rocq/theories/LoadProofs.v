(** Proofs about data limits of statements that clients execute. *)
From Verif Require Import Prelude ListAux ScopeModel StmtModel WorkloadModel ClientModel ClientSpec IterModel IterSpec LoopModel LoopSpec LoopProofs.
From Verif Require Import LoadModel LoadSpec.
From Verif Require LimitProofs PaceModel PaceProofs ClientProofs ClientTrxProofs ClientConnProofs.

Section Load.
  Context {V : Type}.
  Notation event := (event V).

  (** ** Single steps *)

  Definition limited_by (k : lcl V) (l : nat) : bool := match limited k with Some l' => Nat.eqb l' l | None => false end.

  Lemma written_app cs l (a b : list (nat * event * Z)) : rows_where (writes cs l) (a ++ b) = (rows_where (writes cs l) a + rows_where (writes cs l) b)%Z.
  Proof.
    induction a as [|x a IH]; [reflexivity|]. change (rows_where (writes cs l) ((x :: a) ++ b)) with (if writes cs l x then snd x + rows_where (writes cs l) (a ++ b) else rows_where (writes cs l) (a ++ b))%Z.
    change (rows_where (writes cs l) (x :: a)) with (if writes cs l x then snd x + rows_where (writes cs l) a else rows_where (writes cs l) a)%Z. rewrite IH. destruct (writes cs l x); lia.
  Qed.
  Lemma written_pos cs l r (evs : list (nat * event * Z)) : rows_each (writes cs l) r evs -> (0 <= rows_where (writes cs l) evs)%Z.
  Proof.
    induction 1 as [|x a H F IH]; [reflexivity|]. change (rows_where (writes cs l) (x :: a)) with (if writes cs l x then snd x + rows_where (writes cs l) a else rows_where (writes cs l) a)%Z.
    destruct (writes cs l x); [specialize (H eq_refl)|]; lia.
  Qed.

  Lemma written_execs cs l i w (evs : list event) :
    rows_where (writes cs l) (map (fun ev => (i, ev, w)) evs) = rows_where (writes cs l) (map (fun ev => (i, ev, w)) (execs evs)).
  Proof.
    induction evs as [|e evs IH]; [reflexivity|]. unfold execs in *. cbn [map filter]. destruct (is_exec e) eqn:X.
    - cbn [map rows_where fold_right]. fold (rows_where (writes cs l) (map (fun ev => (i, ev, w)) evs)).
      fold (rows_where (writes cs l) (map (fun ev => (i, ev, w)) (filter is_exec evs))). now rewrite IH.
    - rewrite <- IH. cbn [map rows_where fold_right]. replace (writes cs l (i, e, w)) with false; [reflexivity|]. destruct e; try reflexivity; discriminate.
  Qed.
  Lemma ok_execs (evs : list event) : executed_ok evs = executed_ok (execs evs).
  Proof.
    unfold executed_ok, execs. induction evs as [|e evs IH]; [reflexivity|]. cbn [filter existsb]. destruct (is_exec e) eqn:X.
    - cbn [existsb]. now rewrite IH.
    - rewrite IH. destruct e; try reflexivity; discriminate.
  Qed.

  Lemma step_written cs l (st : lst V) i inp st' evs w k : nth_error (l_cls st) i = Some k -> nth_error cs i = Some (l_c k) ->
    loop_step st i inp = Some (st', evs) ->
    rows_where (writes cs l) (map (fun ev => (i, ev, w)) evs) = (if executed_ok evs && limited_by k l then w else 0)%bool%Z /\
    ((exists se, inp = LStmt se) \/ executed_ok evs = false).
  Proof.
    intros K C H. destruct (PaceProofs.loop_execs _ _ _ _ _ H) as (k' & K' & X). rewrite K in K'. injection K' as <-.
    rewrite written_execs, ok_execs. destruct X as [->|(e & s & se & -> & -> & A & N)]; [split; [reflexivity|now right]|].
    split; [|eauto]. destruct e as [| | | | | | |n p c rc vs res x| | | | |]; try reflexivity.
    cbn [map rows_where fold_right writes executed_ok existsb snd ex_stmt] in *. destruct res as [err|]; [reflexivity|].
    rewrite orb_false_r. cbn [andb]. unfold uses. rewrite C, N.
    assert (LK : limited k = if st_resultset s then None else st_limit s).
    { unfold PaceModel.at_query in A. unfold limited. destruct (l_pc k) as [| |m|]; try discriminate.
      destruct (nth_error (c_stmts (l_c k)) m) as [s'|]; [|discriminate]. destruct (st_idle s' =? 0)%Z; [|discriminate].
      injection A as ->. destruct (st_resultset s); reflexivity. }
    unfold limited_by. rewrite LK. destruct (st_resultset s); [now rewrite andb_false_r|]. rewrite andb_true_r.
    destruct (st_limit s) as [l'|]; [|reflexivity]. destruct (Nat.eqb l' l); [|reflexivity]. lia.
  Qed.

  (** A client that the limit stops does not execute the statement; and a client stops at a limit only before an
      iteration or where the limit says so. *)
  Lemma limit_stmt (k : lcl V) l se s pc evs : limited k = Some l -> v_more se = Some false ->
    cstep (l_c k) (l_st k) (l_pc k) (IStmt se) = Some (s, pc, evs) -> executed_ok evs = false.
  Proof.
    unfold limited, cstep. intros LK VM H. destruct (l_pc k) as [| |m|]; try discriminate. unfold exec_stmt in H.
    destruct (nth_error (c_stmts (l_c k)) m) as [sm|]; [|discriminate]. destruct (st_idle sm =? 0)%Z; [|discriminate].
    cbn [negb] in H. destruct (st_resultset sm); [discriminate|]. cbn [andb negb] in LK. rewrite LK in H.
    assert (FIN : forall (st : cst V) s, executed_ok (finish st s) = false) by (intros st0 s0; unfold finish; destruct (s_conn st0); reflexivity).
    assert (APP : forall (a b : list event), executed_ok (a ++ b) = (executed_ok a || executed_ok b)%bool) by (intros; apply existsb_app).
    destruct (nth_error (c_data (l_c k)) m) as [d|]; [|injection H as <- <- <-; cbn; apply FIN].
    destruct (nth_error (s_values (l_st k)) m) as [vals|]; [|injection H as <- <- <-; cbn; apply FIN].
    destruct (nth_error (s_ps (l_st k)) m) as [ps|]; [|injection H as <- <- <-; cbn; apply FIN].
    destruct (if d_begin d then _ else _) as [[trx1 trxNo1] active1]. rewrite VM in H.
    match type of H with context [?a ++ (if _ then [EvQps] else [])] => assert (E1 : executed_ok (a ++ (if match c_qps (l_c k) with Some _ => true | None => false end then [EvQps] else [])) = false) end.
    { rewrite APP. destruct (_ && _)%bool; destruct (c_qps (l_c k)); reflexivity. }
    destruct (set_nth _ m _) as [v1|]; [destruct (s_conn (l_st k))|]; injection H as <- <- <-; rewrite APP, E1, FIN; reflexivity.
  Qed.
  Lemma refused_no_exec (st : lst V) i se st' evs k l : nth_error (l_cls st) i = Some k -> limited k = Some l -> v_more se = Some false ->
    loop_step st i (LStmt se) = Some (st', evs) -> executed_ok evs = false.
  Proof.
    unfold loop_step. intros K LK VM H. rewrite K in H. destruct (cstep _ _ _ _) as [[[s pc] e1]|] eqn:C; [|discriminate].
    destruct (set_nth _ _ _); [|discriminate]. injection H as <- <-. eapply limit_stmt; eauto.
  Qed.

  Lemma fin_limit (st : cst V) s r : In (EvDone StopLimit r) (finish st s) -> s = StopLimit.
  Proof. unfold finish. intros [I|[I|[]]]%in_app_or; [destruct (s_conn st); cbn in I; [destruct I as [I|[]]; discriminate|contradiction]|congruence]. Qed.

  Lemma exec_limit c (st : cst V) m se st' evs : exec_stmt c st m se = (st', evs, NStop StopLimit) ->
    exists s l, nth_error (c_stmts c) m = Some s /\ (st_idle s =? 0)%Z = true /\ st_resultset s = false /\ st_limit s = Some l /\ v_more se = Some false.
  Proof.
    unfold exec_stmt. intros H. destruct (nth_error (c_stmts c) m) as [s|]; [|discriminate]. exists s.
    destruct (nth_error (c_data c) m) as [d|]; [|discriminate]. destruct (nth_error (s_values st) m) as [vals|]; [|discriminate].
    destruct (nth_error (s_ps st) m) as [ps|]; [|discriminate]. destruct (st_idle s =? 0)%Z eqn:ID; [|discriminate]. cbn [negb] in H.
    destruct (if d_begin d then _ else _) as [[trx1 trxNo1] active1]. destruct (set_nth _ m _) as [v1|]; [|discriminate]. destruct (s_conn st); [|discriminate].
    assert (HE : forall (st : cst V) i slot e se st1 evs1, handle_error c st i slot e se <> (st1, evs1, NStop StopLimit)).
    { intros st0 i0 slot e0 se0 st1 evs1 X. unfold handle_error in X. destruct (connect _ _ _ _) as [[st2 e2] []]; discriminate. }
    destruct (st_resultset s); [|destruct (st_limit s) as [l|]; [destruct (v_more se) as [[|]|]|]].
    3: exists l; auto 10. 3: discriminate.
    all: exfalso; destruct (stats_slot c trxNo1); [|discriminate]; match type of H with context [match ?x with Some e => _ | None => (_, _, NStmt) end] => destruct x as [e|]; [|discriminate] end;
      destruct (handle_error _ _ _ _ _ _) as [[st2 e2] nx] eqn:X; injection H as <- <- ->; eapply HE; eauto.
  Qed.

  Lemma limit_reason (st : lst V) i inp st' evs r : loop_step st i inp = Some (st', evs) -> In (EvDone StopLimit r) evs ->
    exists k, nth_error (l_cls st) i = Some k /\ ((exists cnt, loop_check (l_cnt st) k = (cnt, Some false)) \/
       exists se l, inp = LStmt se /\ limited k = Some l /\ v_more se = Some false).
  Proof.
    unfold loop_step. intros H I. destruct (nth_error (l_cls st) i) as [k|] eqn:K; [|discriminate]. exists k. split; [reflexivity|].
    destruct inp as [ce| |se].
    - exfalso. destruct (cstep _ _ _ _) as [[[s pc] e1]|] eqn:C; [|discriminate]. destruct (set_nth _ _ _); [|discriminate]. injection H as <- <-.
      unfold cstep in C. destruct (l_pc k); try discriminate. destruct (connect (l_c k) (l_st k) None ce) as [[st1 e2] p] eqn:CN.
      pose proof (ClientTrxProofs.quiet_no _ _ ClientConnProofs.quiet_done (proj2 (ClientProofs.connect_inv _ _ _ _ _ _ _ CN))) as ND.
      destruct p; injection C as <- <- <-; [|apply in_app_or in I as [I|I]; [|apply fin_limit in I; discriminate]..];
        eapply ClientConnProofs.done_not_in; eauto.
    - destruct (l_pc k); try discriminate. destruct (loop_check (l_cnt st) k) as [cnt [[|]|]] eqn:LC.
      + exfalso. destruct (cstep _ _ _ _) as [[[s pc] e1]|] eqn:C; [|discriminate]. destruct (set_nth _ _ _); [|discriminate]. injection H as <- <-.
        unfold cstep in C. injection C as <- <- <-. contradiction.
      + left. eauto.
      + destruct (set_nth _ _ _); [|discriminate]. injection H as <- <-. contradiction.
    - right. exists se. destruct (cstep _ _ _ _) as [[[s pc] e1]|] eqn:C; [|discriminate]. destruct (set_nth _ _ _); [|discriminate]. injection H as <- <-.
      unfold cstep in C. unfold limited. destruct (l_pc k) as [| |m|]; try discriminate.
      destruct (exec_stmt (l_c k) (l_st k) m se) as [[st1 e2] nx] eqn:EX.
      pose proof (LoopProofs.exec_no_done _ _ _ _ _ _ _ (ClientProofs.exec_inv _ _ _ _ _ _ _ EX)) as ND. rewrite Forall_forall in ND.
      assert (NI : ~ In (EvDone StopLimit r) e2) by (intros Z; apply ND in Z; discriminate).
      destruct nx as [| |s0]; injection C as <- <- <-; try contradiction. apply in_app_or in I as [I|I]; [contradiction|].
      apply fin_limit in I as ->. destruct (exec_limit _ _ _ _ _ _ EX) as (s0 & l0 & N & ID & RS & LM & VM).
      exists l0. rewrite N, ID, RS. cbn. auto.
  Qed.


  (** ** What happens to one limit *)

  Section One.
    Variable cs : list client.
    Variable l : nat.
    Variable r : Z.
    Notation K := (length cs).

    (** The clients of a state are [cs]; only they count rows. *)
    Definition fits (st : dst V) : Prop := map l_c (l_cls (d_loop st)) = cs /\ forall i l, d_busy st i = Some l -> (i < K)%nat.

    Lemma step_fits st e st' evs : fits st -> load_step (V := V) st e = Some (st', evs) -> fits st'.
    Proof.
      intros (CS & BZ) H. destruct e as [i c|i inp w|i]; cbn [load_step] in H.
      - destruct (load_check st i c) as [st1|] eqn:X; [|discriminate]. injection H as <- <-.
        unfold load_check in X. repeat match type of X with context [match ?y with _ => _ end] => destruct y; try discriminate end; injection X as <-; split; auto.
      - destruct (load_loop st i inp w) as [[st1 evs1]|] eqn:X; [|discriminate]. injection H as <- <-.
        unfold load_loop in X. destruct (nth_error (l_cls (d_loop st)) i) as [k|] eqn:Hk; [|discriminate]. destruct (d_busy st i); [discriminate|].
        assert (IK : (i < K)%nat) by (rewrite <- CS, map_length; apply nth_error_Some; congruence).
        destruct (loop_step (d_loop st) i inp) as [[l' evs0]|] eqn:LS.
        2:{ repeat match type of X with context [match ?y with _ => _ end] => destruct y; try discriminate end. }
        assert (CS' : map l_c (l_cls l') = cs) by (rewrite (PaceProofs.loop_clients _ _ _ _ _ LS); exact CS).
        repeat match type of X with context [match ?y with _ => _ end] => destruct y; try discriminate end; injection X as <- <-; split; auto;
          cbn [d_busy]; intros z l9 Hz; destruct (Nat.eq_dec i z) as [<-|NE]; auto; try rewrite natupd_other in Hz by auto; eauto.
      - destruct (load_count st i) as [st1|] eqn:X; [|discriminate]. injection H as <- <-.
        unfold load_count in X. destruct (d_busy st i) eqn:BI; [|discriminate]. destruct (d_lims st n); [|discriminate]. destruct (L.lstep _ _ _); [|discriminate].
        injection X as <-. split; [exact CS|]. cbn [d_busy]. intros j l9 Hj. destruct (Nat.eq_dec i j) as [<-|NE]; [eauto|].
        destruct (L.l_ph _ i); try rewrite natupd_other in Hj by auto; eauto.
    Qed.

    (** The runs of LimitModel.v that can be the history of limit [l]. *)
    Definition hist (s0 s : L.lstate) : Prop :=
      exists tr, L.lrun K r s0 tr s /\ Forall (fun x => snd x <> L.LLeave) tr.

    Lemma hist_step s0 s i a s' : hist s0 s -> (i < K)%nat -> (forall w, a = L.LExec (Some w) -> 0 <= w <= r)%Z ->
      a <> L.LLeave -> L.lstep s i a = Some s' -> hist s0 s'.
    Proof.
      intros (tr & R & F) I W N S. exists (tr ++ [(i, a)]). split; [econstructor; eauto|].
      apply Forall_app. split; [exact F|]. repeat constructor. exact N.
    Qed.

    Lemma lstep_written s i a s' : L.lstep s i a = Some s' ->
      L.l_written s' = (L.l_written s + match a with L.LExec (Some w) => w | _ => 0 end)%Z.
    Proof.
      unfold L.lstep. intros H. destruct (L.l_ph s i); destruct a as [|c|[x|]| |]; try discriminate;
        repeat match type of H with
        | Some _ = Some _ => injection H as <-
        | context [match ?x with _ => _ end] => destruct x; try discriminate
        end; cbn [L.l_written]; lia.
    Qed.

    Lemma step_hist st e st' evs s0 s : fits st -> load_step (V := V) st e = Some (st', evs) ->
      rows_each (writes cs l) r evs -> d_lims st l = Some s -> hist s0 s ->
      exists s', d_lims st' l = Some s' /\ hist s0 s' /\ (L.l_written s' = L.l_written s + rows_where (writes cs l) evs)%Z.
    Proof.
      intros (CS & BZ) H RE D HI. destruct e as [i c|i inp w|i]; cbn [load_step] in H.
      - unfold load_check in H. destruct (nth_error (l_cls (d_loop st)) i) as [k|] eqn:Hk; [|discriminate].
        assert (IK : (i < K)%nat) by (rewrite <- CS, map_length; apply nth_error_Some; congruence).
        destruct (d_busy st i); [discriminate|]. destruct (limited k) as [l'|]; [|discriminate].
        destruct (d_lims st l') as [s1|] eqn:D1; [|discriminate].
        destruct (match L.l_ph s1 i with L.LIdle => L.lstep s1 i L.LStart | _ => Some s1 end) as [s2|] eqn:S2; [|discriminate].
        destruct (L.lstep s2 i (L.LMore c)) as [s3|] eqn:S3; [|discriminate]. injection H as <- <-. cbn [d_loop d_lims].
        destruct (Nat.eq_dec l' l) as [->|N].
        + rewrite natupd_same. rewrite D in D1. injection D1 as <-. exists s3. split; [reflexivity|].
          assert (H2 : hist s0 s2 /\ L.l_written s2 = L.l_written s).
          { destruct (L.l_ph s i); try (injection S2 as <-; auto; fail). split; [eapply hist_step; eauto; discriminate|].
            rewrite (lstep_written _ _ _ _ S2). lia. }
          destruct H2 as (H2 & W2). split; [eapply hist_step; eauto; discriminate|]. rewrite (lstep_written _ _ _ _ S3), W2. cbn. lia.
        + rewrite natupd_other by auto. exists s. split; [exact D|]. split; [exact HI|cbn; lia].
      - unfold load_loop in H. destruct (nth_error (l_cls (d_loop st)) i) as [k|] eqn:Hk; [|discriminate].
        assert (IK : (i < K)%nat) by (rewrite <- CS, map_length; apply nth_error_Some; congruence).
        assert (CI : nth_error cs i = Some (l_c k)) by (rewrite <- CS, nth_error_map, Hk; reflexivity).
        destruct (d_busy st i); [discriminate|].
        (* steps that leave the limits alone *)
        assert (OTHER : forall st1 evs1, (forall l' evs0, loop_step (d_loop st) i inp = Some (l', evs0) -> (executed_ok evs0 && limited_by k l = false)%bool) ->
            match loop_step (d_loop st) i inp with Some (l', evs0) => Some (DSt l' (d_lims st) (d_busy st), evs0) | None => None end = Some (st1, evs1) ->
            exists s', d_lims st1 l = Some s' /\ hist s0 s' /\
              (L.l_written s' = L.l_written s + rows_where (writes cs l) (map (fun ev => (i, ev, w)) evs1))%Z).
        { intros st1 evs1 NX X. destruct (loop_step (d_loop st) i inp) as [[l' evs0]|] eqn:LS; [|discriminate]. injection X as <- <-. cbn [d_loop d_lims].
          exists s. split; [exact D|]. split; [exact HI|].
          destruct (step_written cs l _ _ _ _ _ w _ Hk CI LS) as (-> & _). rewrite (NX _ _ eq_refl). lia. }
        destruct inp as [ce| |se].
        1,2: destruct (loop_step (d_loop st) i _) as [[l' evs0]|] eqn:LS; [|discriminate]; injection H as <- <-;
          apply (OTHER _ evs0); [|reflexivity]; intros l1 evs1 [= <- <-]; destruct (step_written cs l _ _ _ _ _ w _ Hk CI LS) as (_ & [(se & X)|X]);
          [discriminate|now rewrite X].
        destruct (limited k) as [l'|] eqn:LK.
        2:{ destruct (loop_step (d_loop st) i _) as [[l' evs0]|] eqn:LS; [|discriminate]; injection H as <- <-.
            apply (OTHER _ evs0); [|reflexivity]. intros l1 evs1 _. unfold limited_by. rewrite LK. apply andb_false_r. }
        destruct (d_lims st l') as [s1|] eqn:D1; destruct (v_more se) as [b|] eqn:VM; try discriminate.
        + destruct (L.l_ph s1 i) as [|j| |] eqn:PH; try discriminate; destruct b; try discriminate.
          * destruct (loop_step (d_loop st) i (LStmt se)) as [[l1 evs0]|] eqn:LS; [|discriminate].
            destruct (L.lstep s1 i _) as [s2|] eqn:S2; [|discriminate]. injection H as <- <-. cbn [d_loop d_lims].
            destruct (step_written cs l _ _ _ _ _ w _ Hk CI LS) as (WR & _). rewrite WR. unfold limited_by. rewrite LK.
            destruct (Nat.eqb_spec l' l) as [->|N].
            -- rewrite natupd_same. rewrite D in D1. injection D1 as <-. exists s2. split; [reflexivity|].
               split; [|rewrite (lstep_written _ _ _ _ S2); destruct (executed_ok evs0); cbn [andb]; lia].
               refine (hist_step _ _ _ _ _ HI IK _ _ S2); [|discriminate]. intros w' X. destruct (executed_ok evs0) eqn:OK; [|discriminate].
               injection X as ->. unfold rows_each in RE. rewrite Forall_forall in RE. unfold executed_ok in OK. apply existsb_exists in OK as (ev & IE & OK).
               destruct ev as [| | | | | | |n p c rc vs res x| | | | |]; try discriminate. destruct res; [discriminate|].
               specialize (RE _ (in_map (fun ev => (i, ev, w')) _ _ IE)). cbn [snd] in RE. apply RE.
               (* the execution is of the limited statement *)
               destruct (PaceProofs.loop_execs _ _ _ _ _ LS) as (k' & K' & X). rewrite Hk in K'. injection K' as <-.
               assert (IE' : In (EvExec n p c rc vs None x) (execs evs0)) by (apply filter_In; auto).
               destruct X as [X|(e0 & s' & se' & X & _ & A & NN)]; [rewrite X in IE'; contradiction|]. rewrite X in IE'.
               destruct IE' as [->|[]]. cbn [ex_stmt] in NN. cbn [writes]. unfold uses. rewrite CI, NN.
               unfold PaceModel.at_query in A. unfold limited in LK. destruct (l_pc k) as [| |m|]; try discriminate.
               destruct (nth_error (c_stmts (l_c k)) m) as [s''|]; [|discriminate]. destruct (st_idle s'' =? 0)%Z; [|discriminate].
               injection A as ->. cbn [andb] in LK. destruct (st_resultset s'); [discriminate|]. cbn in LK. rewrite LK, Nat.eqb_refl. reflexivity.
            -- rewrite natupd_other by auto. rewrite andb_false_r. exists s. split; [exact D|]. split; [exact HI|lia].
          * destruct (loop_step (d_loop st) i (LStmt se)) as [[l1 evs0]|] eqn:LS; [|discriminate]; injection H as <- <-.
            apply (OTHER _ evs0); [|reflexivity]. intros l2 evs2 [= <- <-]. replace (executed_ok evs0) with false; [reflexivity|]. symmetry.
            eapply refused_no_exec; eauto.
        + destruct (loop_step (d_loop st) i (LStmt se)) as [[l1 evs0]|] eqn:LS; [|discriminate]; injection H as <- <-.
          apply (OTHER _ evs0); [|reflexivity]. intros l2 evs2 _. unfold limited_by. rewrite LK.
          destruct (Nat.eqb_spec l' l) as [->|N]; [congruence|apply andb_false_r].
      - unfold load_count in H. destruct (d_busy st i) as [l'|] eqn:B; [|discriminate]. destruct (d_lims st l') as [s1|] eqn:D1; [|discriminate].
        destruct (L.lstep s1 i L.LAffected) as [s2|] eqn:S2; [|discriminate]. injection H as <- <-. cbn [d_loop d_lims].
        destruct (Nat.eq_dec l' l) as [->|N].
        + rewrite natupd_same. rewrite D in D1. injection D1 as <-. exists s2. split; [reflexivity|].
          split; [eapply hist_step; eauto; discriminate|]. rewrite (lstep_written _ _ _ _ S2). reflexivity.
        + rewrite natupd_other by auto. exists s. split; [exact D|]. split; [exact HI|cbn; lia].
    Qed.

    Lemma load_hist tr : forall st st' evs s0 s, fits st -> load_run (V := V) st tr = Some (st', evs) ->
      rows_each (writes cs l) r evs -> d_lims st l = Some s -> hist s0 s ->
      exists s', d_lims st' l = Some s' /\ hist s0 s' /\ (L.l_written s' = L.l_written s + rows_where (writes cs l) evs)%Z.
    Proof.
      induction tr as [|e tr IH]; intros st st' evs s0 s F H RE D HI; cbn [load_run] in H.
      - injection H as <- <-. exists s. split; [exact D|]. split; [exact HI|cbn; lia].
      - destruct (load_step st e) as [[st1 e1]|] eqn:S; [|discriminate]. destruct (load_run st1 tr) as [[st2 e2]|] eqn:R; [|discriminate].
        injection H as <- <-. apply Forall_app in RE as [RE1 RE2].
        destruct (step_hist _ _ _ _ _ _ F S RE1 D HI) as (s1 & D1 & H1 & W1).
        destruct (IH _ _ _ _ _ (step_fits _ _ _ _ F S) R RE2 D1 H1) as (s2 & D2 & H2 & W2).
        exists s2. split; [exact D2|]. split; [exact H2|]. rewrite written_app. lia.
    Qed.
  End One.

  Lemma load_fits cs tr : forall (st st' : dst V) evs, fits cs st -> load_run st tr = Some (st', evs) -> fits cs st'.
  Proof.
    induction tr as [|e tr IH]; intros st st' evs F H; cbn [load_run] in H; [injection H as <- <-; exact F|].
    destruct (load_step st e) as [[st1 e1]|] eqn:S; [|discriminate]. destruct (load_run st1 tr) as [[st2 e2]|] eqn:R; [|discriminate].
    injection H as <- <-. eapply IH; [eapply step_fits; eauto|exact R].
  Qed.
  Lemma init_fits lims cs : fits cs (load_init (V := V) lims cs).
  Proof. split; [|discriminate]. cbn. rewrite map_map. apply map_id. Qed.

  (** ** A run seen as a run of the clients (LoopModel.v) *)

  Lemma step_loop (st : dst V) e st' evs : load_step st e = Some (st', evs) ->
    match e with
    | DLoop i inp _ => exists evs0, loop_step (d_loop st) i inp = Some (d_loop st', evs0) /\ map fst evs = map (fun ev => (i, ev)) evs0
    | _ => d_loop st' = d_loop st /\ evs = []
    end.
  Proof.
    destruct e as [i c|i inp w|i]; cbn [load_step]; intros H.
    - destruct (load_check st i c) as [st1|] eqn:X; [|discriminate]. injection H as <- <-. split; [|reflexivity].
      unfold load_check in X. repeat match type of X with context [match ?y with _ => _ end] => destruct y; try discriminate end; injection X as <-; reflexivity.
    - destruct (load_loop st i inp w) as [[st1 evs1]|] eqn:X; [|discriminate]. injection H as <- <-. exists evs1. split.
      + unfold load_loop in X. destruct (nth_error (l_cls (d_loop st)) i) as [k|]; [|discriminate]. destruct (d_busy st i); [discriminate|].
        destruct (loop_step (d_loop st) i inp) as [[l' evs0]|];
          repeat match type of X with context [match ?y with _ => _ end] => destruct y; try discriminate end; injection X as <- <-; reflexivity.
      + rewrite map_map. reflexivity.
    - destruct (load_count st i) as [st1|] eqn:X; [|discriminate]. injection H as <- <-. split; [|reflexivity].
      unfold load_count in X. destruct (d_busy st i); [|discriminate]. destruct (d_lims st n); [|discriminate]. destruct (L.lstep _ _ _); [|discriminate].
      injection X as <-. reflexivity.
  Qed.

  (** The schedule without the checks and counts of data limits. *)
  Definition erase (tr : list (devent V)) : list (nat * linput V) :=
    flat_map (fun e => match e with DLoop i inp _ => [(i, inp)] | _ => [] end) tr.

  Lemma load_loop_run tr : forall (st st' : dst V) evs, load_run st tr = Some (st', evs) ->
    loop_run (d_loop st) (erase tr) = Some (d_loop st', map fst evs).
  Proof.
    induction tr as [|e tr IH]; intros st st' evs H; cbn [load_run] in H; [injection H as <- <-; reflexivity|].
    destruct (load_step st e) as [[st1 e1]|] eqn:S; [|discriminate]. destruct (load_run st1 tr) as [[st2 e2]|] eqn:R; [|discriminate].
    injection H as <- <-. apply IH in R. apply step_loop in S. destruct e as [i c|i inp w|i]; cbn [erase flat_map app].
    - destruct S as (S & ->). rewrite <- S. exact R.
    - destruct S as (evs0 & S & M). cbn [loop_run]. fold (erase tr). rewrite S, R. rewrite map_app, M. reflexivity.
    - destruct S as (S & ->). rewrite <- S. exact R.
  Qed.

  (** ** Where in a run an event happened *)

  Lemma load_split tr : forall (st st' : dst V) evs x, load_run st tr = Some (st', evs) -> In x evs ->
    exists tr1 e tr2 st1 evs1 st2 evs2 evs3, tr = tr1 ++ e :: tr2 /\ load_run st tr1 = Some (st1, evs1) /\
      load_step st1 e = Some (st2, evs2) /\ In x evs2 /\ load_run st2 tr2 = Some (st', evs3) /\ evs = evs1 ++ evs2 ++ evs3.
  Proof.
    induction tr as [|e tr IH]; intros st st' evs x H I; cbn [load_run] in H; [injection H as <- <-; destruct I|].
    destruct (load_step st e) as [[st1 e1]|] eqn:S; [|discriminate]. destruct (load_run st1 tr) as [[st2 e2]|] eqn:R; [|discriminate].
    injection H as <- <-. apply in_app_or in I as [I|I].
    - exists [], e, tr, st, [], st1, e1, e2. repeat split; auto.
    - destruct (IH _ _ _ _ R I) as (tr1 & e' & tr2 & sa & ea & sb & eb & ec & -> & A & B & C & D & ->).
      exists (e :: tr1), e', tr2, sa, (e1 ++ ea), sb, eb, ec. split; [reflexivity|]. split; [cbn [load_run]; rewrite S, A; reflexivity|].
      repeat split; auto. now rewrite <- app_assoc.
  Qed.

  (** A client that a data limit stops has been told so by the limit. *)
  Lemma stopped_gone (st : dst V) i inp w st' evs k se l : load_step st (DLoop i inp w) = Some (st', evs) ->
    nth_error (l_cls (d_loop st)) i = Some k -> inp = LStmt se -> limited k = Some l -> v_more se = Some false ->
    exists s, d_lims st l = Some s /\ L.l_ph s i = L.LGone.
  Proof.
    cbn [load_step]. unfold load_loop. intros H K -> LK VM. rewrite K, LK, VM in H. destruct (d_busy st i); [discriminate|].
    destruct (d_lims st l) as [s|]; [|discriminate]. exists s. split; [reflexivity|]. destruct (L.l_ph s i); try discriminate. reflexivity.
  Qed.
End Load.

(** ** A row limit that said no *)

Section Gone.
  Import LimitModel.
  #[local] Open Scope Z_scope.
  Variables (k : nat) (r N o : Z).
  Hypotheses (R0 : 0 <= r) (O0 : 0 <= o < 2^63) (B : N - 1 + Z.of_nat k * r < 2^63).
  Notation ls0 := [LRows (Rows N o)].

  Definition full (s : lstate) : Prop := exists n, nth_error (l_leaves s) 0 = Some (LRows (Rows N n)) /\ N <= n.

  Lemma gone_full tr s : lrun k r (linit ls0) tr s -> Forall (fun x => snd x <> LLeave) tr -> forall t, l_ph s t = LGone -> full s.
  Proof.
    intros R. induction R as [|tr s t a s' R IH T W ST]; intros F t' G; [discriminate|].
    apply Forall_app in F as [F F1]. specialize (IH F). apply Forall_inv in F1. cbn in F1.
    assert (I0 : nth_error ls0 0 = Some (LRows (Rows N o))) by reflexivity.
    assert (INV : LimitProofs.rinv k r N o 0 ls0 s) by (eapply LimitProofs.rinv_run; eauto; apply LimitProofs.rinv_init; auto).
    assert (KEEP : full s -> full s').
    { intros (n & E & GE). assert (BL : LimitProofs.blocked N 0 k s).
      { split; [eauto|]. intros j X. exfalso. clear - R X T.
        assert (Z : forall t, (k <= t)%nat -> l_ph s t = LIdle).
        { clear X. induction R as [|tr s t0 a s' R IH T' W ST]; intros t1 LE; [reflexivity|]. specialize (IH t1 LE).
          unfold lstep in ST. assert (NE : t0 <> t1) by lia.
          destruct (l_ph s t0), a; try discriminate;
            repeat match type of ST with context [match ?y with _ => _ end] => destruct y; try discriminate end;
            injection ST as <-; cbn [l_ph]; rewrite natupd_other by auto; exact IH. }
        rewrite Z in X by lia. discriminate. }
      destruct (LimitProofs.blocked_step k r N o 0 ls0 R0 O0 B I0 k s t a s' T INV W ST BL) as ((X & _) & _). exact X. }
    destruct (Nat.eq_dec t t') as [->|NE].
    - unfold lstep in ST. destruct (l_ph s t') as [|j|w j|] eqn:EP; destruct a as [|c|res| |]; try discriminate; try (contradiction F1; reflexivity).
      + injection ST as <-. cbn [l_ph] in G. rewrite natupd_same in G. discriminate.
      + destruct (nth_error (l_leaves s) j) as [lf|] eqn:EJ; [|discriminate]. destruct (leaf_more c lf) as [l' b] eqn:EM.
        destruct (set_nth (l_leaves s) j l') as [ls|] eqn:ES; [|discriminate]. injection ST as <-. cbn [l_ph] in G. rewrite natupd_same in G.
        destruct b; [discriminate|]. destruct INV as (n & E1 & _ & _ & _ & _ & LEN). cbn in LEN.
        destruct j as [|j]; [|destruct (l_leaves s) as [|? [|]]; try discriminate; destruct j; discriminate].
        rewrite E1 in EJ. injection EJ as <-. cbn in EM. unfold rows_more in EM. cbn in EM. injection EM as <- EM.
        exists n. cbn [l_leaves]. rewrite (LimitProofs.set_nth_same _ _ _ _ ES). split; [reflexivity|]. destruct (Z.ltb_spec n N); [discriminate|lia].
      + destruct (Nat.eqb j _); [|discriminate]. destruct res; injection ST as <-; cbn [l_ph] in G; rewrite natupd_same in G; discriminate.
      + destruct (nth_error _ j) as [lf|]; [destruct (set_nth _ _ _); [|discriminate]|]; injection ST as <-; cbn [l_ph] in G; rewrite natupd_same in G; discriminate.
    - apply KEEP. apply (IH t').
      unfold lstep in ST. destruct (l_ph s t), a; try discriminate;
        repeat match type of ST with context [match ?y with _ => _ end] => destruct y; try discriminate end;
        injection ST as <-; cbn [l_ph] in G; rewrite natupd_other in G by auto; exact G.
  Qed.

  Lemma gone_written tr s t : lrun k r (linit ls0) tr s -> Forall (fun x => snd x <> LLeave) tr -> l_ph s t = LGone -> N <= o + l_written s.
  Proof.
    intros R F G. destruct (gone_full _ _ R F t G) as (n & E & GE).
    assert (I0 : nth_error ls0 0 = Some (LRows (Rows N o))) by reflexivity.
    assert (INV : LimitProofs.rinv k r N o 0 ls0 s) by (eapply LimitProofs.rinv_run; eauto; apply LimitProofs.rinv_init; auto).
    destruct INV as (n' & E1 & _ & SUM & _ & OK & _). rewrite E in E1. injection E1 as <-.
    assert (0 <= LimitProofs.sumz (fun t => LimitProofs.inflight 0 (l_ph s t)) k).
    { assert (X : forall m, 0 <= LimitProofs.sumz (fun t => LimitProofs.inflight 0 (l_ph s t)) m).
      { induction m as [|m IH]; cbn [LimitProofs.sumz]; [lia|]. specialize (OK m). destruct (l_ph s m) as [|j|w j|]; cbn in OK |- *; try lia.
        destruct (j <=? 0)%nat; lia. }
      apply X. }
    lia.
  Qed.
End Gone.
