(** Proofs about clients running their loops. *)
From Verif Require Import Prelude ListAux ScopeModel StmtModel WorkloadModel WorkloadSpec ClientModel ClientSpec ClientProofs.
From Verif Require Import IterModel IterSpec IterProofs LoopModel LoopSpec.
#[local] Open Scope string_scope.
#[local] Open Scope list_scope.

Section One.
  Context {V : Type}.
  Notation event := (event V).
  Notation cst := (cst V).
  Variable c : client.

  (** The queries before (from) position [i]. *)
  Definition isq (i : nat) : bool := match nth_error (c_stmts c) i with Some s => negb (is_idle s) | None => false end.
  Definition upto (i : nat) : list nat := filter isq (seq 0 i).
  Definition from (i : nat) : list nat := filter isq (seq i (length (c_stmts c) - i)).

  Lemma split_q i : (i <= length (c_stmts c))%nat -> queries c = upto i ++ from i.
  Proof.
    intros L. change (queries c) with (filter isq (seq 0 (length (c_stmts c)))). unfold upto, from.
    rewrite <- filter_app. f_equal. pose proof (seq_app i (length (c_stmts c) - i) 0) as X. cbn [Nat.add] in X.
    rewrite <- X. f_equal. lia.
  Qed.
  Lemma upto_S i : upto (S i) = upto i ++ (if isq i then [i] else []).
  Proof. unfold upto. rewrite seq_S, filter_app. reflexivity. Qed.

  Lemma execs_app (a b : list event) : execs (a ++ b) = execs a ++ execs b.
  Proof. apply filter_app. Qed.
  Lemma execs_quiet (l : list event) : Forall (fun e => quiet e = true) l -> execs l = [].
  Proof. induction 1 as [|e l Q F IH]; [reflexivity|]. cbn. destruct e; cbn in *; auto; discriminate. Qed.
  Lemma execs_finish (st : cst) s : execs (finish st s) = [].
  Proof. unfold finish. destruct (s_conn st); reflexivity. Qed.
  Lemma execs_permits i : execs (permits_for (V := V) c i) = [].
  Proof.
    unfold permits_for. destruct (c_tps c), (c_qps c), (nth_error (c_stmts c) i) as [s|]; try destruct (st_begin s); reflexivity.
  Qed.
  Lemma execs_record slot s : execs (record_of (V := V) slot s) = [].
  Proof. destruct slot; reflexivity. Qed.
  Lemma execs_saved i s d : execs (saved_of (V := V) i s d) = [].
  Proof. unfold saved_of. destruct (st_resultset s), (d_outputs d), (st_limit s), (d_insertId d); reflexivity. Qed.
  Lemma execs_error slot e (se : senv V) : execs (error_of slot e se) = [].
  Proof. unfold error_of. destruct slot; [destruct (v_ctx se)|]; reflexivity. Qed.

  Lemma limit_stop (st : cst) i se st' evs : exec_stmt c st i se = (st', evs, NStop StopLimit) ->
    execs evs = [] /\ exists s, nth_error (c_stmts c) i = Some s /\ st_limit s <> None.
  Proof.
    intros H. pose proof (exec_inv c _ _ _ _ _ _ H) as X.
    assert (L : exists s, nth_error (c_stmts c) i = Some s /\ st_limit s <> None).
    { unfold exec_stmt in H.
      destruct (nth_error (c_stmts c) i) as [s|]; [|discriminate]. exists s. split; [reflexivity|]. intros Z. rewrite Z in H.
      destruct (nth_error (c_data c) i) as [d|]; [|discriminate]. destruct (nth_error (s_values st) i) as [vals|]; [|discriminate].
      destruct (nth_error (s_ps st) i) as [ps|]; [|discriminate]. destruct (negb (st_idle s =? 0)%Z); [discriminate|].
      destruct (if d_begin d then _ else _) as [[? ?] ?]. destruct (set_nth _ i _); [|discriminate]. destruct (s_conn st); [|discriminate].
      assert (Q : (if st_resultset s then Some true else Some true) = Some true) by (destruct (st_resultset s); reflexivity).
      rewrite Q in H. destruct (stats_slot _ _); [|discriminate].
      destruct (match v_res se with Some e => Some e | None => _ end); [|discriminate].
      unfold handle_error in H. destruct (connect _ _ _ _) as [[? ?] []]; discriminate. }
    split; [|exact L]. inversion X; subst; try apply execs_permits.
    destruct r; discriminate.
  Qed.

  (** Executions of one statement. *)
  Lemma exec_execs (st : cst) i se st' evs nx : exec_case c st i se st' evs nx ->
    rc_iter (s_rc st') = rc_iter (s_rc st) /\
    ((execs evs = [] /\ ((nx = NStmt /\ isq i = false) \/ exists p, nx = NStop p)) \/
     (exists e, execs evs = [e] /\ isq i = true /\ ex_stmt e = i /\ rc_iter (ex_rc e) = rc_iter (s_rc st) /\
        (nx = NStmt -> failed_exec e = false) /\ (nx = NIter -> failed_exec e = true))).
  Proof.
    intros X. inversion X as [E1 E2 E3|s ES EI E1 E2 E3|s ES EI E1 E2 E3|s d vals values stp ES ED EI EV EW ST E1 E2 E3
      |s d vals k ps values ES ED EP EK EI EV EW SL E1 E2 E3|s d vals k ps values slot ES ED EP EK EI EV EW SL RE E1 E2 E3
      |s d vals k ps values slot e st2 ev2 r ES ED EP EK EI EV EW SL RE CO E1 E2 E3]; subst.
    - split; [reflexivity|]. left. split; [reflexivity|]. right. eauto.
    - split; [reflexivity|]. left. split; [reflexivity|]. left. split; [reflexivity|]. unfold isq. now rewrite ES, EI.
    - split; [reflexivity|]. left. split; [apply execs_permits|]. right. eauto.
    - split; [reflexivity|]. left. split; [apply execs_permits|]. right. eauto.
    - split; [reflexivity|]. right. eexists. rewrite execs_app, execs_permits. split; [reflexivity|].
      split; [unfold isq; now rewrite ES, EI|]. split; [reflexivity|]. split; [reflexivity|]. split; discriminate.
    - split; [reflexivity|]. right. eexists. rewrite !execs_app, execs_permits, execs_record, execs_saved. split; [reflexivity|].
      split; [unfold isq; now rewrite ES, EI|]. split; [reflexivity|]. split; [reflexivity|]. split; [reflexivity|discriminate].
    - destruct (connect_inv c _ _ _ _ _ _ CO) as ((_ & RC & _) & Q). split.
      { destruct r; cbn [with_rc s_rc rc_iter]; rewrite ?RC; reflexivity. }
      right. eexists. rewrite !execs_app, execs_permits, execs_record, execs_error, (execs_quiet _ Q). split; [reflexivity|].
      split; [unfold isq; now rewrite ES, EI|]. split; [reflexivity|]. split; [reflexivity|]. split; [destruct r; discriminate|reflexivity].
  Qed.

  (** The executions so far: closed iterations and the current one. *)
  Definition closed (n : N) (it : list event) : Prop :=
    exists rest, iteration c n it rest /\ (rest <> [] -> ends_failed it).
  Definition open_at (i : nat) (n : N) (it : list event) : Prop :=
    map ex_stmt it = upto i /\ Forall (fun e => rc_iter (ex_rc e) = n) it /\ Forall (fun e => failed_exec e = false) it.
  Definition numbered (P : N -> list event -> Prop) (its : list (list event)) : Prop :=
    forall k it, nth_error its k = Some it -> P (N.of_nat (S k)) it.

  Lemma numbered_snoc P its it : numbered P its -> P (N.of_nat (S (length its))) it -> numbered P (its ++ [it]).
  Proof.
    intros H Q k x Hk. destruct (Nat.lt_ge_cases k (length its)).
    - rewrite nth_error_app1 in Hk by auto. auto.
    - rewrite nth_error_app2 in Hk by auto. destruct (k - length its)%nat as [|m] eqn:E; [|destruct m; discriminate].
      injection Hk as <-. replace k with (length its) by lia. auto.
  Qed.

  Definition executions (st : cst) (pc : cpc) (evs : list event) : Prop :=
    exists its, N.of_nat (length its) = rc_iter (s_rc st) /\ execs evs = concat its /\
    match pc with
    | PcStart => its = []
    | PcIter => numbered closed its
    | PcStmt i => (i < length (c_stmts c))%nat /\ exists its0 it, its = its0 ++ [it] /\ numbered closed its0 /\ open_at i (rc_iter (s_rc st)) it
    | PcDone => (its = [] \/ exists its0 it rest, its = its0 ++ [it] /\ numbered closed its0 /\ iteration c (rc_iter (s_rc st)) it rest) /\
        (no_data_limit c -> (exists r, In (EvDone StopLimit r) evs) -> numbered closed its)
    end.

  Lemma open_iteration i n it : (i <= length (c_stmts c))%nat -> open_at i n it -> iteration c n it (from i).
  Proof.
    intros L (A & B & C). split; [rewrite A; apply split_q; auto|]. split; [exact B|].
    intros a e b -> F. rewrite Forall_forall in C. rewrite C in F by (apply in_elt). discriminate.
  Qed.
  Lemma open_closed n it : open_at (length (c_stmts c)) n it -> closed n it.
  Proof.
    intros O. exists []. split; [|congruence]. pose proof (open_iteration _ _ _ (le_n _) O) as X.
    replace (from (length (c_stmts c))) with (@nil nat) in X; [exact X|]. unfold from. now rewrite Nat.sub_diag.
  Qed.
  Lemma closed_last its0 it n : N.of_nat (length (its0 ++ [it])) = n -> numbered closed its0 -> closed n it -> numbered closed (its0 ++ [it]).
  Proof. intros L H Q. apply numbered_snoc; auto. rewrite app_length in L. cbn in L. replace (N.of_nat (S (length its0))) with n; auto. lia. Qed.

  Lemma in_finish (st : cst) s s' r (evs : list event) : Forall (fun e => is_done e = false) evs ->
    In (EvDone s' r) (evs ++ finish st s) -> s' = s.
  Proof.
    intros F [H|H]%in_app_or.
    - rewrite Forall_forall in F. specialize (F _ H). discriminate.
    - unfold finish in H. destruct (s_conn st); cbn in H; intuition congruence.
  Qed.
  Lemma no_done_quiet (l : list event) : Forall (fun e => quiet e = true) l -> Forall (fun e => is_done e = false) l.
  Proof. apply Forall_impl. intros []; cbn; congruence. Qed.
  Lemma exec_no_done (st : cst) i se st' evs nx : exec_case c st i se st' evs nx -> Forall (fun e => is_done e = false) evs.
  Proof.
    assert (PM : Forall (fun e : event => is_done e = false) (permits_for c i)).
    { unfold permits_for. destruct (c_tps c), (c_qps c), (nth_error (c_stmts c) i) as [s|]; try destruct (st_begin s); repeat constructor. }
    assert (RE : forall slot s, Forall (fun e : event => is_done e = false) (record_of slot s)) by (intros [?|] ?; repeat constructor).
    assert (SA : forall s d, Forall (fun e : event => is_done e = false) (saved_of i s d)).
    { intros s d. unfold saved_of. destruct (st_resultset s), (d_outputs d), (st_limit s), (d_insertId d); repeat constructor. }
    assert (ER : forall slot e, Forall (fun x : event => is_done x = false) (error_of slot e se)).
    { intros slot e. unfold error_of. destruct slot; [destruct (v_ctx se)|]; repeat constructor. }
    destruct 1; rewrite ?Forall_app; auto; repeat split; auto; try (repeat constructor; fail).
    destruct (connect_inv c _ _ _ _ _ _ H8) as (_ & Q). now apply no_done_quiet.
  Qed.

  Definition pc_done (pc : cpc) : bool := match pc with PcDone => true | _ => false end.

  Lemma executions_run inps st pc evs : client_run c inps = Some (st, pc, evs) ->
    executions st pc evs /\ (pc <> PcDone -> Forall (fun e => is_done e = false) evs).
  Proof.
    apply (client_run_ind c (fun st pc evs => executions st pc evs /\ (pc <> PcDone -> Forall (fun e => is_done e = false) evs))).
    { split; [exists []; repeat split|constructor]. }
    clear. intros st pc evs inp st' pc' evs' [(its & LEN & EX & INV) ND] S. apply step_inv in S.
    destruct S as [ce st' evs' r CO| | |i se st' evs' nx XC XE].
    - (* connecting *)
      subst its. assert (N0 : Forall (fun e : event => is_done e = false) evs) by (apply ND; discriminate).
      destruct (connect_inv c _ _ _ _ _ _ CO) as ((_ & RC & _) & Q). pose proof (no_done_quiet _ Q) as Q2.
      assert (EX' : forall l, execs l = [] -> execs (evs ++ evs' ++ l) = concat []).
      { intros l E. rewrite !execs_app, EX, (execs_quiet _ Q), E. reflexivity. }
      split.
      + exists []. rewrite RC. split; [exact LEN|].
        destruct r; (split; [apply EX'; auto using execs_finish|]).
        * intros k it K. destruct k; discriminate.
        * split; [now left|]. intros _ _ k it K. destruct k; discriminate.
        * split; [now left|]. intros _ _ k it K. destruct k; discriminate.
      + destruct r; try congruence. intros _. rewrite app_nil_r. apply Forall_app. auto.
    - (* stop *)
      split; [|congruence]. exists its. split; [exact LEN|]. rewrite execs_app, execs_finish, app_nil_r. split; [exact EX|].
      split; [|auto]. destruct its as [|x its] using rev_ind; [now left|]. right. clear IHits.
      destruct (INV (length its) x) as (rest & I & _); [rewrite nth_error_app2, Nat.sub_diag by lia; reflexivity|].
      exists its, x, rest. split; [reflexivity|]. split.
      + intros k it K. apply INV. rewrite nth_error_app1; auto. apply nth_error_Some. congruence.
      + rewrite <- LEN. rewrite app_length. cbn. replace (length its + 1)%nat with (S (length its)) by lia. exact I.
    - (* next iteration *)
      rewrite app_nil_r. split; [|intros _; apply ND; discriminate]. exists (its ++ [[]]).
      assert (L2 : N.of_nat (length (its ++ [[]])) = (rc_iter (s_rc st) + 1)%N) by (rewrite app_length; cbn; lia).
      split; [exact L2|]. rewrite concat_app. cbn [concat]. rewrite app_nil_r. split; [exact EX|].
      unfold stmt_pc. destruct (Nat.ltb_spec 0 (length (c_stmts c))) as [LT|GE].
      + split; [exact LT|]. exists its, []. split; [reflexivity|]. split; [exact INV|]. repeat split; constructor.
      + eapply closed_last; [exact L2|exact INV|]. apply open_closed. replace (length (c_stmts c)) with 0%nat by lia.
        repeat split; constructor.
    - (* a statement *)
      destruct INV as (LT & its0 & it & -> & NC & OP).
      assert (N0 : Forall (fun e : event => is_done e = false) evs) by (apply ND; discriminate).
      pose proof (exec_no_done _ _ _ _ _ _ XC) as N1. destruct (exec_execs _ _ _ _ _ _ XC) as (RC & CASES).
      split; [|destruct nx; [|intros _; rewrite app_nil_r; apply Forall_app; auto|congruence]; intros _; rewrite app_nil_r; apply Forall_app; auto].
      destruct CASES as [(E0 & [(-> & Q)|(p & ->)])|(e & E1 & Q & XS & XI & OK & FA)].
      + (* idle *)
        exists (its0 ++ [it]). rewrite RC. split; [exact LEN|]. rewrite app_nil_r, execs_app, E0, app_nil_r. split; [exact EX|].
        assert (O' : open_at (S i) (rc_iter (s_rc st)) it).
        { destruct OP as (O1 & O2 & O3). split; [|split; auto]. now rewrite upto_S, Q, app_nil_r. }
        unfold stmt_pc. destruct (Nat.ltb_spec (S i) (length (c_stmts c))) as [LT'|GE'].
        * split; [exact LT'|]. exists its0, it. auto.
        * eapply closed_last; [exact LEN|exact NC|]. apply open_closed. replace (length (c_stmts c)) with (S i) by lia. exact O'.
      + (* stop without execution *)
        exists (its0 ++ [it]). rewrite RC. split; [exact LEN|]. rewrite !execs_app, E0, execs_finish, !app_nil_r. split; [exact EX|]. split.
        * right. exists its0, it, (from i). split; [reflexivity|]. split; [exact NC|]. apply open_iteration; auto; lia.
        * intros DL (r & I). rewrite app_assoc in I. apply in_finish in I; [|apply Forall_app; auto]. subst p.
          exfalso. destruct (limit_stop _ _ _ _ _ XE) as (_ & s & S1 & S2). unfold no_data_limit in DL. rewrite Forall_forall in DL.
          apply S2, DL. eapply nth_error_In; eauto.
      + (* executed *)
        exists (its0 ++ [it ++ [e]]).
        assert (LEN' : N.of_nat (length (its0 ++ [it ++ [e]])) = rc_iter (s_rc st)) by (rewrite app_length in *; exact LEN).
        rewrite RC. split; [exact LEN'|]. split.
        { rewrite !execs_app, E1, EX. rewrite !concat_app. cbn [concat]. rewrite !app_nil_r, <- !app_assoc.
          destruct nx; cbn [app]; try reflexivity. now rewrite execs_finish. }
        destruct OP as (O1 & O2 & O3).
        assert (IT : iteration c (rc_iter (s_rc st)) (it ++ [e]) (from (S i))).
        { split; [rewrite map_app; cbn [map]; rewrite O1, XS; rewrite (split_q (S i)) by lia; rewrite upto_S, Q; reflexivity|]. split.
          - apply Forall_app. split; [auto|repeat constructor; auto].
          - intros a x b AB F. destruct b as [|y b] using rev_ind; [reflexivity|]. exfalso. clear IHb.
            rewrite app_comm_cons, app_assoc in AB. apply app_inj_tail in AB as [AB _]. rewrite Forall_forall in O3.
            rewrite O3 in F; [discriminate|]. rewrite AB. apply in_elt. }
        destruct nx as [| |p].
        * assert (O' : open_at (S i) (rc_iter (s_rc st)) (it ++ [e])).
          { split; [rewrite map_app; cbn [map]; now rewrite O1, XS, upto_S, Q|]. split; apply Forall_app; split; auto. }
          unfold stmt_pc. destruct (Nat.ltb_spec (S i) (length (c_stmts c))) as [LT'|GE'].
          -- split; [exact LT'|]. exists its0, (it ++ [e]). auto.
          -- eapply closed_last; [exact LEN'|exact NC|]. apply open_closed. replace (length (c_stmts c)) with (S i) by lia. exact O'.
        * eapply closed_last; [exact LEN'|exact NC|]. exists (from (S i)). split; [exact IT|]. intros _. exists it, e. auto.
        * split; [right; exists its0, (it ++ [e]), (from (S i)); auto|]. intros DL (r & I). rewrite app_assoc in I.
          apply in_finish in I; [|apply Forall_app; auto]. subst p. destruct (limit_stop _ _ _ _ _ XE) as (E0 & _). congruence.
  Qed.
End One.

Lemma set_nth_some {A} (l : list A) n x : (n < length l)%nat -> exists l', set_nth l n x = Some l'.
Proof.
  revert n. induction l as [|a l IH]; intros [|n] H; cbn in *; try lia; [eauto|].
  destruct (IH n) as (l' & ->); [lia|eauto].
Qed.

(** ** The checks *)
Definition outcome (cnt : nat -> N) (x : icl) (stop : bool) (cnt' : nat -> N) (ph : iphase) (n : N) : Prop :=
  match ic_ph x with
  | AtEg => exists r, shared_check cnt (c_iterEg (ic_c x)) (c_iterEgPtr (ic_c x)) = (cnt', r) /\ ph = (if r then Finished else AtClients) /\ n = ic_n x
  | AtClients => exists r, shared_check cnt (c_iterClients (ic_c x)) (c_iterClientsPtr (ic_c x)) = (cnt', r) /\
      ph = (if r then Finished else AtIter) /\ n = ic_n x
  | AtIter => cnt' = cnt /\ if ((0 <? c_iter (ic_c x)) && (ic_n x =? c_iter (ic_c x)))%N%bool
      then ph = Finished /\ n = ic_n x else ph = Running /\ n = (ic_n x + 1)%N
  | Running => cnt' = cnt /\ ph = (if stop then Finished else AtEg) /\ n = ic_n x
  | Finished => False
  end.
Lemma iter_do ist i stop x : nth_error (is_cls ist) i = Some x -> ic_ph x <> Finished ->
  exists cnt ph n l', iter_step ist i stop = Some (ISt cnt l') /\ set_nth (is_cls ist) i (ICl (ic_c x) ph n) = Some l' /\
    outcome (is_cnt ist) x stop cnt ph n.
Proof.
  intros H NF. unfold iter_step, outcome. rewrite H.
  assert (S : forall y, exists l', set_nth (is_cls ist) i y = Some l') by (intros y; apply set_nth_some, nth_error_Some; congruence).
  destruct (ic_ph x); [| | | |congruence].
  - destruct (shared_check _ _ _) as [cnt r]. destruct (S (ICl (ic_c x) (if r then Finished else AtClients) (ic_n x))) as (l' & E).
    rewrite E. do 4 eexists. split; [reflexivity|]. split; [exact E|]. exists r. auto.
  - destruct (shared_check _ _ _) as [cnt r]. destruct (S (ICl (ic_c x) (if r then Finished else AtIter) (ic_n x))) as (l' & E).
    rewrite E. do 4 eexists. split; [reflexivity|]. split; [exact E|]. exists r. auto.
  - destruct (_ && _)%bool.
    + destruct (S (ICl (ic_c x) Finished (ic_n x))) as (l' & E). rewrite E. do 4 eexists. split; [reflexivity|]. split; [exact E|]. auto.
    + destruct (S (ICl (ic_c x) Running (ic_n x + 1)%N)) as (l' & E). rewrite E. do 4 eexists. split; [reflexivity|]. split; [exact E|]. auto.
  - destruct (S (ICl (ic_c x) (if stop then Finished else AtEg) (ic_n x))) as (l' & E). rewrite E.
    do 4 eexists. split; [reflexivity|]. split; [exact E|]. auto.
Qed.
Lemma iter_snoc sched : forall st st1 st2 i b, iter_run st sched = Some st1 -> iter_step st1 i b = Some st2 ->
  iter_run st (sched ++ [(i, b)]) = Some st2.
Proof.
  induction sched as [|[j c] sched IH]; intros st st1 st2 i b R S; cbn in *.
  - injection R as <-. now rewrite S.
  - destruct (iter_step st j c); [eauto|discriminate].
Qed.

(** ** All clients *)
Section All.
  Context {V : Type}.
  Notation event := (event V).
  Notation lcl := (lcl V).
  Notation lst := (lst V).

  Inductive lcase (st : lst) (k k' : lcl) (cnt : nat -> N) (evs : list event) : Prop :=
  | LCOther ci : (ci <> IGo) -> (ci <> IStop) -> cstep (l_c k) (l_st k) (l_pc k) ci = Some (l_st k', l_pc k', evs) ->
      cnt = l_cnt st -> l_chk k' = 0%nat -> lcase st k k' cnt evs
  | LCEg r : l_pc k = PcIter -> l_chk k = 0%nat ->
      shared_check (l_cnt st) (c_iterEg (l_c k)) (c_iterEgPtr (l_c k)) = (cnt, r) ->
      (if r then cstep (l_c k) (l_st k) PcIter IStop = Some (l_st k', l_pc k', evs) /\ l_chk k' = 0%nat
       else l_st k' = l_st k /\ l_pc k' = PcIter /\ l_chk k' = 1%nat /\ evs = []) -> lcase st k k' cnt evs
  | LCClients r : l_pc k = PcIter -> l_chk k = 1%nat ->
      shared_check (l_cnt st) (c_iterClients (l_c k)) (c_iterClientsPtr (l_c k)) = (cnt, r) ->
      (if r then cstep (l_c k) (l_st k) PcIter IStop = Some (l_st k', l_pc k', evs) /\ l_chk k' = 0%nat
       else l_st k' = l_st k /\ l_pc k' = PcIter /\ l_chk k' = 2%nat /\ evs = []) -> lcase st k k' cnt evs
  | LCIter : l_pc k = PcIter -> (2 <= l_chk k)%nat -> cnt = l_cnt st -> l_chk k' = 0%nat ->
      (if ((0 <? c_iter (l_c k)) && (rc_iter (s_rc (l_st k)) =? c_iter (l_c k)))%N%bool
       then cstep (l_c k) (l_st k) PcIter IStop = Some (l_st k', l_pc k', evs)
       else cstep (l_c k) (l_st k) PcIter IGo = Some (l_st k', l_pc k', evs)) -> lcase st k k' cnt evs.

  Lemma loop_inv (st : lst) i inp st' evs : loop_step st i inp = Some (st', evs) ->
    exists k k', nth_error (l_cls st) i = Some k /\ set_nth (l_cls st) i k' = Some (l_cls st') /\ l_c k' = l_c k /\
      lcase st k k' (l_cnt st') evs.
  Proof.
    unfold loop_step. intros H. destruct (nth_error (l_cls st) i) as [k|] eqn:K; [|discriminate]. exists k.
    destruct inp as [ce| |se].
    - destruct (cstep (l_c k) (l_st k) (l_pc k) (IConnect ce)) as [[[s pc] e]|] eqn:E; [|discriminate].
      destruct (set_nth (l_cls st) i _) as [l|] eqn:S; [|discriminate]. injection H as <- <-.
      eexists. split; [reflexivity|]. split; [exact S|]. split; [reflexivity|]. eapply LCOther; cbn; try exact E; try reflexivity; discriminate.
    - destruct (l_pc k) eqn:PC; try discriminate. unfold loop_check in H. destruct (l_chk k) as [|[|m]] eqn:CH.
      + destruct (shared_check _ _ _) as [cnt [|]] eqn:SC.
        * cbn in H. destruct (set_nth (l_cls st) i _) as [l|] eqn:S; [|discriminate]. injection H as <- <-.
          eexists. split; [reflexivity|]. split; [exact S|]. split; [reflexivity|]. apply (LCEg _ _ _ _ _ true); auto.
        * destruct (set_nth (l_cls st) i _) as [l|] eqn:S; [|discriminate]. injection H as <- <-.
          eexists. split; [reflexivity|]. split; [exact S|]. split; [reflexivity|]. apply (LCEg _ _ _ _ _ false); auto.
      + destruct (shared_check _ _ _) as [cnt [|]] eqn:SC.
        * cbn in H. destruct (set_nth (l_cls st) i _) as [l|] eqn:S; [|discriminate]. injection H as <- <-.
          eexists. split; [reflexivity|]. split; [exact S|]. split; [reflexivity|]. apply (LCClients _ _ _ _ _ true); auto.
        * destruct (set_nth (l_cls st) i _) as [l|] eqn:S; [|discriminate]. injection H as <- <-.
          eexists. split; [reflexivity|]. split; [exact S|]. split; [reflexivity|]. apply (LCClients _ _ _ _ _ false); auto.
      + destruct (_ && _)%bool eqn:B; cbn [negb] in H.
        * cbn in H. destruct (set_nth (l_cls st) i _) as [l|] eqn:S; [|discriminate]. injection H as <- <-.
          eexists. split; [reflexivity|]. split; [exact S|]. split; [reflexivity|]. apply LCIter; auto; [lia|]. now rewrite B.
        * destruct (cstep (l_c k) (l_st k) PcIter IGo) as [[[s pc] e]|] eqn:E; [|discriminate].
          destruct (set_nth (l_cls st) i _) as [l|] eqn:S; [|discriminate]. injection H as <- <-.
          eexists. split; [reflexivity|]. split; [exact S|]. split; [reflexivity|]. apply LCIter; auto; [lia|]. now rewrite B.
    - destruct (cstep (l_c k) (l_st k) (l_pc k) (IStmt se)) as [[[s pc] e]|] eqn:E; [|discriminate].
      destruct (set_nth (l_cls st) i _) as [l|] eqn:S; [|discriminate]. injection H as <- <-.
      eexists. split; [reflexivity|]. split; [exact S|]. split; [reflexivity|]. eapply LCOther; cbn; try exact E; try reflexivity; discriminate.
  Qed.

  Lemma loop_ind (P : lst -> list (nat * event) -> Prop) :
    (forall st tr i inp st' evs, P st tr -> loop_step st i inp = Some (st', evs) -> P st' (tr ++ map (fun e => (i, e)) evs)) ->
    forall sched st tr, P st tr -> forall st' tr', loop_run st sched = Some (st', tr') -> P st' (tr ++ tr').
  Proof.
    intros STEP. induction sched as [|[i inp] sched IH]; intros st tr HP st' tr' H; cbn in H.
    - injection H as <- <-. now rewrite app_nil_r.
    - destruct (loop_step st i inp) as [[st1 evs]|] eqn:E; [|discriminate].
      destruct (loop_run st1 sched) as [[st2 tr2]|] eqn:E2; [|discriminate]. injection H as <- <-.
      rewrite app_assoc. eapply IH; [eapply STEP; eauto|exact E2].
  Qed.

  Lemma events_app i (a b : list (nat * event)) : events_of i (a ++ b) = events_of i a ++ events_of i b.
  Proof. unfold events_of. now rewrite filter_app, map_app. Qed.
  Lemma events_same i (evs : list event) : events_of i (map (fun e => (i, e)) evs) = evs.
  Proof. unfold events_of. induction evs as [|e evs IH]; cbn; [reflexivity|]. rewrite Nat.eqb_refl. cbn. now rewrite IH. Qed.
  Lemma events_diff i j (evs : list event) : i <> j -> events_of j (map (fun e => (i, e)) evs) = [].
  Proof.
    intros N. unfold events_of. induction evs as [|e evs IH]; cbn; [reflexivity|].
    destruct (Nat.eqb_spec i j); [congruence|]. exact IH.
  Qed.

  Lemma crun_snoc c inps : forall st pc st1 pc1 evs1 inp st2 pc2 evs2, crun (V := V) c st pc inps = Some (st1, pc1, evs1) ->
    cstep c st1 pc1 inp = Some (st2, pc2, evs2) -> crun c st pc (inps ++ [inp]) = Some (st2, pc2, evs1 ++ evs2).
  Proof.
    induction inps as [|x inps IH]; intros st pc st1 pc1 evs1 inp st2 pc2 evs2 R S; cbn in *.
    - injection R as <- <- <-. rewrite S. now rewrite app_nil_r.
    - destruct (cstep c st pc x) as [[[s p] e]|]; [|discriminate].
      destruct (crun c s p inps) as [[[s' p'] e']|] eqn:E; [|discriminate]. injection R as <- <- <-.
      rewrite (IH _ _ _ _ _ _ _ _ _ E S). now rewrite app_assoc.
  Qed.

  (** What is known of one client. *)
  Definition one (k : lcl) (evs : list event) : Prop :=
    (exists inps, client_run (l_c k) inps = Some (l_st k, l_pc k, evs)) /\
    (no_data_limit (l_c k) -> c_iterEg (l_c k) = 0%N -> c_iterClients (l_c k) = 0%N ->
     (exists r, In (EvDone StopLimit r) evs) -> (0 < c_iter (l_c k) /\ rc_iter (s_rc (l_st k)) = c_iter (l_c k))%N).

  Definition phase (k : lcl) (evs : list event) (ph : iphase) : Prop :=
    match l_pc k with
    | PcStart => ph = AtEg
    | PcIter => ph = match l_chk k with O => AtEg | S O => AtClients | _ => AtIter end
    | PcStmt _ => ph = Running
    | PcDone => ph = Finished \/ (ph = AtEg /\ other_stop (l_c k) evs)
    end.
  Definition same (k : lcl) (evs : list event) (x : icl) : Prop :=
    ic_c x = l_c k /\ ic_n x = rc_iter (s_rc (l_st k)) /\ phase k evs (ic_ph x).

  Lemma limit_done (c : client) st pc ci st' pc' evs : cstep (V := V) c st pc ci = Some (st', pc', evs) -> ci <> IStop ->
    (forall r, In (EvDone StopLimit r) evs -> ~ no_data_limit c) /\
    (pc' = PcDone -> other_stop c evs).
  Proof.
    intros S NS. apply step_inv in S. destruct S as [ce st' evs' r CO| | |i se st' evs' nx XC XE].
    - destruct (connect_inv c _ _ _ _ _ _ CO) as (_ & Q). apply no_done_quiet in Q.
      assert (F : forall s s' rr, In (EvDone s' rr) (evs' ++ finish st' s) -> s' = s) by (intros; eapply in_finish; eauto).
      assert (D : forall s, s <> StopLimit -> other_stop c (evs' ++ finish st' s)).
      { intros s N. exists s, (reported s). split; [|auto]. unfold finish. rewrite !in_app_iff. right. right. now left. }
      destruct r; rewrite ?app_nil_r; split; try discriminate; intros.
      + rewrite Forall_forall in Q. specialize (Q _ H). discriminate.
      + apply F in H. discriminate.
      + apply D. discriminate.
      + apply F in H. discriminate.
      + apply D. discriminate.
    - congruence.
    - split; [intros r []|]. unfold stmt_pc. destruct (_ <? _)%nat; discriminate.
    - pose proof (exec_no_done c _ _ _ _ _ _ XC) as Q.
      assert (DL : nx = NStop StopLimit -> ~ no_data_limit c).
      { intros -> DL. destruct (limit_stop _ _ _ _ _ _ XE) as (_ & s & S1 & S2). unfold no_data_limit in DL. rewrite Forall_forall in DL.
        apply S2, DL. eapply nth_error_In; eauto. }
      destruct nx as [| |s]; rewrite ?app_nil_r.
      + split; [intros r H; rewrite Forall_forall in Q; specialize (Q _ H); discriminate|]. unfold stmt_pc. destruct (_ <? _)%nat; discriminate.
      + split; [intros r H; rewrite Forall_forall in Q; specialize (Q _ H); discriminate|discriminate].
      + split.
        * intros r H. apply in_finish in H; auto. subst s. auto.
        * intros _. exists s, (reported s). split; [unfold finish; rewrite !in_app_iff; right; right; now left|].
          destruct s; [right; auto|left; discriminate|left; discriminate].
  Qed.

  Lemma one_step st k k' cnt tr evs : one k tr -> lcase st k k' cnt evs -> l_c k' = l_c k -> one k' (tr ++ evs).
  Proof.
    intros ((inps & R) & OWN) LC EC. unfold one. rewrite EC.
    assert (GO : forall ci, cstep (l_c k) (l_st k) (l_pc k) ci = Some (l_st k', l_pc k', evs) ->
      exists inps, client_run (l_c k) inps = Some (l_st k', l_pc k', tr ++ evs)).
    { intros ci S. exists (inps ++ [ci]). eapply crun_snoc; eauto. }
    assert (NOT : forall r, l_pc k <> PcDone -> ~ In (EvDone StopLimit r) tr).
    { intros r N H. destruct (executions_run _ _ _ _ _ R) as (_ & X). specialize (X N). rewrite Forall_forall in X.
      specialize (X _ H). discriminate. }
    assert (ND : l_pc k <> PcDone).
    { destruct LC as [ci _ _ S| | |]; try congruence. intros E. rewrite E in S. destruct ci; discriminate. }
    assert (SH : forall lim ptr r, shared_check (l_cnt st) lim ptr = (cnt, r) -> lim = 0%N -> r = false).
    { intros lim ptr r SC ->. unfold shared_check in SC. cbn in SC. congruence. }
    destruct LC as [ci N1 N2 S EN CH|r PC CH SC X|r PC CH SC X|PC CH EN CH' X].
    - split; [eauto|]. intros DL E1 E2 (r & H). apply in_app_or in H as [H|H]; [exfalso; eapply NOT; eauto|].
      destruct (limit_done _ _ _ _ _ _ _ S N2) as (X & _). exfalso. eapply X; eauto.
    - destruct r.
      + destruct X as (S & _). rewrite <- PC in S. split; [eauto|]. intros _ E1 _ _. specialize (SH _ _ _ SC E1). discriminate.
      + destruct X as (-> & PC' & _ & ->). rewrite app_nil_r. rewrite PC', <- PC. split; [eauto|]. intros _ _ _ (r & H). exfalso. eapply NOT; eauto.
    - destruct r.
      + destruct X as (S & _). rewrite <- PC in S. split; [eauto|]. intros _ _ E1 _. specialize (SH _ _ _ SC E1). discriminate.
      + destruct X as (-> & PC' & _ & ->). rewrite app_nil_r. rewrite PC', <- PC. split; [eauto|]. intros _ _ _ (r & H). exfalso. eapply NOT; eauto.
    - destruct (_ && _)%bool eqn:B.
      + rewrite <- PC in X. split; [eauto|]. intros _ _ _ _. rewrite PC in X. cbn in X.
        assert (Q : l_st k' = l_st k) by congruence. rewrite Q. apply andb_true_iff in B as [B1 B2].
        split; [now apply N.ltb_lt|now apply N.eqb_eq].
      + rewrite <- PC in X. split; [eauto|]. intros DL _ _ (r & H). apply in_app_or in H as [H|H]; [exfalso; eapply NOT; eauto|].
        rewrite PC in X. destruct (limit_done _ _ _ _ _ _ _ X) as (Y & _); [discriminate|]. exfalso. eapply Y; eauto.
  Qed.

  Section Sim.
  Variable cs : list client.

  Definition sim (st : lst) (tr : list (nat * event)) : Prop :=
    map l_c (l_cls st) = cs /\
    (forall i k, nth_error (l_cls st) i = Some k -> one k (events_of i tr)) /\
    exists sched ist, iter_run (iter_init cs) sched = Some ist /\ is_cnt ist = l_cnt st /\ length (is_cls ist) = length (l_cls st) /\
      (forall i k x, nth_error (l_cls st) i = Some k -> nth_error (is_cls ist) i = Some x -> same k (events_of i tr) x) /\
      (forall i, In (i, true) sched -> exists k, nth_error (l_cls st) i = Some k /\ l_pc k = PcDone /\ other_stop (l_c k) (events_of i tr)).

  Lemma sim_init : sim (loop_init cs) [].
  Proof.
    split; [cbn; rewrite map_map; cbn; apply map_id|]. split.
    - intros i k H. cbn [loop_init l_cls] in H. rewrite nth_error_map in H. destruct (nth_error cs i) as [c|]; [|discriminate].
      injection H as <-. split; [exists []; reflexivity|]. intros _ _ _ (r & []).
    - exists [], (iter_init cs). split; [reflexivity|]. split; [reflexivity|]. split; [cbn; now rewrite !map_length|]. split; [|intros i []].
      intros i k x Hk Hx. cbn [loop_init iter_init l_cls is_cls] in Hk, Hx. rewrite nth_error_map in Hk, Hx.
      destruct (nth_error cs i) as [c|]; [|discriminate]. injection Hk as <-. injection Hx as <-. repeat split.
  Qed.

  (** Steps of one client in the iteration model. *)
  Inductive isteps (i : nat) : ist -> list (nat * bool) -> ist -> Prop :=
  | INone s : isteps i s [] s
  | IMore s b s1 l s2 : iter_step s i b = Some s1 -> isteps i s1 l s2 -> isteps i s ((i, b) :: l) s2.
  Lemma isteps_run i s l s' : isteps i s l s' -> forall st sched, iter_run st sched = Some s -> iter_run st (sched ++ l) = Some s'.
  Proof.
    induction 1 as [s|s b s1 l s2 S _ IH]; intros st sched R; [now rewrite app_nil_r|].
    rewrite (app_assoc sched [(i, b)] l : sched ++ (i, b) :: l = _). apply IH. eapply iter_snoc; eauto.
  Qed.
  Lemma iter_frame s i b s' : iter_step s i b = Some s' ->
    length (is_cls s') = length (is_cls s) /\ forall j, j <> i -> nth_error (is_cls s') j = nth_error (is_cls s) j.
  Proof.
    unfold iter_step. intros H. destruct (nth_error (is_cls s) i) as [k|]; [|discriminate].
    assert (X : forall cnt y, match set_nth (is_cls s) i y with Some l => Some (ISt cnt l) | None => None end = Some s' ->
      length (is_cls s') = length (is_cls s) /\ forall j, j <> i -> nth_error (is_cls s') j = nth_error (is_cls s) j).
    { intros cnt y Q. destruct (set_nth (is_cls s) i y) as [l|] eqn:E; [|discriminate]. injection Q as <-. cbn.
      split; [eapply set_nth_length; eauto|]. intros j N. eapply LimitProofs.set_nth_diff; eauto. }
    destruct (ic_ph k); try discriminate;
      repeat match type of H with context [shared_check ?a ?b ?d] => destruct (shared_check a b d) end;
      try (destruct (_ && _)%bool); eapply X; exact H.
  Qed.
  Lemma isteps_frame i s l s' : isteps i s l s' ->
    length (is_cls s') = length (is_cls s) /\ (forall j, j <> i -> nth_error (is_cls s') j = nth_error (is_cls s) j) /\
    forall j b, In (j, b) l -> j = i.
  Proof.
    induction 1 as [s|s b s1 l s2 S _ (L & F & I)]; [repeat split; auto; intros j b []|].
    destruct (iter_frame _ _ _ _ S) as (L1 & F1). split; [congruence|]. split.
    - intros j N. rewrite F, F1; auto.
    - intros j b' [E|E]; [congruence|eauto].
  Qed.

  (** A step of client [k] is matched by steps of the iteration model. *)
  Lemma match_step st k k' evs0 evs cnt i ist x : one k evs0 -> same k evs0 x -> is_cnt ist = l_cnt st ->
    nth_error (is_cls ist) i = Some x -> lcase st k k' cnt evs -> l_c k' = l_c k ->
    exists l ist' x', isteps i ist l ist' /\ is_cnt ist' = cnt /\ nth_error (is_cls ist') i = Some x' /\ same k' (evs0 ++ evs) x' /\
      (In (i, true) l -> l_pc k' = PcDone /\ other_stop (l_c k') (evs0 ++ evs)).
  Proof.
    intros ON (SC & SN & SP) EC EX LC EK.
    assert (DO : forall b, ic_ph x <> Finished -> exists ist' x', iter_step ist i b = Some ist' /\ nth_error (is_cls ist') i = Some x' /\
        ic_c x' = l_c k' /\ outcome (is_cnt ist) x b (is_cnt ist') (ic_ph x') (ic_n x')).
    { intros b NF. destruct (iter_do ist i b x EX NF) as (c1 & ph & n & l' & S & SET & O). exists (ISt c1 l'), (ICl (ic_c x) ph n).
      split; [exact S|]. split; [cbn; eapply LimitProofs.set_nth_same; eauto|]. split; [cbn; congruence|exact O]. }
    assert (OTH : forall e0 e1 c, other_stop (V := V) c e1 -> other_stop c (e0 ++ e1)).
    { intros e0 e1 c (s & r & I & Q). exists s, r. split; [apply in_or_app; now right|exact Q]. }
    unfold same, phase in *.
    destruct LC as [ci N1 N2 S EN CH|r PC CH SH X|r PC CH SH X|PC CH EN CH' X].
    - destruct (limit_done _ _ _ _ _ _ _ S N2) as (_ & OS). pose proof (step_inv _ _ _ _ _ _ _ S) as SI.
      inversion SI as [ce st' e1 r CO E1 E2 E3 E4 E5|E1 E2 E3 E4 E5|E1 E2 E3 E4 E5|j se st' e1 nx XC XE E1 E2 E3 E4 E5].
      + (* connect *)
        destruct (connect_inv (l_c k) _ _ _ _ _ _ CO) as ((_ & RC & _) & _). rewrite <- E1 in SP.
        exists [], ist, x. split; [constructor|]. split; [congruence|]. split; [exact EX|]. split; [|intros []].
        subst st'. split; [congruence|]. split; [congruence|].
        rewrite ?E5. destruct r.
        * now rewrite CH.
        * right. split; [exact SP|]. rewrite EK. apply OTH, OS. congruence.
        * right. split; [exact SP|]. rewrite EK. apply OTH, OS. congruence.
      + congruence.
      + congruence.
      + (* statement *)
        destruct (exec_execs (l_c k) _ _ _ _ _ _ XC) as (RC & _). rewrite <- E1 in SP. subst st'.
        assert (NF : ic_ph x <> Finished) by congruence.
        assert (STAY : l_pc k' = PcIter -> exists l ist' x', isteps i ist l ist' /\ is_cnt ist' = cnt /\ nth_error (is_cls ist') i = Some x' /\
          (ic_c x' = l_c k' /\ ic_n x' = rc_iter (s_rc (l_st k')) /\ ic_ph x' = AtEg) /\ (In (i, true) l -> l_pc k' = PcDone /\ other_stop (l_c k') (evs0 ++ evs))).
        { intros P'. destruct (DO false NF) as (ist' & x' & S1 & S2 & S3 & S4). unfold outcome in S4. rewrite SP in S4.
          destruct S4 as (S4 & S5 & S6). exists [(i, false)], ist', x'. split; [econstructor; [exact S1|constructor]|].
          split; [congruence|]. split; [exact S2|]. split; [|intros [Q|[]]; discriminate]. split; [congruence|]. split; [congruence|exact S5]. }
        assert (KEEP : forall m, l_pc k' = PcStmt m -> exists l ist' x', isteps i ist l ist' /\ is_cnt ist' = cnt /\ nth_error (is_cls ist') i = Some x' /\
          (ic_c x' = l_c k' /\ ic_n x' = rc_iter (s_rc (l_st k')) /\ ic_ph x' = Running) /\ (In (i, true) l -> l_pc k' = PcDone /\ other_stop (l_c k') (evs0 ++ evs))).
        { intros m P'. exists [], ist, x. split; [constructor|]. split; [congruence|]. split; [exact EX|]. split; [|intros []].
          split; [congruence|]. split; [congruence|exact SP]. }
        rewrite E4, ?E5. destruct nx as [| |s].
        * unfold stmt_pc in E4. destruct (_ <? _)%nat.
          -- rewrite <- E4 in *. apply (KEEP _ eq_refl).
          -- rewrite <- E4 in *. destruct (STAY eq_refl) as (l & ist' & x' & Q1 & Q2 & Q3 & Q4 & Q5). exists l, ist', x'.
             rewrite CH. auto.
        * rewrite <- E4 in *. destruct (STAY eq_refl) as (l & ist' & x' & Q1 & Q2 & Q3 & Q4 & Q5). exists l, ist', x'.
          rewrite CH. auto.
        * rewrite <- E4 in *. destruct (DO true NF) as (ist' & x' & S1 & S2 & S3 & S4). unfold outcome in S4. rewrite SP in S4.
          destruct S4 as (S4 & S5 & S6). exists [(i, true)], ist', x'. split; [econstructor; [exact S1|constructor]|].
          split; [congruence|]. split; [exact S2|]. split; [|intros _; split; [reflexivity|rewrite EK; apply OTH, OS; reflexivity]].
          split; [congruence|]. split; [congruence|]. left. exact S5.
    - rewrite PC, CH in SP. assert (NF : ic_ph x <> Finished) by congruence.
      destruct (DO false NF) as (ist' & x' & S1 & S2 & S3 & S4). unfold outcome in S4. rewrite SP in S4. destruct S4 as (r' & S4 & S5 & S6).
      rewrite SC, EC, SH in S4. injection S4 as S4 <-. exists [(i, false)], ist', x'. split; [econstructor; [exact S1|constructor]|].
      split; [congruence|]. split; [exact S2|]. split; [|intros [Q|[]]; discriminate]. split; [exact S3|]. destruct r.
      + destruct X as (X & _). cbn in X. injection X as X1 X2 X3. rewrite <- X1, <- X2. split; [congruence|]. left. exact S5.
      + destruct X as (-> & -> & -> & ->). split; [congruence|exact S5].
    - rewrite PC, CH in SP. assert (NF : ic_ph x <> Finished) by congruence.
      destruct (DO false NF) as (ist' & x' & S1 & S2 & S3 & S4). unfold outcome in S4. rewrite SP in S4. destruct S4 as (r' & S4 & S5 & S6).
      rewrite SC, EC, SH in S4. injection S4 as S4 <-. exists [(i, false)], ist', x'. split; [econstructor; [exact S1|constructor]|].
      split; [congruence|]. split; [exact S2|]. split; [|intros [Q|[]]; discriminate]. split; [exact S3|]. destruct r.
      + destruct X as (X & _). cbn in X. injection X as X1 X2 X3. rewrite <- X1, <- X2. split; [congruence|]. left. exact S5.
      + destruct X as (-> & -> & -> & ->). split; [congruence|exact S5].
    - rewrite PC in SP. assert (SP' : ic_ph x = AtIter) by (destruct (l_chk k) as [|[|m]]; [lia|lia|exact SP]). clear SP.
      assert (NF : ic_ph x <> Finished) by congruence.
      destruct (DO false NF) as (ist' & x' & S1 & S2 & S3 & S4). unfold outcome in S4. rewrite SP' in S4. destruct S4 as (S4 & S5).
      rewrite SC, SN in S5. destruct (_ && _)%bool.
      + cbn in X. injection X as X1 X2 X3. destruct S5 as (S5 & S6). exists [(i, false)], ist', x'. split; [econstructor; [exact S1|constructor]|].
        split; [congruence|]. split; [exact S2|]. split; [|intros [Q|[]]; discriminate]. split; [exact S3|]. rewrite <- X1, <- X2. split; [congruence|]. left. exact S5.
      + destruct S5 as (S5 & S6). cbn in X. injection X as X1 X2 X3.
        assert (RI : rc_iter (s_rc (l_st k')) = (rc_iter (s_rc (l_st k)) + 1)%N) by (rewrite <- X1; reflexivity).
        unfold stmt_pc in X2. destruct (_ <? _)%nat; rewrite <- X2.
        * exists [(i, false)], ist', x'. split; [econstructor; [exact S1|constructor]|].
          split; [congruence|]. split; [exact S2|]. split; [|intros [Q|[]]; discriminate]. split; [exact S3|]. split; [congruence|exact S5].
        * assert (NF' : ic_ph x' <> Finished) by congruence.
          destruct (iter_do ist' i false x' S2 NF') as (c1 & ph & n & l' & T1 & T2 & O). unfold outcome in O. rewrite S5 in O.
          destruct O as (-> & -> & ->). exists [(i, false); (i, false)], (ISt (is_cnt ist') l'), (ICl (ic_c x') AtEg (ic_n x')).
          split; [econstructor; [exact S1|econstructor; [exact T1|constructor]]|]. split; [cbn; congruence|].
          split; [cbn; eapply LimitProofs.set_nth_same; eauto|]. split; [|intros [Q|[Q|[]]]; discriminate].
          cbn. rewrite CH'. split; [congruence|]. split; [congruence|reflexivity].
  Qed.

  Lemma done_stays (c : client) st ci : cstep (V := V) c st PcDone ci = None.
  Proof. destruct ci; reflexivity. Qed.

  Lemma sim_step st tr i inp st' evs : sim st tr -> loop_step st i inp = Some (st', evs) -> sim st' (tr ++ map (fun e => (i, e)) evs).
  Proof.
    intros (MC & ON & sched & ist & IR & IC & IL & SA & DI) S. apply loop_inv in S as (k & k' & K & SET & EK & LC).
    assert (K' : nth_error (l_cls st') i = Some k') by (eapply LimitProofs.set_nth_same; eauto).
    assert (KO : forall j, j <> i -> nth_error (l_cls st') j = nth_error (l_cls st) j) by (intros; eapply LimitProofs.set_nth_diff; eauto).
    assert (EV : forall j, events_of j (tr ++ map (fun e => (i, e)) evs) = if Nat.eqb i j then events_of j tr ++ evs else events_of j tr).
    { intros j. rewrite events_app. destruct (Nat.eqb_spec i j) as [->|N]; [now rewrite events_same|rewrite events_diff, app_nil_r; auto]. }
    destruct (nth_error (is_cls ist) i) as [x|] eqn:EX.
    2:{ apply nth_error_None in EX. assert (Q : nth_error (l_cls st) i <> None) by congruence. apply nth_error_Some in Q. lia. }
    destruct (match_step st k k' (events_of i tr) evs (l_cnt st') i ist x (ON _ _ K) (SA _ _ _ K EX) IC EX LC EK)
      as (l & ist' & x' & ST & C' & X' & SM & OS).
    destruct (isteps_frame _ _ _ _ ST) as (FL & FR & FI).
    split; [rewrite <- MC; eapply sumn_set_map; eauto|]. split.
    - intros j y Hj. rewrite EV. destruct (Nat.eqb_spec i j) as [<-|N].
      + rewrite K' in Hj. injection Hj as <-. eapply one_step with (k := k); eauto.
      + rewrite KO in Hj by auto. auto.
    - exists (sched ++ l), ist'. split; [eapply isteps_run; eauto|]. split; [exact C'|].
      split; [rewrite FL, IL; symmetry; eapply set_nth_length; eauto|]. split.
      + intros j y z Hj Hz. rewrite EV. destruct (Nat.eqb_spec i j) as [<-|N].
        * rewrite K' in Hj. injection Hj as <-. rewrite X' in Hz. injection Hz as <-. exact SM.
        * rewrite KO in Hj by auto. rewrite FR in Hz by auto. eauto.
      + intros j Hj. rewrite EV. apply in_app_or in Hj as [Hj|Hj].
        * destruct (DI j Hj) as (y & Y1 & Y2 & Y3). destruct (Nat.eqb_spec i j) as [<-|N].
          -- exfalso. rewrite K in Y1. injection Y1 as <-. destruct LC as [ci N1 N2 S EN CH| | |]; try congruence.
             rewrite Y2, done_stays in S. discriminate.
          -- exists y. rewrite KO; auto.
        * pose proof (FI _ _ Hj). subst j. rewrite Nat.eqb_refl. exists k'. split; [exact K'|]. auto.
  Qed.

  Lemma sim_run sched st tr : loop_run (loop_init cs) sched = Some (st, tr) -> sim st tr.
  Proof. intros R. exact (loop_ind sim sim_step sched (loop_init cs) [] sim_init st tr R). Qed.
  End Sim.
End All.
