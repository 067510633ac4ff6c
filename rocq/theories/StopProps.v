(** C78 and C98: clients and exec groups when the runtime elapses or finch is stopped. *)
From Verif Require Import Prelude ListAux ScopeModel StmtModel WorkloadModel WorkloadSpec ClientModel ClientSpec ClientProofs
  ClientConnProofs ClientProps.
From Verif Require StageModel StageProps.
#[local] Open Scope list_scope.

(** What the environment of a client can do once its context is done: Connect sees that the context is done, and
    a statement fails, as database/sql and the driver do not start a query with a context that is done. *)
Definition after_done {V} (i : cinput V) : Prop :=
  match i with
  | IConnect ce => ce_ctx0 ce = true
  | IStmt se => v_res se <> None /\ v_ctx se = true /\ ce_ctx0 (v_conn se) = true
  | IGo | IStop => True
  end.

(** Events that change something at MySQL or in saved data. *)
Definition is_effect {V} (e : event V) : bool :=
  match e with
  | EvConnect _ | EvUse _ | EvPrepare _ _ | EvRollback _ | EvAffected _ | EvSaved _ | EvError _ _ => true
  | EvExec _ _ _ _ _ None _ => true
  | _ => false
  end.

Section Stop.
  Context {V : Type} (c : client).
  Notation cst := (cst V).
  Notation event := (event V).

  Lemma permits_effect i (e : event) : In e (permits_for c i) -> is_effect e = false /\ is_exec e = false.
  Proof. intros I. pose proof (permits_all (V := V) c i) as F. rewrite Forall_forall in F. apply F in I. destruct e; easy. Qed.
  Lemma finish_effect (st : cst) s e : In e (finish st s) -> is_effect e = false /\ is_exec e = false.
  Proof. unfold finish. intros I. destruct (s_conn st); cbn in I; intuition (subst; auto). Qed.
  Lemma record_effect slot s (e : event) : In e (record_of slot s) -> is_effect e = false /\ is_exec e = false.
  Proof. unfold record_of. intros I. destruct slot; cbn in I; intuition (subst; auto). Qed.

  Definition few (l : list event) (stops : bool) : Prop :=
    Forall (fun e => is_effect e = false) l /\ (List.length (execs l) <= if stops then 1 else 0)%nat.

  Lemma execs_app (a b : list event) : execs (a ++ b) = execs a ++ execs b.
  Proof. apply filter_app. Qed.
  Lemma execs_none (l : list event) : (forall e, In e l -> is_exec e = false) -> execs l = [].
  Proof. induction l as [|e l IH]; intros H; [reflexivity|]. cbn. rewrite (H e) by now left. apply IH. intros; apply H. now right. Qed.

  (** Statement [i] once the context is done: an idle time, or the end of the client. *)
  Lemma exec_after st i se st' evs nx : exec_case c st i se st' evs nx -> after_done (IStmt se) ->
    (exists s, nth_error (c_stmts c) i = Some s /\ is_idle s = true /\ nx = NStmt /\ evs = [] /\ st' = st) \/
    (exists s, nx = NStop s) /\ (forall s, few (evs ++ finish st' s) true).
  Proof.
    intros X (R & C & D).
    assert (G : forall (l : list event), (forall e, In e l -> is_effect e = false /\ is_exec e = false) -> few l false).
    { intros l H. split; [apply Forall_forall; intros e I; now apply H|]. rewrite execs_none; [cbn; lia|]. intros e I. now apply H. }
    assert (UP : forall l : list event, few l false -> few l true) by (intros l [A B]; split; [exact A|lia]).
    assert (G1 : forall (a b : list event) i ps k rc vals e x, few a false -> few b false ->
       few (a ++ [EvExec i ps k rc vals (Some e) x] ++ b) true).
    { intros a b j ps k rc vals e x [A1 A2] [B1 B2]. split.
      - apply Forall_app. split; [exact A1|]. apply Forall_app. split; [repeat constructor|exact B1].
      - rewrite !execs_app, !app_length. cbn -[execs]. cbn. lia. }
    assert (RE : forall s d, exists e, result_of s d se = Some e).
    { intros s d. unfold result_of. destruct (v_res se); [eauto|congruence]. }
    inv X.
    - right. split; [eauto|]. intros s. apply UP, G, finish_effect.
    - left. eauto 10.
    - right. split; [eauto|]. intros s'. apply UP, G.
      intros e I. apply in_app_iff in I as [I|I]; [now apply permits_effect in I|now apply finish_effect in I].
    - right. split; [eauto|]. intros s'. apply UP, G.
      intros e I. apply in_app_iff in I as [I|I]; [now apply permits_effect in I|now apply finish_effect in I].
    - right. split; [eauto|]. intros s'. destruct (RE s d) as (e & ->). rewrite <- app_assoc. apply G1; apply G; intros x I;
        [now apply permits_effect in I|now apply finish_effect in I].
    - destruct (RE s d) as (e & E). congruence.
    - right. match goal with H : connect _ _ _ _ = _ |- _ => unfold connect in H; rewrite D in H; injection H as <- <- <- end.
      split; [eauto|]. intros s'. rewrite <- !app_assoc. apply G1; apply G; intros x I.
      + now apply permits_effect in I.
      + unfold error_of in I. rewrite C in I. apply in_app_iff in I as [I|I]; [now apply record_effect in I|].
        destruct slot; cbn in I; now apply finish_effect in I.
  Qed.

  Lemma done_final : forall inps (st : cst) st' pc' evs, crun c st PcDone inps = Some (st', pc', evs) -> inps = [] /\ evs = [].
  Proof. intros [|i inps] st st' pc' evs H; cbn in H; [injection H as _ _ <-; auto|]. destruct i; discriminate. Qed.

  (** A bound on the steps left, with [q] the number of a query. *)
  Definition steps_left (q : nat) (pc : cpc) : nat :=
    match pc with
    | PcStart => 1
    | PcIter => q + 2
    | PcStmt i => if (i <=? q)%nat then q - i + 1 else List.length (c_stmts c) - i + q + 2
    | PcDone => 0
    end.
  Lemma stop_bound q s : nth_error (c_stmts c) q = Some s -> is_idle s = false -> forall inps, Forall after_done inps ->
    forall (st : cst) pc st' pc' evs, crun c st pc inps = Some (st', pc', evs) ->
    (List.length inps <= steps_left q pc)%nat /\ few evs true /\ (evs = [] \/ pc' = PcDone).
  Proof.
    intros HQ HI. assert (QL : (q < List.length (c_stmts c))%nat) by (apply nth_error_Some; congruence).
    assert (F0 : few [] true) by (split; [constructor|cbn; lia]).
    induction inps as [|inp inps IH]; intros FA st pc st' pc' evs H; cbn [crun] in H.
    - injection H as <- <- <-. cbn. split; [lia|auto].
    - inv FA. destruct (cstep c st pc inp) as [[[st1 pc1] e1]|] eqn:E; [|discriminate].
      destruct (crun c st1 pc1 inps) as [[[st2 pc2] e2]|] eqn:E2; [|discriminate]. injection H as <- <- <-.
      assert (DONE : pc1 = PcDone -> few e1 true -> (0 < steps_left q pc)%nat ->
        (List.length (inp :: inps) <= steps_left q pc)%nat /\ few (e1 ++ e2) true /\ (e1 ++ e2 = [] \/ pc2 = PcDone)).
      { intros -> FW P. pose proof E2 as E2'. apply done_final in E2' as [-> ->]. rewrite app_nil_r. cbn in E2. injection E2 as <- <-.
        cbn [List.length]. split; [lia|auto]. }
      assert (GO : e1 = [] -> (steps_left q pc1 < steps_left q pc)%nat ->
        (List.length (inp :: inps) <= steps_left q pc)%nat /\ few (e1 ++ e2) true /\ (e1 ++ e2 = [] \/ pc2 = PcDone)).
      { intros -> L. destruct (IH ltac:(assumption) _ _ _ _ _ E2) as (A & B & C). cbn [List.length app]. split; [lia|auto]. }
      apply step_inv in E. inv E.
      + match goal with H : connect _ _ _ _ = _, H1 : after_done (IConnect _) |- _ =>
          unfold connect in H; cbn in H1; rewrite H1 in H; injection H as <- <- <- end.
        apply DONE; [reflexivity| |cbn; lia]. cbn [app]. split.
        * apply Forall_forall. intros e I. now apply finish_effect in I.
        * rewrite execs_none; [cbn; lia|]. intros e I. now apply finish_effect in I.
      + apply DONE; [reflexivity| |cbn; lia]. split.
        * apply Forall_forall. intros e I. now apply finish_effect in I.
        * rewrite execs_none; [cbn; lia|]. intros e I. now apply finish_effect in I.
      + apply GO; [reflexivity|]. unfold stmt_pc. replace (0 <? List.length (c_stmts c))%nat with true by (symmetry; apply Nat.ltb_lt; lia).
        cbn [steps_left]. destruct (Nat.leb_spec 0 q); lia.
      + match goal with H : exec_case _ _ _ _ _ _ _ |- _ => destruct (exec_after _ _ _ _ _ _ H ltac:(assumption)) as [(s1 & N & ID & -> & -> & ->)|[(s1 & ->) FW]] end.
        * apply GO; [reflexivity|]. assert (IL : (i < List.length (c_stmts c))%nat) by (apply nth_error_Some; congruence).
          assert (i <> q) by (intros ->; congruence).
          unfold stmt_pc. destruct (Nat.ltb_spec (S i) (List.length (c_stmts c))); cbn [steps_left].
          -- destruct (Nat.leb_spec (S i) q), (Nat.leb_spec i q); lia.
          -- destruct (Nat.leb_spec i q); lia.
        * apply DONE; [reflexivity|apply FW|]. cbn. destruct (i <=? q)%nat; lia.
  Qed.

  (** A client all of whose statements are idle times. *)
  Lemma idle_goes_on : Forall (fun s => is_idle s = true) (c_stmts c) -> List.length (c_data c) = List.length (c_stmts c) ->
    forall inps, Forall (fun i => i <> IStop) inps -> forall (st : cst) pc st' pc' evs, 
    List.length (s_ps st) = List.length (c_stmts c) -> List.length (s_values st) = List.length (c_stmts c) ->
    (pc = PcIter \/ exists i, pc = PcStmt i /\ (i < List.length (c_stmts c))%nat) ->
    crun c st pc inps = Some (st', pc', evs) -> evs = [] /\ pc' <> PcDone.
  Proof.
    intros ID LD. induction inps as [|inp inps IH]; intros NS st pc st' pc' evs LP LV HP H; cbn [crun] in H.
    - injection H as <- <- <-. split; [reflexivity|]. destruct HP as [->|(i & -> & _)]; discriminate.
    - inv NS. destruct (cstep c st pc inp) as [[[st1 pc1] e1]|] eqn:E; [|discriminate].
      destruct (crun c st1 pc1 inps) as [[[st2 pc2] e2]|] eqn:E2; [|discriminate]. injection H as <- <- <-.
      assert (SP : forall i, stmt_pc c i = PcIter \/ exists j, stmt_pc c i = PcStmt j /\ (j < List.length (c_stmts c))%nat).
      { intros i. unfold stmt_pc. destruct (Nat.ltb_spec i (List.length (c_stmts c))); [right; eauto|auto]. }
      destruct HP as [->|(i & -> & HL)].
      + destruct inp; try discriminate; [|congruence]. cbn in E. injection E as <- <- <-. cbn [app]. eapply IH; [assumption| | | |exact E2]; auto.
      + destruct inp; try discriminate. cbn in E. unfold exec_stmt in E.
        destruct (nth_error (c_stmts c) i) as [s|] eqn:N1; [|apply nth_error_None in N1; lia].
        destruct (nth_error (c_data c) i) eqn:N2; [|apply nth_error_None in N2; lia].
        destruct (nth_error (s_values st) i) eqn:N3; [|apply nth_error_None in N3; lia].
        destruct (nth_error (s_ps st) i) eqn:N4; [|apply nth_error_None in N4; lia].
        rewrite Forall_forall in ID. specialize (ID s (nth_error_In _ _ N1)). unfold is_idle in ID. rewrite ID in E.
        injection E as <- <- <-. cbn [app]. eapply IH; [assumption| | | |exact E2]; auto.
  Qed.
End Stop.

(** ** C98: a client stops soon after its runtime elapsed or finch was stopped *)

(** The part that holds, for clients with at least one query (not only idle times): from any reachable state,
    once the context is done, the client ends after at most 2n+1 further steps (n statements), no statement
    succeeds any more, at most one is tried, and nothing is connected, prepared, rolled back or saved. *)
Theorem C98_stops_partial : forall {V} c before inps st pc evs st' pc' (evs' : list (event V)) s,
  client_run c before = Some (st, pc, evs) ->
  In s (c_stmts c) -> is_idle s = false ->
  Forall after_done inps -> crun c st pc inps = Some (st', pc', evs') ->
  (List.length inps <= 2 * List.length (c_stmts c) + 1)%nat /\
  (List.length (execs evs') <= 1)%nat /\
  (forall e, In e evs' -> is_effect e = false) /\
  (pc' <> PcDone -> evs' = [] /\ exists inp, after_done inp /\ cstep c st' pc' inp <> None).
Proof.
  intros V c before inps st pc evs st' pc' evs' s R I ID FA H. apply In_nth_error in I as (q & N).
  assert (QL : (q < List.length (c_stmts c))%nat) by (apply nth_error_Some; congruence).
  destruct (stop_bound c q s N ID inps FA st pc st' pc' evs' H) as (A & [B1 B2] & C).
  assert (IL : forall i, pc = PcStmt i -> (i < List.length (c_stmts c))%nat).
  { revert R. clear. intros R i.
    refine (client_run_ind c (fun _ pc _ => pc = PcStmt i -> (i < List.length (c_stmts c))%nat) _ _ before st pc evs R); [discriminate|].
    intros s0 p0 e0 inp s1 p1 e1 _ E ->. apply step_inv in E.
    assert (SP : forall j, stmt_pc c j = PcStmt i -> (i < List.length (c_stmts c))%nat).
    { intros j. unfold stmt_pc. destruct (Nat.ltb_spec j (List.length (c_stmts c))); [|discriminate]. now intros [= <-]. }
    inv E; eauto; try discriminate.
    - match goal with H : match ?r with _ => _ end = PcStmt i |- _ => destruct r; discriminate end.
    - match goal with H : match ?r with _ => _ end = PcStmt i |- _ => destruct r; try discriminate; eauto end. }
  split; [|split; [exact B2|split; [now apply Forall_forall|]]].
  - destruct pc; cbn in A; try lia. specialize (IL _ eq_refl). destruct (i <=? q)%nat; lia.
  - intros ND. split; [tauto|]. destruct pc'; [| | |easy].
    + exists (IConnect (CEnv true None false true None (fun _ => None))). split; [reflexivity|]. cbn. discriminate.
    + exists IGo. split; [exact Logic.I|]. cbn. discriminate.
    + exists (IStmt (SEnv [] (Some true) (Some err_ctx) None true (CEnv true None false true None (fun _ => None)))).
      split; [repeat split; discriminate|]. cbn. destruct (exec_stmt _ _ _ _) as [[? ?] []]; discriminate.
Qed.
Print Assumptions C98_stops_partial.

(** A client that is started when its context is done does nothing at all, and reports no error. *)
Theorem C98_nothing : forall {V} c ce inps st pc (evs : list (event V)),
  ce_ctx0 ce = true -> client_run c (IConnect ce :: inps) = Some (st, pc, evs) ->
  inps = [] /\ pc = PcDone /\ evs = [EvDone (StopErr err_ctx) None].
Proof.
  intros V c ce inps st pc evs C H. unfold client_run in H. cbn [crun cstep] in H. unfold connect in H. rewrite C in H.
  destruct (crun c (client_init c) PcDone inps) as [[[s1 p1] e1]|] eqn:E; [|discriminate].
  pose proof E as E'. apply done_final in E' as [-> ->]. cbn in E. injection E as <- <-. injection H as <- <- <-. auto.
Qed.
Print Assumptions C98_nothing.

(** C98 is false for a client that has only idle times: it never looks at its context.  Without an iteration limit
    ([IStop] is the end by an iteration limit) it goes on for ever. *)
Theorem C98_refuted : forall {V} c lens before st pc (evs : list (event V)),
  has_trx c lens -> Forall (fun s => is_idle s = true) (c_stmts c) ->
  client_run c before = Some (st, pc, evs) -> pc = PcIter ->
  (forall inps st' pc' evs', Forall (fun i => i <> IStop) inps -> crun c st pc inps = Some (st', pc', evs') ->
     evs' = [] /\ pc' <> PcDone) /\
  (forall n, exists inps st' pc' evs', List.length inps = n /\ Forall after_done inps /\ Forall (fun i => i <> IStop) inps /\
     crun c st pc inps = Some (st', pc', evs')).
Proof.
  intros V c lens before st pc evs (LP & LS & LD & _) ID R ->.
  assert (LD' : List.length (c_data c) = List.length (c_stmts c)).
  { rewrite LS. apply (f_equal (@List.length _)) in LD. rewrite map_length in LD. rewrite LD. unfold marks. clear.
    induction lens as [|a l IH]; cbn; [reflexivity|]. rewrite app_length, map_length, seq_length. f_equal. exact IH. }
  destruct (conn_run _ _ _ _ _ R) as (L1 & L2 & _). apply (f_equal (@List.length _)) in L2. rewrite !map_length in L2.
  split.
  - intros inps st' pc' evs' NS H. eapply (idle_goes_on c); eauto.
  - set (se := SEnv [] (Some true) (Some err_ctx) None true (CEnv true None false true None (fun _ => None)) : senv V).
    assert (SE : after_done (IStmt se)) by (repeat split; discriminate).
    assert (X : forall n (st0 : cst V) pc0, (pc0 = PcIter \/ exists i, pc0 = PcStmt i /\ (i < List.length (c_stmts c))%nat) ->
      List.length (s_ps st0) = List.length (c_stmts c) -> List.length (s_values st0) = List.length (c_stmts c) ->
      exists inps st' pc' evs', List.length inps = n /\ Forall after_done inps /\ Forall (fun i => i <> IStop) inps /\
        crun c st0 pc0 inps = Some (st', pc', evs')).
    { induction n as [|n IH]; intros st0 pc0 HP P1 P2; [exists []; cbn; eauto 10|].
      assert (SP : forall i, stmt_pc c i = PcIter \/ exists j, stmt_pc c i = PcStmt j /\ (j < List.length (c_stmts c))%nat).
      { intros i. unfold stmt_pc. destruct (Nat.ltb_spec i (List.length (c_stmts c))); [right; eauto|auto]. }
      assert (ST : exists inp st1 pc1, after_done inp /\ inp <> IStop /\ cstep c st0 pc0 inp = Some (st1, pc1, []) /\
        (pc1 = PcIter \/ exists i, pc1 = PcStmt i /\ (i < List.length (c_stmts c))%nat) /\ s_ps st1 = s_ps st0 /\ s_values st1 = s_values st0).
      { destruct HP as [->|(i & -> & HL)].
        - exists IGo. do 2 eexists. split; [exact I|]. split; [discriminate|]. split; [reflexivity|]. auto.
        - exists (IStmt se), st0, (stmt_pc c (S i)). split; [exact SE|]. split; [discriminate|]. split; [|auto].
          cbn [cstep]. unfold exec_stmt.
          destruct (nth_error (c_stmts c) i) as [s|] eqn:N1; [|apply nth_error_None in N1; lia].
          destruct (nth_error (c_data c) i) eqn:N2; [|apply nth_error_None in N2; lia].
          destruct (nth_error (s_values st0) i) eqn:N3; [|apply nth_error_None in N3; lia].
          destruct (nth_error (s_ps st0) i) eqn:N4; [|apply nth_error_None in N4; lia].
          pose proof ID as ID'. rewrite Forall_forall in ID'. specialize (ID' s (nth_error_In _ _ N1)). unfold is_idle in ID'. now rewrite ID'. }
      destruct ST as (inp & st1 & pc1 & A1 & A2 & A3 & A4 & A5 & A6).
      destruct (IH st1 pc1 A4 ltac:(now rewrite A5) ltac:(now rewrite A6)) as (inps & st2 & pc2 & e2 & B1 & B2 & B3 & B4).
      exists (inp :: inps), st2, pc2, e2. cbn [List.length]. split; [lia|]. split; [now constructor|]. split; [now constructor|].
      cbn [crun]. rewrite A3, B4. reflexivity. }
    intros n. apply X; auto.
Qed.
Print Assumptions C98_refuted.

(** ** C78: no exec group starts after the stage's runtime elapsed *)

(** It is false in general: unless finch is stopped, every exec group is started, whether the runtime has elapsed or not. *)
Theorem C78_refuted_always : forall groups s tr, StageProps.reach groups s tr ->
  StageModel.s_pc s = StageModel.Ended -> StageModel.s_stopped s = false ->
  forall g i, (i < nth g groups 0)%nat -> In (StageModel.EStart (g, i)) tr.
Proof.
  intros groups s tr R Ep Hs g i Hi. apply StageProps.reach_inv in R as [I1 _ _ _]. unfold StageProps.started in I1. rewrite Ep in I1.
  destruct I1 as (g0 & _ & S1 & Hg). specialize (Hg Hs). subst g0. apply StageProps.in_starts. rewrite S1. apply StageProps.in_upto. cbn.
  split; [|exact Hi]. destruct (Nat.lt_ge_cases g (List.length groups)) as [|L]; [assumption|]. rewrite nth_overflow in Hi by exact L. lia.
Qed.
Print Assumptions C78_refuted_always.

Module ExStop.
  Definition gone : cenv := CEnv true None false true None (fun _ => None).
  Definition late : cinput Z := IStmt (SEnv [] (Some true) (Some err_ctx) None true gone).
  (** The runtime elapses before COMMIT, the fourth statement: it is tried, fails, and the client ends; the same
      before the idle time, the sixth: the INSERT after it is tried. *)
  Example stops :
    let run1 := [IConnect ExC.ok; IGo; IStmt (ExC.se [] None); IStmt (ExC.se [] None); IStmt (ExC.se [] None)] in
    match client_run (V := Z) ExC.c run1 with
    | Some (st, pc, _) =>
        pc = PcStmt 3 /\
        match crun ExC.c st pc [late] with
        | Some (_, pc', evs) => pc' = PcDone /\ List.length (execs evs) = 1%nat /\ evs <> []
        | None => False
        end
    | None => False
    end /\
    let run2 := run1 ++ [IStmt (ExC.se [] None); IStmt (ExC.se [] None)] in
    match client_run (V := Z) ExC.c run2 with
    | Some (st, pc, _) =>
        pc = PcStmt 5 /\ match crun ExC.c st pc [late; late] with Some (_, pc', evs) => pc' = PcDone | None => False end
    | None => False
    end.
  Proof. vm_compute. intuition discriminate. Qed.

  (** A client with two idle times. *)
  Definition idler := Client (RL 1 1 1 1 0 0) "" 0 0 None 0 None None None
    [ExC.q_idle; ExC.q_idle] [ExC.d true false; ExC.d false true] [Some "u"%string].
  Example idles : has_trx idler [2%nat] /\ Forall (fun s => is_idle s = true) (c_stmts idler) /\
    match client_run (V := Z) idler [IConnect ExC.ok; IGo; late; late] with Some (_, pc, _) => pc = PcIter | None => False end.
  Proof. split; [split; [repeat constructor|repeat split]|]. split; [repeat constructor|]. vm_compute. reflexivity. Qed.
  Example nothing : client_run (V := Z) ExC.c [IConnect gone] = Some (client_init ExC.c, PcDone, [EvDone (StopErr err_ctx) None]).
  Proof. vm_compute. reflexivity. Qed.
  (** The runtime of a stage of two exec groups elapses while the first is running. *)
  Example elapsed : exists s tr, StageProps.reach [1; 1]%nat s tr /\ StageModel.s_pc s = StageModel.Ended /\
    StageModel.s_stopped s = false /\ StageModel.s_elapsed s = true /\
    StageProps.starts tr = [(0, 0); (1, 0)]%nat.
  Proof.
    set (l := ([StageModel.AStage false; StageModel.AStage false; StageModel.AStage false; StageModel.AElapse]
      ++ repeat (StageModel.AStage true) 30)%list).
    destruct (StageModel.run [1; 1]%nat StageModel.init (firstn 32 l)) as [[s tr]|] eqn:E; [|vm_compute in E; discriminate].
    exists s, tr. split; [exact (StageProps.run_reach _ _ _ s tr [] (StageProps.reach_init _) E)|].
    vm_compute in E. injection E as <- <-. vm_compute. auto.
  Qed.
End ExStop.
