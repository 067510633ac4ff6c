(** C102 for accepted configurations: saved columns from the trx files to the executed statements. *)
From Verif Require Import Prelude ConfigModel ConfigProps TrxModel PipeModel PipeProps EndTrxProofs.
From Verif Require ScopeModel ScopeSpec StmtModel WorkloadModel WorkloadSpec ClientModel ClientSpec ValueModel ValueSpec EndSpec EndProofs ValueProps EndProps.
#[local] Open Scope string_scope.
#[local] Open Scope list_scope.

(** In an accepted configuration the clients save a column before they use it, unless one statement does both. *)
Theorem C102_order E bases fs kvs dsn db cs P l w' outs a e g k n c lens key :
  load E bases fs kvs dsn db = Some cs -> Forall (fun c => s_disable c = false) cs ->
  load_stages P cs [] = Some l -> prepare_run P l = Some (w', outs) ->
  EndSpec.client_of (map (fun x => stage_of P (fst x) (snd x)) l) outs a e g k n c lens ->
  key <> "" -> key <> "_" -> key <> "@PREV" ->
  (forall s, In s (WorkloadModel.c_stmts c) -> In key (StmtModel.st_inputs s) -> ~ EndSpec.saves_key s key) ->
  EndSpec.saved_before_use c lens key.
Proof.
  intros L D H PR CL. pose proof (C92_run_ok _ _ _ _ _ _ _ _ _ L D H) as OK.
  exact (order_of_files P cs l w' outs OK H PR a e g k n c lens CL key).
Qed.
Print Assumptions C102_order.

(** Joined with C102_saved. *)
Theorem C102_accepted {G V} (gvalues : G -> ScopeModel.runcount -> G * list V) gen0 E bases fs kvs dsn db cs P l w' outs a e g k n c lens inps st pc w evs log
  key held pre ex post s j :
  let sts := map (fun x => stage_of P (fst x) (snd x)) l in
  load E bases fs kvs dsn db = Some cs -> Forall (fun c => s_disable c = false) cs ->
  load_stages P cs [] = Some l -> prepare_run P l = Some (w', outs) -> EndSpec.client_of sts outs a e g k n c lens ->
  ClientSpec.trx_start_with_query c lens -> EndSpec.no_global (WorkloadSpec.keys_at WorkloadSpec.no_keys sts a) c ->
  ValueModel.vrun gvalues (EndSpec.own_of w') (EndSpec.scope_of w') gen0 c inps = Some (st, pc, w, evs, log) -> EndSpec.sized c log ->
  key <> "" -> key <> "_" -> key <> "@PREV" ->
  WorkloadSpec.scope_in (WorkloadSpec.keys_at WorkloadSpec.no_keys sts a) key = Some ScopeModel.STrx ->
  (forall pl p, WorkloadSpec.used_at sts outs a pl key p ->
     ValueSpec.is_column gvalues held (gen0 p) /\ forall i g0, In (ValueModel.LSave i p g0) log -> ValueSpec.is_column gvalues held g0) ->
  (forall s, In s (WorkloadModel.c_stmts c) -> In key (StmtModel.st_inputs s) -> ~ EndSpec.saves_key s key) ->
  ClientSpec.execs evs = pre ++ ex :: post -> EndSpec.exec_uses c ex s j key ->
  exists p x rc us y, WorkloadSpec.used_at sts outs a (EndSpec.place_of e g k n lens (ClientSpec.ex_stmt ex) j) key p /\
    log = x ++ ValueModel.LUses (ClientSpec.ex_stmt ex) rc us :: y /\ List.length (ValueSpec.groups x) = List.length pre /\
    EndSpec.vals_at s j ex = map Some (held (ValueSpec.last_saved p x (gen0 p))) /\
    (forall i g0, In (ValueModel.LSave i p g0) x ->
       exists t, nth_error (WorkloadModel.c_stmts c) i = Some t /\ EndSpec.saves_key t key /\
         WorkloadSpec.block_index lens i = WorkloadSpec.block_index lens (ClientSpec.ex_stmt ex)).
Proof.
  intros sts L D H PR CL TS NG R SZ N0 N NP SC COL DIS EX U.
  exact (EndProps.C102_saved gvalues gen0 sts 0 w' outs a e g k n c lens inps st pc w evs log key held pre ex post s j
    (C92_run_ok _ _ _ _ _ _ _ _ _ L D H) PR CL TS NG R SZ N NP SC COL (C102_order _ _ _ _ _ _ _ _ _ _ _ _ _ _ _ _ _ _ _ L D H PR CL N0 N NP DIS) EX U).
Qed.
Print Assumptions C102_accepted.

Lemma prepared_all P l sts w' outs : sts = map (fun x => stage_of P (fst x) (snd x)) l -> prepare_run P l = Some (w', outs) ->
  WorkloadModel.prepare_all sts (WorkloadModel.WSt ScopeModel.scopes_new 0) = Some (w', outs).
Proof. intros ->. exact (fun H => H). Qed.

(** A stage with one trx that reads a row and updates it, by two clients; the second one runs two iterations. *)
Module ExA.
  Import ScopeModel ScopeSpec StmtModel WorkloadModel WorkloadSpec ClientModel ClientSpec ValueModel ValueSpec.
  Module V := ValueProps.ExV.
  Definition files (f : string) : option (list string) :=
    if String.eqb f "w.sql" then Some ["-- save-columns: @c"; "SELECT c FROM x WHERE id=@id"; ""; "UPDATE x SET n=1 WHERE c=@c AND id=@id"] else None.
  Definition fs := [file (stage1 "b" [Trx "w" "w.sql" [("id", d_int "trx")]] [CGroup "2" "" false "" "" "" "g" "" "" "" "" "" "" "" []])].
  Definition cs : list stage := match load E0 no_base fs [] "" "" with Some cs => cs | None => [] end.
  Lemma cs_ok : load E0 no_base fs [] "" "" = Some cs.
  Proof. vm_compute. reflexivity. Qed.
  Definition l : list (stage * tset) := match load_stages (P1 files) cs [] with Some l => l | None => [] end.
  Lemma l_ok : load_stages (P1 files) cs [] = Some l.
  Proof. vm_compute. reflexivity. Qed.
  Definition sts := map (fun x => stage_of (P1 files) (fst x) (snd x)) l.
  Definition w' : wst := match prepare_run (P1 files) l with Some (w, _) => w | None => WSt scopes_new 0 end.
  Definition outs := match prepare_run (P1 files) l with Some (_, o) => o | None => [] end.
  Definition defined : bool := match prepare_run (P1 files) l with Some _ => true | None => false end.
  Lemma result_ok : prepare_run (P1 files) l = Some (w', outs).
  Proof.
    unfold w', outs. assert (X : defined = true) by (vm_compute; reflexivity). revert X. unfold defined.
    destruct (prepare_run (P1 files) l) as [[w o]|]; [reflexivity|discriminate].
  Qed.
  Definition c : client := match nth_error outs 0 with
    | Some out => match client_at out 0 0 1 with Some c => c | None => V.c end | None => V.c end.
  Definition c' := Eval vm_compute in c.
  Lemma c_eq : c = c'.
  Proof. vm_cast_no_check (eq_refl c'). Qed.
  Definition lens := [2]%nat.
  Lemma client : EndSpec.client_of sts outs 0 0 0 1 1 c lens.
  Proof. do 5 eexists. do 6 (split; [vm_compute; reflexivity|]). vm_compute. reflexivity. Qed.
  Definition gen0 (p : nat) : V.G :=
    match nth_error (s_heap (w_sc w')) p with Some i => if String.eqb (id_key i) "@c" then inr 0%Z else inl 1%Z | None => inl 1%Z end.
  Definition run : list (cinput Z * (nat -> option V.G)) :=
    [(IConnect V.ok, V.none); (IGo, V.none); V.rd 77; V.q None; (IGo, V.none); V.rd 78; V.q None; (IStop, V.none)].
  Definition out := vrun V.gvalues (EndSpec.own_of w') (EndSpec.scope_of w') gen0 c run.
  Definition evs := V.evs_of out.
  Definition log := V.log_of out.
  Definition log' := Eval vm_compute in log.
  Definition execs' := Eval vm_compute in execs evs.
  Lemma log_eq : log = log'.
  Proof. vm_cast_no_check (eq_refl log'). Qed.
  Lemma execs_eq : execs evs = execs'.
  Proof. vm_cast_no_check (eq_refl execs'). Qed.
  Lemma enabled : Forall (fun c => s_disable c = false) cs.
  Proof. repeat constructor. Qed.
  Lemma ok : run_ok sts.
  Proof. unfold sts. exact (C92_run_ok _ _ _ _ _ _ _ _ _ cs_ok enabled l_ok). Qed.
  Lemma all_ok : prepare_all sts (WSt scopes_new 0) = Some (w', outs).
  Proof. exact (prepared_all (P1 files) l sts w' outs eq_refl result_ok). Qed.
  Lemma gen0_c pl p : used_at sts outs 0 pl "@c" p -> gen0 p = inr 0%Z.
  Proof. intros U. unfold gen0. destruct (EndProofs.used_heap sts 0 w' outs ok all_ok 0 pl "@c" p U) as (i & -> & ->); [discriminate|reflexivity]. Qed.
End ExA.

Example C102_accepted_example :
  load E0 no_base ExA.fs [] "" "" = Some ExA.cs /\ Forall (fun c => s_disable c = false) ExA.cs /\
  load_stages (P1 ExA.files) ExA.cs [] = Some ExA.l /\ prepare_run (P1 ExA.files) ExA.l = Some (ExA.w', ExA.outs) /\
  EndSpec.client_of ExA.sts ExA.outs 0 0 0 1 1 ExA.c ExA.lens /\ ClientSpec.trx_start_with_query ExA.c ExA.lens /\
  EndSpec.no_global (WorkloadSpec.keys_at WorkloadSpec.no_keys ExA.sts 0) ExA.c /\ ExA.out <> None /\ EndSpec.sized ExA.c ExA.log /\
  WorkloadSpec.scope_in (WorkloadSpec.keys_at WorkloadSpec.no_keys ExA.sts 0) "@c" = Some ScopeModel.STrx /\
  (forall pl p, WorkloadSpec.used_at ExA.sts ExA.outs 0 pl "@c" p ->
     ValueSpec.is_column ValueProps.ExV.gvalues ValueProps.ExV.held (ExA.gen0 p) /\
     forall i g0, In (ValueModel.LSave i p g0) ExA.log -> ValueSpec.is_column ValueProps.ExV.gvalues ValueProps.ExV.held g0) /\
  (forall s, In s (WorkloadModel.c_stmts ExA.c) -> In "@c" (StmtModel.st_inputs s) -> ~ EndSpec.saves_key s "@c") /\
  map ValueSpec.ex_vals (ClientSpec.execs ExA.evs) = [[Some 1]; [Some 77; Some 1]; [Some 2]; [Some 78; Some 2]]%Z.
Proof.
  split; [exact ExA.cs_ok|]. split; [repeat constructor|]. split; [exact ExA.l_ok|]. split; [exact ExA.result_ok|]. split; [exact ExA.client|].
  split; [|split; [|split; [vm_compute; discriminate|split; [|split; [vm_compute; reflexivity|split; [|split; [|rewrite ExA.execs_eq; reflexivity]]]]]]].
  - rewrite ExA.c_eq. intros [|[|i]] s E F; try (injection E as <-; reflexivity); try discriminate F. destruct i; discriminate E.
  - intros s key S K. rewrite ExA.c_eq in S. cbn [In ExA.c' WorkloadModel.c_stmts] in S.
    repeat (destruct S as [<-|S]; [cbn in K; repeat (destruct K as [<-|K]; [vm_compute; discriminate|]); destruct K|]). destruct S.
  - intros i rc us s H S. rewrite ExA.log_eq in H. rewrite ExA.c_eq in S. cbn [ValueSpec.groups ExA.log'] in H. cbn [In] in H.
    repeat (destruct H as [H|H]; [injection H as <- <- <-; cbn in S; injection S as <-; vm_compute; auto|]). destruct H.
  - intros pl p U. split.
    + rewrite (ExA.gen0_c pl p U). intros rc. reflexivity.
    + intros i g0 I. rewrite ExA.log_eq in I. cbn [In ExA.log'] in I.
      repeat (destruct I as [I|I]; [try discriminate I; injection I as <- <- <-; intros rc; reflexivity|]). destruct I.
  - intros s S K X. rewrite ExA.c_eq in S. cbn [In ExA.c' WorkloadModel.c_stmts] in S.
    repeat (destruct S as [<-|S]; [cbn in K; destruct X as [X|X]; cbn in X; intuition congruence|]). destruct S.
Qed.
