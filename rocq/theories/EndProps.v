(** C101 and C102: the values of the statements of a run, by data key names. *)
From Verif Require Import Prelude ListAux ScopeModel ScopeSpec StmtModel WorkloadModel WorkloadSpec ScopeProps ClientModel ClientSpec
  ValueModel ValueSpec ValueProps EndSpec EndProofs EndValueProofs.
#[local] Open Scope string_scope.
#[local] Open Scope list_scope.

(** * C101 *)

(** [w'] and [outs] are what Prepare made of the stages [sts]: the data generators and the clients.  [c] is one of
    the clients, with any inputs [inps] from the stop signals, the server and the connections. *)

(** Two executions of the client in one scope instance have the same values of a key. *)
Theorem C101_same {G V} (gvalues : G -> runcount -> G * list V) gen0 sts nx w' outs a e g k n c lens inps st pc w evs l
  key sc pre e1 mid e2 post s1 s2 j1 j2 :
  run_ok sts -> prepare_all sts (WSt scopes_new nx) = Some (w', outs) -> client_of sts outs a e g k n c lens ->
  trx_start_with_query c lens -> no_global (keys_at no_keys sts a) c ->
  vrun gvalues (own_of w') (scope_of w') gen0 c inps = Some (st, pc, w, evs, l) -> sized c l ->
  key <> NOOP_COLUMN -> key <> PREV -> scope_in (keys_at no_keys sts a) key = Some sc -> single_client sc ->
  never_saved c key -> never_called c key ->
  execs evs = pre ++ e1 :: mid ++ e2 :: post -> exec_uses c e1 s1 j1 key -> exec_uses c e2 s2 j2 key ->
  same_scope sc lens e1 mid e2 -> vals_at s1 j1 e1 = vals_at s2 j2 e2.
Proof.
  intros OK PR CL TS NG R SZ NN NP SC SG NS NC E U1 U2 SM.
  exact (values_same gvalues gen0 sts nx w' outs OK PR a e g k n c lens CL TS NG inps st pc w evs l R SZ key sc NN NP SC SG
           pre e1 mid e2 post s1 s2 j1 j2 E U1 U2 NS NC SM).
Qed.
Print Assumptions C101_same.

(** Two uses of the key in one statement have the same values. *)
Theorem C101_statement {G V} (gvalues : G -> runcount -> G * list V) gen0 sts nx w' outs a e g k n c lens inps st pc w evs l
  key sc pre ex post s j1 j2 :
  run_ok sts -> prepare_all sts (WSt scopes_new nx) = Some (w', outs) -> client_of sts outs a e g k n c lens ->
  trx_start_with_query c lens -> no_global (keys_at no_keys sts a) c ->
  vrun gvalues (own_of w') (scope_of w') gen0 c inps = Some (st, pc, w, evs, l) -> sized c l ->
  key <> NOOP_COLUMN -> key <> PREV -> scope_in (keys_at no_keys sts a) key = Some sc -> single_client sc ->
  never_saved c key -> never_called c key ->
  execs evs = pre ++ ex :: post -> exec_uses c ex s j1 key -> exec_uses c ex s j2 key ->
  vals_at s j1 ex = vals_at s j2 ex.
Proof.
  intros OK PR CL TS NG R SZ NN NP SC SG NS NC E U1 U2.
  exact (values_one gvalues gen0 sts nx w' outs OK PR a e g k n c lens CL TS NG inps st pc w evs l R SZ key sc NN NP SC SG
           pre ex post s j1 j2 E U1 U2 NS NC).
Qed.
Print Assumptions C101_statement.

(** Two executions in different scope instances have different values, if the generator never repeats itself. *)
Theorem C101_new {G V} (gvalues : G -> runcount -> G * list V) gen0 sts nx w' outs a e g k n c lens inps st pc w evs l
  key sc pre e1 mid e2 post s1 s2 j1 j2 :
  run_ok sts -> prepare_all sts (WSt scopes_new nx) = Some (w', outs) -> client_of sts outs a e g k n c lens ->
  trx_start_with_query c lens -> no_global (keys_at no_keys sts a) c ->
  vrun gvalues (own_of w') (scope_of w') gen0 c inps = Some (st, pc, w, evs, l) -> sized c l ->
  key <> NOOP_COLUMN -> key <> PREV -> scope_in (keys_at no_keys sts a) key = Some sc -> single_client sc ->
  never_saved c key -> (forall pl p, used_at sts outs a pl key p -> never_repeats gvalues (gen0 p)) ->
  execs evs = pre ++ e1 :: mid ++ e2 :: post -> exec_uses c e1 s1 j1 key -> exec_uses c e2 s2 j2 key ->
  same_instance sc (place_of e g k n lens (ex_stmt e1) j1) (place_of e g k n lens (ex_stmt e2) j2) ->
  ~ same_scope sc lens e1 mid e2 -> vals_at s1 j1 e1 <> vals_at s2 j2 e2.
Proof.
  intros OK PR CL TS NG R SZ NN NP SC SG NS NR E U1 U2 SI SM.
  exact (values_new gvalues gen0 sts nx w' outs OK PR a e g k n c lens CL TS NG inps st pc w evs l R SZ key sc NN NP SC SG
           pre e1 mid e2 post s1 s2 j1 j2 E U1 U2 NS NR SI SM).
Qed.
Print Assumptions C101_new.

(** The generators that the model lets a client use alone really are used by one client only. *)
Theorem C101_own sts nx w' outs a a' pl pl' key key' p :
  run_ok sts -> prepare_all sts (WSt scopes_new nx) = Some (w', outs) ->
  used_at sts outs a pl key p -> used_at sts outs a' pl' key' p -> own_of w' p = true ->
  key <> NOOP_COLUMN ->
  key' = key /\ p_stage pl' = p_stage pl /\ p_eg pl' = p_eg pl /\ p_cg pl' = p_cg pl /\ p_client pl' = p_client pl.
Proof.
  intros OK PR U U' O N.
  assert (S : single_client (scope_of w' p)).
  { unfold own_of in O. unfold single_client. destruct (scope_of w' p); try discriminate; auto. }
  destruct (one_key sts nx w' outs OK PR a a' pl pl' key key' p U U' N S) as (_ & -> & I). split; [reflexivity|].
  destruct S as [S|[S|[S|S]]]; rewrite S in I; cbn in I; intuition congruence.
Qed.
Print Assumptions C101_own.

(** Two clients of one client group and one of another; the first client runs two iterations. *)
Module ExN.
  Definition stmts (t : string) : list stmt :=
    if String.eqb t "t" then [ExV.sel; ExV.upd; ExV.idle; ExV.del] else if String.eqb t "u" then [ExV.ins] else [].
  Definition ts := TrxSet ["t"; "u"] stmts (fun _ => false).
  Definition keys (k : string) : option key :=
    if String.eqb k "@id" then Some (Key k (-1) (Some STrx) "int")
    else if String.eqb k "@n" then Some (Key k (-1) (Some SStatement) "int")
    else if String.eqb k "@c" then Some (Key k 0 (Some STrx) "column")
    else if String.eqb k "@k" then Some (Key k (-1) (Some SClient) "int")
    else if String.eqb k "@it" then Some (Key k (-1) (Some SIter) "int")
    else None.
  Definition sts := [StageCfg 1 keys ts true [Ex.cg "A" ["t"; "u"] 2; Ex.cg "A" ["u"] 1] 0 0].
  Lemma keys_named k ky : keys k = Some ky -> k_name ky = k.
  Proof.
    unfold keys. repeat match goal with |- context [String.eqb k ?x] => destruct (String.eqb k x) end;
      intros H; inv H; reflexivity.
  Qed.
  Lemma ok : run_ok sts.
  Proof.
    split.
    - intros [|[|a]] [|[|b]] sa sb L A B; cbn in A, B; try lia; try discriminate;
        try (destruct a; discriminate); try (destruct b; discriminate).
    - repeat constructor; cbn; try (intros; apply keys_named; assumption);
        intros wl gs c t H; vm_compute in H; inv H; cbn; intros X Y;
        repeat (destruct X as [X|X]; [subst c; cbn in Y; repeat (destruct Y as [<-|Y]; [discriminate|]); destruct Y|]);
        destruct X.
  Qed.
  Definition w' : wst := match prepare_all sts (WSt scopes_new 0) with Some (w, _) => w | None => WSt scopes_new 0 end.
  Definition outs := outs_of sts.
  Lemma result_ok : prepare_all sts (WSt scopes_new 0) = Some (w', outs).
  Proof.
    unfold w', outs, outs_of. assert (X : run_defined sts = true) by (vm_compute; reflexivity). revert X. unfold run_defined.
    destruct (prepare_all sts (WSt scopes_new 0)) as [[w o]|]; [reflexivity|discriminate].
  Qed.
  Definition c : client := match nth_error outs 0 with
    | Some out => match client_at out 0 0 1 with Some c => c | None => ExV.c end | None => ExV.c end.
  Definition c' := Eval vm_compute in c.
  Lemma c_eq : c = c'.
  Proof. vm_cast_no_check (eq_refl c'). Qed.
  Definition lens := [4; 1]%nat.
  Lemma client : client_of sts outs 0 0 0 1 1 c lens.
  Proof. do 5 eexists. do 6 (split; [vm_compute; reflexivity|]). vm_compute. reflexivity. Qed.
  Definition gen0 (p : nat) : ExV.G :=
    match nth_error (s_heap (w_sc w')) p with Some i => if String.eqb (id_key i) "@c" then inr 0%Z else inl 1%Z | None => inl 1%Z end.
  Lemma gen0_of pl key p : used_at sts outs 0 pl key p -> key <> NOOP_COLUMN -> gen0 p = if String.eqb key "@c" then inr 0%Z else inl 1%Z.
  Proof. intros U N. unfold gen0. destruct (used_heap sts 0 w' outs ok result_ok 0 pl key p U N) as (i & -> & ->). reflexivity. Qed.
  Definition out := vrun ExV.gvalues (own_of w') (scope_of w') gen0 c ExV.run.
  Definition evs := ExV.evs_of out.
  Definition log := ExV.log_of out.
  Lemma out_some : exists st pc w, vrun ExV.gvalues (own_of w') (scope_of w') gen0 c ExV.run = Some (st, pc, w, evs, log).
  Proof. apply (ExV.some_of (vrun ExV.gvalues (own_of w') (scope_of w') gen0 c ExV.run)). vm_compute. discriminate. Qed.
  Definition log' := Eval vm_compute in log.
  Definition execs' := Eval vm_compute in execs evs.
  Lemma log_eq : log = log'.
  Proof. vm_cast_no_check (eq_refl log'). Qed.
  Lemma execs_eq : execs evs = execs'.
  Proof. vm_cast_no_check (eq_refl execs'). Qed.

  Lemma start : trx_start_with_query c lens.
  Proof. rewrite c_eq. intros [|[|[|[|[|i]]]]] s E F; try (injection E as <-; reflexivity); try discriminate F. destruct i; discriminate E. Qed.
  Ltac stmts H := rewrite c_eq in H; cbn [In c' c_stmts] in H;
    repeat (destruct H as [<-|H]; [cbn|]); [..|destruct H].
  Lemma global : no_global (keys_at no_keys sts 0) c.
  Proof. intros s key S K. stmts S; cbn in K; repeat (destruct K as [<-|K]; [vm_compute; discriminate|]); destruct K. Qed.
  Lemma not_saved key : key <> "@c" -> key <> "" -> never_saved c key.
  Proof. intros N N' s S. stmts S; intuition congruence. Qed.
  Lemma not_called key : never_called c key.
  Proof.
    intros s j S K X. apply nth_error_In in X. revert X. stmts S; intuition congruence.
  Qed.
  Lemma sizes : sized c log.
  Proof.
    intros i rc us s H S. rewrite log_eq in H. rewrite c_eq in S. cbn [groups log'] in H. cbn [In] in H.
    repeat (destruct H as [H|H]; [injection H as <- <- <-; cbn in S; injection S as <-; vm_compute; auto|]). destruct H.
  Qed.
  Lemma order : saved_before_use c lens "@c".
  Proof.
    intros i j s t S T _ U W. rewrite c_eq in S, T.
    assert (J : j = 0%nat).
    { destruct j as [|[|[|[|[|j]]]]]; cbn in T; try reflexivity; try (destruct j; discriminate T); injection T as <-;
        destruct W as [W|W]; cbn in W; try discriminate W; destruct W. }
    subst j. destruct i; [|lia]. cbn in S. injection S as <-. cbn in U. destruct U as [U|[]]. discriminate U.
  Qed.
End ExN.

Example C101_example : run_ok ExN.sts /\ prepare_all ExN.sts (WSt scopes_new 0) = Some (ExN.w', ExN.outs) /\
  client_of ExN.sts ExN.outs 0 0 0 1 1 ExN.c ExN.lens /\ trx_start_with_query ExN.c ExN.lens /\
  no_global (keys_at no_keys ExN.sts 0) ExN.c /\ ExN.out <> None /\ sized ExN.c ExN.log /\
  scope_in (keys_at no_keys ExN.sts 0) "@id" = Some STrx /\ never_saved ExN.c "@id" /\ never_called ExN.c "@id" /\
  map ex_stmt (execs ExN.evs) = [0; 1; 3; 4; 0; 1; 3; 0; 1; 3; 4]%nat /\
  map ex_vals (execs ExN.evs) =
    [[Some 1]; [Some 1; Some 1; Some 77; Some 77]; [Some 77; Some 1]; [Some 1; Some 1; Some 1];
     [Some 2]; [Some 2; Some 2; Some 78; Some 78]; [Some 78; Some 2];
     [Some 3]; [Some 3; Some 3; Some 78; Some 78]; [Some 78; Some 3]; [Some 2; Some 2; Some 2]]%Z.
Proof.
  split; [exact ExN.ok|]. split; [exact ExN.result_ok|]. split; [exact ExN.client|]. split; [exact ExN.start|].
  split; [exact ExN.global|]. split; [vm_compute; discriminate|]. split; [exact ExN.sizes|]. split; [reflexivity|].
  split; [apply ExN.not_saved; discriminate|]. split; [apply ExN.not_called|]. rewrite ExN.execs_eq. split; reflexivity.
Qed.
(** The first and the third statement of the second trx; the first statements of the first and second trx. *)
Example C101_same_example : exists pre e1 mid e2 post,
  execs ExN.evs = pre ++ e1 :: mid ++ e2 :: post /\ exec_uses ExN.c e1 ExV.sel 0 "@id" /\ exec_uses ExN.c e2 ExV.del 1 "@id" /\
  same_scope STrx ExN.lens e1 mid e2 /\ vals_at ExV.sel 0 e1 = [Some 2%Z] /\ vals_at ExV.del 1 e2 = [Some 2%Z].
Proof.
  rewrite ExN.execs_eq. exists (firstn 4 ExN.execs'). eexists. exists (firstn 1 (skipn 5 ExN.execs')). eexists. exists (skipn 7 ExN.execs').
  cbn [firstn skipn ExN.execs']. split; [reflexivity|]. rewrite ExN.c_eq. split; [split; reflexivity|]. split; [split; reflexivity|].
  split; [vm_compute; repeat constructor|]. split; reflexivity.
Qed.
Example C101_new_example : (forall pl p, used_at ExN.sts ExN.outs 0 pl "@id" p -> never_repeats ExV.gvalues (ExN.gen0 p)) /\
  exists pre e1 mid e2 post,
  execs ExN.evs = pre ++ e1 :: mid ++ e2 :: post /\ exec_uses ExN.c e1 ExV.sel 0 "@id" /\ exec_uses ExN.c e2 ExV.sel 0 "@id" /\
  ~ same_scope STrx ExN.lens e1 mid e2 /\ vals_at ExV.sel 0 e1 = [Some 1%Z] /\ vals_at ExV.sel 0 e2 = [Some 2%Z].
Proof.
  split.
  - intros pl p U.
    rewrite (ExN.gen0_of pl "@id" p U) by discriminate. exact ExV.never.
  - rewrite ExN.execs_eq. exists (firstn 0 ExN.execs'). eexists. exists (firstn 3 (skipn 1 ExN.execs')). eexists. exists (skipn 5 ExN.execs').
    cbn [firstn skipn ExN.execs']. split; [reflexivity|]. rewrite ExN.c_eq. split; [split; reflexivity|]. split; [split; reflexivity|].
    split; [|split; reflexivity].
    vm_compute. intros X. repeat match goal with H : Forall _ (_ :: _) |- _ => inversion H; subst; clear H end. discriminate.
Qed.

(** * C102 *)

(** The statement [ex] of a trx is executed with what the scans of the trx before it saved in the key's column:
    [last_saved p x] is the newest one of the log [x] of everything before this execution, and every scan into
    this generator was made by a statement of this trx that saves the key. *)
Theorem C102_saved {G V} (gvalues : G -> runcount -> G * list V) gen0 sts nx w' outs a e g k n c lens inps st pc w evs l
  key held pre ex post s j :
  run_ok sts -> prepare_all sts (WSt scopes_new nx) = Some (w', outs) -> client_of sts outs a e g k n c lens ->
  trx_start_with_query c lens -> no_global (keys_at no_keys sts a) c ->
  vrun gvalues (own_of w') (scope_of w') gen0 c inps = Some (st, pc, w, evs, l) -> sized c l ->
  key <> NOOP_COLUMN -> key <> PREV -> scope_in (keys_at no_keys sts a) key = Some STrx ->
  (forall pl p, used_at sts outs a pl key p ->
     is_column gvalues held (gen0 p) /\ forall i g0, In (LSave i p g0) l -> is_column gvalues held g0) ->
  saved_before_use c lens key ->
  execs evs = pre ++ ex :: post -> exec_uses c ex s j key ->
  exists p x rc us y, used_at sts outs a (place_of e g k n lens (ex_stmt ex) j) key p /\
    l = x ++ LUses (ex_stmt ex) rc us :: y /\ length (ValueSpec.groups x) = length pre /\
    vals_at s j ex = map Some (held (last_saved p x (gen0 p))) /\
    (forall i g0, In (LSave i p g0) x ->
       exists t, nth_error (c_stmts c) i = Some t /\ saves_key t key /\ block_index lens i = block_index lens (ex_stmt ex)).
Proof.
  intros OK PR CL TS NG R SZ NN NP SC COL ORD E U.
  exact (column_key gvalues gen0 sts nx w' outs OK PR a e g k n c lens CL TS NG inps st pc w evs l R SZ key STrx NN NP SC
           (or_intror (or_introl eq_refl)) held pre ex post s j eq_refl COL ORD E U).
Qed.
Print Assumptions C102_saved.

Example C102_example : scope_in (keys_at no_keys ExN.sts 0) "@c" = Some STrx /\
  (forall pl p, used_at ExN.sts ExN.outs 0 pl "@c" p ->
     is_column ExV.gvalues ExV.held (ExN.gen0 p) /\ forall i g0, In (LSave i p g0) ExN.log -> is_column ExV.gvalues ExV.held g0) /\
  saved_before_use ExN.c ExN.lens "@c" /\
  exists pre ex post, execs ExN.evs = pre ++ ex :: post /\ length pre = 6%nat /\ exec_uses ExN.c ex ExV.del 0 "@c" /\
    vals_at ExV.del 0 ex = [Some 78%Z] /\
    exists x rc us y, ExN.log = x ++ LUses (ex_stmt ex) rc us :: y /\ length (ValueSpec.groups x) = 6%nat /\
      last_saved 6 x (ExN.gen0 6) = inr 78%Z /\ In (LSave 0 6 (inr 78%Z)) x.
Proof.
  split; [reflexivity|]. split; [|split; [exact ExN.order|]].
  - intros pl p U. split.
    + rewrite (ExN.gen0_of pl "@c" p U) by discriminate. intros rc. reflexivity.
    + intros i g0 I. rewrite ExN.log_eq in I. cbn [In ExN.log'] in I.
      repeat (destruct I as [I|I]; [try discriminate I; injection I as <- <- <-; intros rc; reflexivity|]). destruct I.
  - rewrite ExN.execs_eq, ExN.log_eq. exists (firstn 6 ExN.execs'). eexists. exists (skipn 7 ExN.execs').
    cbn [firstn skipn ExN.execs']. split; [reflexivity|]. split; [reflexivity|]. rewrite ExN.c_eq. split; [split; reflexivity|]. split; [reflexivity|].
    exists (firstn 8 ExN.log'). cbn [firstn ExN.log']. do 3 eexists. split; [reflexivity|]. split; [reflexivity|]. split; [reflexivity|]. cbn. auto 10.
Qed.
