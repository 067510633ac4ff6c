(** The statements of the clients of an accepted configuration: the columns they save and use. *)
From Verif Require Import Prelude ListAux ConfigModel TrxModel PipeModel PipeRunProofs TrxOrderSpec TrxOrderProofs.
From Verif Require ScopeModel ScopeSpec StmtModel WorkloadModel WorkloadSpec InstanceProofs EndSpec IterSpec.
#[local] Open Scope string_scope.
#[local] Open Scope list_scope.

(** The trx that a client executes. *)
Lemma client_blocks sts nx w' outs a e g k n c lens : WS.run_ok sts -> W.prepare_all sts (W.WSt ScopeModel.scopes_new nx) = Some (w', outs) ->
  EndSpec.client_of sts outs a e g k n c lens ->
  exists st bs, nth_error sts a = Some st /\ W.c_stmts c = concat bs /\ lens = map (@List.length _) bs /\
    (forall b, In b bs -> exists t, b = W.ts_stmts (W.sg_ts st) t).
Proof.
  intros OK PR (st & out & wl & gs & cg & A1 & A2 & A3 & A4 & A5 & A6 & A7).
  destruct (prepare_nth _ _ _ _ _ _ PR A1) as (w1 & w2 & out' & B1 & B2). rewrite A2 in B1. injection B1 as <-.
  assert (NE : IterSpec.no_empty_trx (W.sg_ts st) wl).
  { destruct OK as [_ F]. rewrite Forall_forall in F. destruct (F st (nth_error_In _ _ A1)) as (_ & _ & NE).
    intros cg0 t I1 I2. exact (NE _ _ _ _ A3 I1 I2). }
  exists st, (map (W.ts_stmts (W.sg_ts st)) (W.cg_trx cg)). split; [exact A1|].
  unfold W.prepare_stage, W.allocate in B2.
  destruct (W.new_rate _ (W.sg_qps st)) as [w3 sq]. destruct (W.new_rate w3 (W.sg_tps st)) as [w4 stp]. rewrite A3 in B2.
  destruct (InstanceProofs.clients_of _ _ _ _ _ _ _ _ _ _ B2 NE) as [LO CO].
  unfold WS.client_at in A5. destruct (nth_error out e) as [css|] eqn:H1; [|discriminate].
  destruct (nth_error css g) as [cs|] eqn:H2; [|discriminate].
  destruct (CO _ _ H1) as (refs & R1 & R2 & R3). destruct (R3 _ _ H2) as (r & cg' & Q1 & Q2 & Q3 & Q4).
  assert (cg' = cg) as -> by (unfold WS.cg_at in A4; rewrite R1, Q1 in A4; congruence).
  destruct (Q4 _ _ A5) as (C1 & _). split; [exact C1|]. split; [subst lens; unfold WS.trx_lens; now rewrite map_map|].
  intros b I. apply in_map_iff in I as (t & <- & _). eauto.
Qed.

(** Two statements in one block. *)
Lemma in_block {A} (bs : list (list A)) : forall i x, nth_error (concat bs) i = Some x ->
  exists b, nth_error bs (WS.block_index (map (@List.length _) bs) i) = Some b /\
    nth_error b (i - list_sum (map (@List.length _) (firstn (WS.block_index (map (@List.length _) bs) i) bs))) = Some x /\
    (list_sum (map (@List.length _) (firstn (WS.block_index (map (@List.length _) bs) i) bs)) <= i)%nat.
Proof.
  induction bs as [|b bs IH]; intros i x H; [destruct i; discriminate|]. cbn [map WS.block_index concat] in *.
  destruct (Nat.ltb_spec i (List.length b)) as [L|L].
  - cbn. rewrite nth_error_app1 in H by lia. exists b. rewrite Nat.sub_0_r. split; [reflexivity|]. split; [exact H|lia].
  - rewrite nth_error_app2 in H by lia. destruct (IH _ _ H) as (b' & B1 & B2 & B3). exists b'. cbn [nth_error firstn map list_sum fold_right].
    split; [exact B1|]. unfold list_sum in *. split; [|lia]. rewrite <- B2. f_equal. lia.
Qed.

Lemma stmts_nth lid ps : forall i m s, nth_error (stmts_of lid i ps) m = Some s -> exists p, nth_error ps m = Some p /\ s = stmt_of (lid (i + m)%nat) p.
Proof.
  induction ps as [|p ps IH]; intros i m s H; [destruct m; discriminate|]. destruct m as [|m]; cbn in H |- *.
  - injection H as <-. exists p. rewrite Nat.add_0_r. auto.
  - apply IH in H as (q & A & B). exists q. replace (i + S m)%nat with (S i + m)%nat by lia. auto.
Qed.
Lemma once_in ss sss : saved_once (concat sss) -> In ss sss -> saved_once ss.
Proof.
  intros (A & B & C) I. apply in_split in I as (l1 & l2 & ->). rewrite concat_app in *. cbn [concat] in *.
  set (n := List.length (concat l1)) in *.
  assert (X : forall i s, nth_error ss i = Some s -> nth_error (concat l1 ++ ss ++ concat l2) (n + i) = Some s).
  { intros i s H. rewrite nth_error_app2 by (unfold n; lia). replace (n + i - List.length (concat l1))%nat with i by (unfold n; lia).
    rewrite nth_error_app1; [exact H|]. apply nth_error_Some. congruence. }
  split; [|split].
  - intros i j s t o I J N0 N P Q. assert (n + i = n + j)%nat; [|lia]. eapply A; eauto.
  - intros i j s t o I J N0 N NP P Q. assert (n + j <= n + i)%nat; [|lia]. eapply B; eauto.
  - intros s I. apply C. apply in_or_app. right. apply in_or_app. now left.
Qed.

Section run.
  Context (P : penv) (cs : list stage) (l : list (stage * tset)) (w' : W.wst) (outs : list (list (list (list W.client)))).
  Notation sts := (map (fun x => stage_of P (fst x) (snd x)) l).
  Hypothesis OK : WS.run_ok sts.
  Hypothesis LS : load_stages P cs [] = Some l.
  Hypothesis PR : prepare_run P l = Some (w', outs).
  Context (a e g k : nat) (n : N) (c : W.client) (lens : list nat).
  Hypothesis CL : EndSpec.client_of sts outs a e g k n c lens.

  (** Each trx of the client is a file in which columns are saved once and before they are used. *)
  Lemma client_files : exists bs, W.c_stmts c = concat bs /\ lens = map (@List.length _) bs /\
    (forall b, In b bs -> b = [] \/ exists lid ps, b = stmts_of lid 0 ps /\ saved_once ps).
  Proof.
    destruct (client_blocks _ _ _ _ _ _ _ _ _ _ _ OK PR CL) as (st & bs & A1 & A2 & A3 & A4). exists bs. split; [exact A2|]. split; [exact A3|].
    rewrite nth_error_map in A1. destruct (nth_error l a) as [[c0 set]|] eqn:L; [|discriminate]. injection A1 as <-. cbn [fst snd] in A4.
    destruct (load_stages_nth P cs [] l a c0 set (NoDup_nil _) LS L) as (keys0 & _ & LD). unfold load_stage in LD.
    apply load_trx_chain in LD as (sss & _ & CH & IN). apply chain_once in CH. cbn [t_keys t_stmts] in *.
    intros b I. destruct (A4 b I) as (t & ->). cbn [stage_of W.sg_ts trxset_of W.ts_stmts].
    destruct (sget t (t_stmts set)) as [ss|] eqn:E; [|now left]. right. exists (pe_lid P t), ss. split; [reflexivity|].
    destruct (IN t ss E) as [X|X]; [discriminate X|]. eapply once_in; eauto.
  Qed.

  Lemma saves_of lid p key : EndSpec.saves_key (stmt_of lid p) key <-> psaves p key.
  Proof. reflexivity. Qed.

  Lemma order_of_files key : key <> "" -> key <> "_" -> key <> "@PREV" ->
    (forall s, In s (W.c_stmts c) -> In key (StmtModel.st_inputs s) -> ~ EndSpec.saves_key s key) ->
    EndSpec.saved_before_use c lens key.
  Proof using OK LS PR CL.
    intros N0 N NP D. destruct client_files as (bs & C & L & F). intros i j s t I J BI U SV.
    rewrite C in I, J. rewrite L in BI. destruct (in_block bs _ _ I) as (b & B1 & B2 & B3). destruct (in_block bs _ _ J) as (b' & B1' & B2' & B3').
    rewrite <- BI in B1', B2', B3'. rewrite B1 in B1'. injection B1' as <-.
    set (x := list_sum (map (@List.length _) (firstn (WS.block_index (map (@List.length _) bs) i) bs))) in *.
    destruct (F b (nth_error_In _ _ B1)) as [->|(lid & ps & -> & O)]; [destruct (i - x)%nat; discriminate|].
    destruct (stmts_nth _ _ _ _ _ B2) as (p & P1 & P2). destruct (stmts_nth _ _ _ _ _ B2') as (q & Q1 & Q2). subst s t.
    destruct O as (_ & O & _). pose proof (O _ _ _ _ key P1 Q1 N0 N NP SV U) as LE.
    assert (NE : (i - x)%nat <> (j - x)%nat).
    { intros X. rewrite X in P1. rewrite P1 in Q1. injection Q1 as <-.
      apply (D (stmt_of (lid (0 + (i - x))%nat) p)); [rewrite C; eapply nth_error_In; eauto|exact U|exact SV]. }
    lia.
  Qed.
End run.
