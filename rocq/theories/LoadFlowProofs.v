(** Data limits do not block clients: proofs about the runs of LoadModel.v. *)
From Verif Require Import Prelude ListAux ScopeModel StmtModel WorkloadModel ClientModel ClientSpec IterModel IterSpec LoopModel LoopSpec LoopProofs.
From Verif Require Import LoadModel LoadSpec LoadProofs.
From Verif Require LimitProofs PaceModel PaceProofs ClientProofs ClientTrxProofs ClientConnProofs.

Section Flow.
  Context {V : Type}.
  Notation event := (event V).

  (** ** One limit *)

  Lemma set_nth_len {A} (l : list A) i x l' : set_nth l i x = Some l' -> length l' = length l.
  Proof.
    revert i l'. induction l as [|y l IH]; intros [|i] l' H; cbn in H; try discriminate; [injection H as <-; reflexivity|].
    destruct (set_nth l i x) eqn:E; [|discriminate]. injection H as <-. cbn. now rewrite (IH _ _ E).
  Qed.
  Lemma set_nth_some {A} (l : list A) i x : (i < length l)%nat -> exists l', set_nth l i x = Some l'.
  Proof.
    revert i. induction l as [|y l IH]; intros [|i] H; cbn in H |- *; try lia; [eauto|].
    destruct (IH i ltac:(lia)) as (l' & ->). eauto.
  Qed.

  Lemma lstep_len s i a s' : L.lstep s i a = Some s' -> length (L.l_leaves s') = length (L.l_leaves s).
  Proof.
    unfold L.lstep. intros H. destruct (L.l_ph s i); destruct a as [|c|[x|]| |]; try discriminate;
      repeat match type of H with
      | Some _ = Some _ => injection H as <-
      | context [set_nth ?a ?b ?c] => destruct (set_nth a b c) eqn:?; try discriminate
      | context [match ?x with _ => _ end] => destruct x; try discriminate
      end; cbn [L.l_leaves]; eauto using set_nth_len.
  Qed.
  Lemma lstep_other s i a s' j : L.lstep s i a = Some s' -> i <> j -> L.l_ph s' j = L.l_ph s j.
  Proof.
    unfold L.lstep. intros H N. destruct (L.l_ph s i); destruct a as [|c|[x|]| |]; try discriminate;
      repeat match type of H with
      | Some _ = Some _ => injection H as <-
      | context [set_nth ?a ?b ?c] => destruct (set_nth a b c) eqn:?; try discriminate
      | context [match ?x with _ => _ end] => destruct x; try discriminate
      end; cbn [L.l_ph]; now rewrite natupd_other by auto.
  Qed.

  (** ** Where a client is in its use of the limits *)

  Variable cs : list client.
  Variable M : nat.

  Definition at_limit (k : lcl V) (busy : option nat) (l : nat) (len : nat) (ph : L.lphase) : Prop :=
    match busy with
    | Some b => if Nat.eqb b l then exists w j, ph = L.LCount w j /\ (j <= len)%nat else ph = L.LIdle
    | None => if limited_by k l then ph = L.LIdle \/ ph = L.LGone \/ exists j, ph = L.LCheck j /\ (j <= len)%nat else ph = L.LIdle
    end.
  Definition flows (st : dst V) (i : nat) : Prop :=
    forall k, nth_error (l_cls (d_loop st)) i = Some k -> l_pc k <> PcDone ->
      (forall b, d_busy st i = Some b -> d_lims st b <> None) /\
      forall l s, d_lims st l = Some s -> at_limit k (d_busy st i) l (length (L.l_leaves s)) (L.l_ph s i).

  Lemma exec_affected (c : client) st m se st' evs nx s l : exec_stmt (V := V) c st m se = (st', evs, nx) ->
    nth_error (c_stmts c) m = Some s -> (st_idle s =? 0)%Z = true -> st_resultset s = false -> st_limit s = Some l ->
    (v_more se = Some true -> (exists sp, nx = NStop sp) \/ calls_affected evs = executed_ok evs) /\
    (v_more se <> Some true -> (exists sp, nx = NStop sp)) /\
    (forall sp, nx = NStop sp -> calls_affected evs = false).
  Proof.
    intros H N ID RS LM. unfold exec_stmt in H. rewrite N, ID, RS, LM in H. cbn [negb] in H.
    assert (APP : forall a b : list event, executed_ok (a ++ b) = (executed_ok a || executed_ok b)%bool) by (intros; apply existsb_app).
    assert (APC : forall a b : list event, calls_affected (a ++ b) = (calls_affected a || calls_affected b)%bool) by (intros; apply existsb_app).
    destruct (nth_error (c_data c) m) as [d|]; [|injection H as <- <- <-; cbn; eauto 10].
    destruct (nth_error (s_values st) m) as [vals|]; [|injection H as <- <- <-; cbn; eauto 10].
    destruct (nth_error (s_ps st) m) as [ps|]; [|injection H as <- <- <-; cbn; eauto 10].
    destruct (if d_begin d then _ else _) as [[trx1 trxNo1] active1].
    assert (E1 : exists ev1 : list event, ev1 = (if (match c_tps c with Some _ => true | None => false end && st_begin s)%bool then [EvTps] else [])
                   ++ (if match c_qps c with Some _ => true | None => false end then [EvQps] else []) /\
                 executed_ok ev1 = false /\ calls_affected ev1 = false).
    { eexists. split; [reflexivity|]. rewrite APP, APC. match goal with |- context [if ?b then [EvTps] else []] => destruct b end; destruct (c_qps c); split; reflexivity. }
    destruct E1 as (ev1 & EE & E1 & E2). rewrite <- EE in H. clear EE. cbn [andb] in H. cbv iota in H.
    destruct (set_nth _ m _) as [v1|]; [|injection H as <- <- <-; rewrite E2; eauto 10].
    destruct (s_conn st); [|injection H as <- <- <-; rewrite E2; eauto 10].
    destruct (v_more se) as [[|]|]; [|injection H as <- <- <-; rewrite E2; split; [discriminate|]; split; [eauto|auto]..].
    cbn [andb] in H. destruct (stats_slot c trxNo1) as [slot|].
    2:{ injection H as <- <- <-. rewrite APC, E2. split; [eauto|]. split; [eauto|reflexivity]. }
    split; [|split; [congruence|]].
    - intros _. right. destruct (v_res se) as [e|].
      + destruct (handle_error _ _ _ _ _ _) as [[st2 e2] nx2] eqn:HE. injection H as <- <- <-.
        rewrite !APP, !APC, E1, E2. unfold handle_error in HE. destruct (connect _ _ _ _) as [[st3 e3] r3] eqn:CN.
        assert (Q : executed_ok e3 = false /\ calls_affected e3 = false).
        { pose proof (proj2 (ClientProofs.connect_inv _ _ _ _ _ _ _ CN)) as Q. clear - Q.
          unfold executed_ok, calls_affected. induction Q as [|e l Qe Q (IH1 & IH2)]; [split; reflexivity|]. cbn [existsb]. rewrite IH1, IH2.
          destruct e; cbn in Qe |- *; try contradiction; try discriminate; split; reflexivity. }
        destruct Q as [Q1 Q2].
        assert (X : exists ev0, e2 = ev0 ++ e3 /\ executed_ok ev0 = false /\ calls_affected ev0 = false).
        { destruct r3; injection HE as <- <- <-; eexists; (split; [reflexivity|]); destruct slot; try destruct (v_ctx se); split; reflexivity. }
        destruct X as (ev0 & -> & X1 & X2). rewrite APP, APC, X1, X2, Q1, Q2. destruct slot; reflexivity.
      + injection H as <- <- <-. rewrite !APP, !APC, E1, E2. destruct slot, (d_insertId d); reflexivity.
    - intros sp ->. destruct (v_res se) as [e|]; [|discriminate].
      destruct (handle_error _ _ _ _ _ _) as [[st2 e2] nx2] eqn:HE. injection H as <- <- ->.
      rewrite !APC, E2. unfold handle_error in HE. destruct (connect _ _ _ _) as [[st3 e3] r3] eqn:CN.
      assert (Q : calls_affected e3 = false).
      { pose proof (proj2 (ClientProofs.connect_inv _ _ _ _ _ _ _ CN)) as Q. clear - Q.
        unfold calls_affected. induction Q as [|e l Qe Q IH1]; [reflexivity|]. cbn [existsb]. rewrite IH1.
        destruct e; cbn in Qe |- *; try contradiction; try discriminate; reflexivity. }
      assert (X : exists ev0, e2 = ev0 ++ e3 /\ calls_affected ev0 = false).
      { destruct r3; injection HE as _ <- _; eexists; (split; [reflexivity|]); destruct slot; try destruct (v_ctx se); reflexivity. }
      destruct X as (ev0 & -> & X2). rewrite APC, X2, Q. destruct slot; reflexivity.
  Qed.

  (** The client of a state that a step of another client leaves. *)
  Lemma loop_other (st st' : lst V) i inp evs j : loop_step st i inp = Some (st', evs) -> i <> j -> nth_error (l_cls st') j = nth_error (l_cls st) j.
  Proof.
    unfold loop_step. intros H N. destruct (nth_error (l_cls st) i) as [k|]; [|discriminate].
    repeat match type of H with
    | Some _ = Some _ => injection H as <- <-
    | context [set_nth ?a ?b ?c] => destruct (set_nth a b c) eqn:?; try discriminate
    | context [match ?x with _ => _ end] => destruct x; try discriminate
    end; cbn [l_cls]; eapply LimitProofs.set_nth_diff; eauto.
  Qed.

  Lemma stmt_limited (k : lcl V) l : limited k = Some l -> exists m s, l_pc k = PcStmt m /\ nth_error (c_stmts (l_c k)) m = Some s /\
    (st_idle s =? 0)%Z = true /\ st_resultset s = false /\ st_limit s = Some l.
  Proof.
    unfold limited. intros H. destruct (l_pc k) as [| |m|]; try discriminate. exists m.
    destruct (nth_error (c_stmts (l_c k)) m) as [s|]; [|discriminate]. exists s.
    destruct (st_idle s =? 0)%Z; [|discriminate]. destruct (st_resultset s); [discriminate|]. auto.
  Qed.

  (** Client [i] has not started to use the limits. *)
  Definition fresh (st : dst V) (i : nat) : Prop := d_busy st i = None /\ forall l s, d_lims st l = Some s -> L.l_ph s i = L.LIdle.
  Lemma fresh_flows st i : fresh st i -> flows st i.
  Proof.
    intros (B & F) k K P. rewrite B. split; [discriminate|]. intros l s D. cbn. rewrite (F _ _ D). destruct (limited_by k l); auto.
  Qed.

  Lemma step_flows st e st' evs i : load_step (V := V) st e = Some (st', evs) -> flows st i -> flows st' i.
  Proof.
    intros H F. destruct e as [a c|a inp w|a]; cbn [load_step] in H.
    - destruct (load_check st a c) as [st1|] eqn:X; [|discriminate]. injection H as <- <-. unfold load_check in X.
      destruct (nth_error (l_cls (d_loop st)) a) as [ka|] eqn:KA; [|discriminate]. destruct (d_busy st a) eqn:BA; [discriminate|].
      destruct (limited ka) as [l'|] eqn:LK; [|discriminate]. destruct (d_lims st l') as [s1|] eqn:D1; [|discriminate].
      destruct (match L.l_ph s1 a with L.LIdle => L.lstep s1 a L.LStart | _ => Some s1 end) as [s2|] eqn:S2; [|discriminate].
      destruct (L.lstep s2 a (L.LMore c)) as [s3|] eqn:S3; [|discriminate]. injection X as <-.
      intros k K P. cbn [d_loop d_busy d_lims] in *. destruct (F k K P) as (F1 & F2). split.
      { intros b B. unfold natupd. destruct (Nat.eqb_spec l' b); [discriminate|eauto]. }
      intros l s D. destruct (Nat.eq_dec l' l) as [->|N]; [|rewrite natupd_other in D by auto; eauto].
      rewrite natupd_same in D. injection D as <-. specialize (F2 _ _ D1).
      assert (L2 : length (L.l_leaves s2) = length (L.l_leaves s1)) by (destruct (L.l_ph s1 a); try (injection S2 as <-; reflexivity); eapply lstep_len; eauto).
      rewrite (lstep_len _ _ _ _ S3), L2. destruct (Nat.eq_dec a i) as [->|N].
      + rewrite KA in K. injection K as <-. unfold at_limit, limited_by. rewrite BA, LK, Nat.eqb_refl.
        unfold L.lstep in S3. destruct (L.l_ph s2 i) as [|j| |] eqn:P2; try discriminate.
        destruct (nth_error (L.l_leaves s2) j) as [lf|] eqn:NJ; [|discriminate]. destruct (L.leaf_more c lf) as [lf' b].
        destruct (set_nth _ _ _); [|discriminate]. injection S3 as <-. cbn [L.l_ph]. rewrite natupd_same.
        assert (j < length (L.l_leaves s2))%nat by (apply nth_error_Some; congruence). destruct b; [|auto]. right. right. exists (S j). split; [reflexivity|lia].
      + rewrite (lstep_other _ _ _ _ _ S3 N).
        replace (L.l_ph s2 i) with (L.l_ph s1 i); [exact F2|].
        destruct (L.l_ph s1 a); try (injection S2 as <-; reflexivity). now rewrite (lstep_other _ _ _ _ _ S2 N).
    - destruct (load_loop st a inp w) as [[st1 evs1]|] eqn:X; [|discriminate]. injection H as <- <-. unfold load_loop in X.
      destruct (nth_error (l_cls (d_loop st)) a) as [ka|] eqn:KA; [|discriminate]. destruct (d_busy st a) eqn:BA; [discriminate|].
      (* the limits and what the client counts are as before *)
      assert (SAME : forall l1, d_loop st1 = l1 -> d_lims st1 = d_lims st -> d_busy st1 = d_busy st -> loop_step (d_loop st) a inp = Some (l1, evs1) ->
          (a = i -> forall k, nth_error (l_cls l1) i = Some k -> l_pc k <> PcDone -> fresh st i) -> flows st1 i).
      { intros l1 E1 E2 E3 LS FR k K P. rewrite E1 in K. rewrite E2, E3. destruct (Nat.eq_dec a i) as [->|N].
        - apply (fresh_flows st1 i); [|rewrite E1; exact K|exact P] || idtac.
          destruct (FR eq_refl _ K P) as (B & Q). rewrite B. split; [discriminate|]. intros l s D. cbn. rewrite (Q _ _ D). destruct (limited_by k l); auto.
        - rewrite (loop_other _ _ _ _ _ _ LS N) in K. exact (F k K P). }
      assert (NL : limited ka = None -> a = i -> l_pc ka <> PcDone -> fresh st i).
      { intros LK -> P. destruct (F ka KA P) as (_ & F2). split; [exact BA|]. intros l s D. specialize (F2 _ _ D). rewrite BA in F2. cbn in F2.
        unfold limited_by in F2. rewrite LK in F2. exact F2. }
      assert (ND : forall l1, loop_step (d_loop st) a inp = Some (l1, evs1) -> l_pc ka <> PcDone).
      { intros l1 LS E. unfold loop_step in LS. rewrite KA, E in LS. destruct inp; cbn [cstep] in LS; discriminate. }
      assert (NLI : match inp with LStmt _ => False | _ => True end -> forall l1, loop_step (d_loop st) a inp = Some (l1, evs1) -> limited ka = None).
      { intros I l1 LS. unfold loop_step in LS. rewrite KA in LS. unfold limited. destruct (l_pc ka) as [| |m|]; try reflexivity.
        destruct inp; [discriminate|discriminate|contradiction]. }
      destruct inp as [ce| |se].
      1,2: destruct (loop_step (d_loop st) a _) as [[l1 e1]|] eqn:LS; [|discriminate]; injection X as <- <-;
        apply (SAME l1); auto; intros E k K P; apply NL; eauto.
      destruct (limited ka) as [l'|] eqn:LK.
      2:{ destruct (loop_step (d_loop st) a _) as [[l1 e1]|] eqn:LS; [|discriminate]; injection X as <- <-.
          apply (SAME l1); auto. intros E k K P. apply NL; eauto. }
      destruct (stmt_limited _ _ LK) as (m & s & PC & NS & ID & RS & LM).
      assert (GO : forall l1 e1, loop_step (d_loop st) a (LStmt se) = Some (l1, e1) ->
          exists st2 e2 nx, exec_stmt (l_c ka) (l_st ka) m se = (st2, e2, nx) /\
            (forall k, nth_error (l_cls l1) a = Some k -> l_pc k <> PcDone -> e1 = e2 /\ forall sp, nx <> NStop sp)).
      { intros l1 e1 LS. unfold loop_step in LS. rewrite KA, PC in LS. cbn [cstep] in LS.
        destruct (exec_stmt (l_c ka) (l_st ka) m se) as [[st2 e2] nx] eqn:EX. exists st2, e2, nx. split; [reflexivity|]. intros k K P.
        destruct nx as [| |sp]; (destruct (set_nth _ _ _) eqn:SN; [|discriminate]); injection LS as <- <-; cbn [l_cls] in K; rewrite (LimitProofs.set_nth_same _ _ _ _ SN) in K;
          injection K as <-; cbn [l_pc] in P; [split; [reflexivity|discriminate]..|congruence]. }
      destruct (d_lims st l') as [s1|] eqn:D1; destruct (v_more se) as [b|] eqn:VM; try discriminate.
      + destruct (L.l_ph s1 a) as [|j| |] eqn:PH; try discriminate; destruct b; try discriminate.
        * destruct (loop_step (d_loop st) a (LStmt se)) as [[l1 e1]|] eqn:LS; [|discriminate].
          destruct (L.lstep s1 a _) as [s2|] eqn:S2; [|discriminate]. injection X as <- <-.
          intros k K P. cbn [d_loop d_lims d_busy] in *. destruct (Nat.eq_dec a i) as [->|N].
          -- destruct (GO _ _ eq_refl) as (st2 & e2 & nx & EX & Q). destruct (Q _ K P) as (-> & NSP).
             destruct (exec_affected _ _ _ _ _ _ _ _ _ EX NS ID RS LM) as (A1 & _ & _). destruct (A1 VM) as [(sp & E)|A]; [destruct (NSP _ E)|].
             unfold L.lstep in S2. rewrite PH in S2. destruct (Nat.eqb j (length (L.l_leaves s1))); [|discriminate].
             assert (F2 : forall l s0, d_lims st l = Some s0 -> l <> l' -> L.l_ph s0 i = L.LIdle).
             { intros l s0 D NE. destruct (F ka KA ltac:(congruence)) as (_ & F2). specialize (F2 _ _ D). rewrite BA in F2. cbn in F2.
               unfold limited_by in F2. rewrite LK in F2. destruct (Nat.eqb_spec l' l); [congruence|exact F2]. }
             rewrite A. destruct (executed_ok e2); injection S2 as <-.
             ++ rewrite natupd_same. split; [intros b [= <-]; rewrite natupd_same; discriminate|]. intros l s0 D. cbn.
                destruct (Nat.eqb_spec l' l) as [->|NE]; [|rewrite natupd_other in D by auto; apply (F2 _ _ D); congruence].
                rewrite natupd_same in D. injection D as <-. cbn [L.l_ph L.l_leaves]. rewrite natupd_same. exists w, 0%nat. split; [reflexivity|lia].
             ++ rewrite BA. split; [discriminate|]. intros l s0 D. cbn. assert (Z : L.l_ph s0 i = L.LIdle); [|rewrite Z; destruct (limited_by k l); auto].
                destruct (Nat.eq_dec l' l) as [->|NE]; [|rewrite natupd_other in D by auto; apply (F2 _ _ D); congruence].
                rewrite natupd_same in D. injection D as <-. cbn [L.l_ph]. apply natupd_same.
          -- rewrite (loop_other _ _ _ _ _ _ LS N) in K. destruct (F k K P) as (F1 & F2).
             replace ((if calls_affected e1 then natupd (d_busy st) a (Some l') else d_busy st) i) with (d_busy st i)
               by (destruct (calls_affected e1); [now rewrite natupd_other by auto|reflexivity]).
             split. { intros b B. unfold natupd. destruct (Nat.eqb_spec l' b); [discriminate|eauto]. }
             intros l s0 D. destruct (Nat.eq_dec l' l) as [->|NE]; [|rewrite natupd_other in D by auto; eauto].
             rewrite natupd_same in D. injection D as <-. rewrite (lstep_len _ _ _ _ S2), (lstep_other _ _ _ _ _ S2 N). eauto.
        * destruct (loop_step (d_loop st) a (LStmt se)) as [[l1 e1]|] eqn:LS; [|discriminate]; injection X as <- <-.
          apply (SAME l1); auto. intros E k K P. rewrite <- E in K. exfalso.
          destruct (GO _ _ eq_refl) as (st2 & e2 & nx & EX & Q). destruct (Q _ K P) as (-> & NSP).
          destruct (exec_affected _ _ _ _ _ _ _ _ _ EX NS ID RS LM) as (_ & A1 & _). destruct (A1 ltac:(rewrite VM; discriminate)) as (sp & E'). destruct (NSP _ E').
      + destruct (loop_step (d_loop st) a (LStmt se)) as [[l1 e1]|] eqn:LS; [|discriminate]; injection X as <- <-.
        apply (SAME l1); auto. intros E k K P. rewrite <- E in K. exfalso.
        destruct (GO _ _ eq_refl) as (st2 & e2 & nx & EX & Q). destruct (Q _ K P) as (-> & NSP).
        destruct (exec_affected _ _ _ _ _ _ _ _ _ EX NS ID RS LM) as (_ & A1 & _). destruct (A1 ltac:(rewrite VM; discriminate)) as (sp & E'). destruct (NSP _ E').
    - destruct (load_count st a) as [st1|] eqn:X; [|discriminate]. injection H as <- <-. unfold load_count in X.
      destruct (d_busy st a) as [l'|] eqn:BA; [|discriminate]. destruct (d_lims st l') as [s1|] eqn:D1; [|discriminate].
      destruct (L.lstep s1 a L.LAffected) as [s2|] eqn:S2; [|discriminate]. injection X as <-.
      intros k K P. cbn [d_loop d_lims d_busy] in *. destruct (F k K P) as (F1 & F2).
      assert (NN : forall b, d_lims st b <> None -> natupd (d_lims st) l' (Some s2) b <> None)
        by (intros b B; unfold natupd; destruct (Nat.eqb_spec l' b); [discriminate|exact B]).
      destruct (Nat.eq_dec a i) as [->|N].
      + rewrite BA in *. assert (F2' : forall l s, d_lims st l = Some s -> l <> l' -> L.l_ph s i = L.LIdle).
        { intros l s D NE. specialize (F2 _ _ D). cbn in F2. destruct (Nat.eqb_spec l' l); [congruence|exact F2]. }
        specialize (F2 _ _ D1). cbn in F2. rewrite Nat.eqb_refl in F2. destruct F2 as (w & j & PH & J).
        unfold L.lstep in S2. rewrite PH in S2. destruct (nth_error (L.l_leaves s1) j) as [lf|] eqn:NJ.
        * destruct (set_nth _ _ _) as [ls|] eqn:SN; [|discriminate]. injection S2 as <-. cbn [L.l_ph]. rewrite natupd_same, BA.
          assert (j < length (L.l_leaves s1))%nat by (apply nth_error_Some; congruence).
          split; [intros b [= <-]; rewrite natupd_same; discriminate|]. intros l s D. cbn.
          destruct (Nat.eqb_spec l' l) as [->|NE]; [|rewrite natupd_other in D by auto; apply (F2' _ _ D); congruence].
          rewrite natupd_same in D. injection D as <-. cbn [L.l_ph L.l_leaves]. rewrite natupd_same. exists w, (S j). split; [reflexivity|].
          rewrite (set_nth_len _ _ _ _ SN). lia.
        * injection S2 as <-. cbn [L.l_ph]. rewrite !natupd_same. split; [discriminate|]. intros l s D. cbn.
          assert (Z : L.l_ph s i = L.LIdle); [|rewrite Z; destruct (limited_by k l); auto].
          destruct (Nat.eq_dec l' l) as [->|NE]; [|rewrite natupd_other in D by auto; apply (F2' _ _ D); congruence].
          rewrite natupd_same in D. injection D as <-. cbn [L.l_ph]. apply natupd_same.
      + replace ((match L.l_ph s2 a with L.LIdle => natupd (d_busy st) a None | _ => d_busy st end) i) with (d_busy st i)
          by (destruct (L.l_ph s2 a); try reflexivity; now rewrite natupd_other by auto).
        split; [intros b B; apply NN; eauto|]. intros l s D. destruct (Nat.eq_dec l' l) as [->|NE]; [|rewrite natupd_other in D by auto; eauto].
        rewrite natupd_same in D. injection D as <-. rewrite (lstep_len _ _ _ _ S2), (lstep_other _ _ _ _ _ S2 N). eauto.
  Qed.

  (** ** The limits of the clients *)

  Definition used (l : nat) : Prop := exists c s, In c cs /\ In s (c_stmts c) /\ st_limit s = Some l.
  Definition measured (st : dst V) : Prop := forall l s, used l -> d_lims st l = Some s -> (1 <= length (L.l_leaves s) <= M)%nat.
  Definition counting (st : dst V) (i : nat) : Prop := forall b, d_busy st i = Some b ->
    used b /\ exists k, nth_error (l_cls (d_loop st)) i = Some k /\ l_pc k <> PcDone.

  Lemma step_measured st e st' evs : load_step (V := V) st e = Some (st', evs) -> measured st -> measured st'.
  Proof.
    intros H ME l s U D.
    assert (X : exists s0, d_lims st l = Some s0 /\ length (L.l_leaves s) = length (L.l_leaves s0)); [|destruct X as (s0 & D0 & ->); eauto].
    assert (UPD : forall l' s1 s2, d_lims st l' = Some s1 -> length (L.l_leaves s2) = length (L.l_leaves s1) -> natupd (d_lims st) l' (Some s2) l = Some s ->
        exists s0, d_lims st l = Some s0 /\ length (L.l_leaves s) = length (L.l_leaves s0)).
    { intros l' s1 s2 D1 LE N. destruct (Nat.eq_dec l' l) as [->|NE]; [|rewrite natupd_other in N by auto; eauto].
      rewrite natupd_same in N. injection N as <-. eauto. }
    destruct e as [a c|a inp w|a]; cbn [load_step] in H.
    - destruct (load_check st a c) as [st1|] eqn:X; [|discriminate]. injection H as <- <-. unfold load_check in X.
      destruct (nth_error (l_cls (d_loop st)) a) as [ka|] eqn:KA; [|discriminate]. destruct (d_busy st a) eqn:BA; [discriminate|].
      destruct (limited ka) as [l'|] eqn:LK; [|discriminate]. destruct (d_lims st l') as [s1|] eqn:D1; [|discriminate].
      destruct (match L.l_ph s1 a with L.LIdle => L.lstep s1 a L.LStart | _ => Some s1 end) as [s2|] eqn:S2; [|discriminate].
      destruct (L.lstep s2 a (L.LMore c)) as [s3|] eqn:S3; [|discriminate]. injection X as <-. cbn [d_lims] in D.
      eapply UPD; [exact D1| |exact D]. rewrite (lstep_len _ _ _ _ S3). destruct (L.l_ph s1 a); try (injection S2 as <-; reflexivity). eapply lstep_len; eauto.
    - destruct (load_loop st a inp w) as [[st1 evs1]|] eqn:X; [|discriminate]. injection H as <- <-. unfold load_loop in X.
      destruct (nth_error (l_cls (d_loop st)) a) as [ka|] eqn:KA; [|discriminate]. destruct (d_busy st a) eqn:BA; [discriminate|].
      repeat match type of X with
      | Some _ = Some _ => injection X as <- <-
      | context [d_lims st ?b] => destruct (d_lims st b) eqn:?; try discriminate
      | context [L.lstep ?a ?b ?c] => destruct (L.lstep a b c) eqn:?; try discriminate
      | context [loop_step ?a ?b ?c] => destruct (loop_step a b c) as [[? ?]|] eqn:?; try discriminate
      | context [match ?y with _ => _ end] => destruct y; try discriminate
      end; cbn [d_lims] in D; eauto.
      eapply UPD; [eassumption| |exact D]. eapply lstep_len; eauto.
    - destruct (load_count st a) as [st1|] eqn:X; [|discriminate]. injection H as <- <-. unfold load_count in X.
      destruct (d_busy st a) as [l'|] eqn:BA; [|discriminate]. destruct (d_lims st l') as [s1|] eqn:D1; [|discriminate].
      destruct (L.lstep s1 a L.LAffected) as [s2|] eqn:S2; [|discriminate]. injection X as <-. cbn [d_lims] in D.
      eapply UPD; [exact D1| |exact D]. eapply lstep_len; eauto.
  Qed.

  Lemma limited_used (st : dst V) i k l : fits cs st -> nth_error (l_cls (d_loop st)) i = Some k -> limited k = Some l -> used l.
  Proof.
    intros (CS & _) K LK. destruct (stmt_limited _ _ LK) as (m & s & _ & N & _ & _ & LM). exists (l_c k), s.
    split; [|split; [eapply nth_error_In; eauto|exact LM]]. rewrite <- CS. apply in_map. eapply nth_error_In; eauto.
  Qed.

  Lemma step_counting st e st' evs i : fits cs st -> load_step (V := V) st e = Some (st', evs) -> counting st i -> counting st' i.
  Proof.
    intros FT H C. destruct e as [a c|a inp w|a]; cbn [load_step] in H.
    - destruct (load_check st a c) as [st1|] eqn:X; [|discriminate]. injection H as <- <-. unfold load_check in X.
      repeat match type of X with
      | Some _ = Some _ => injection X as <-
      | context [match ?y with _ => _ end] => destruct y; try discriminate
      end; exact C.
    - destruct (load_loop st a inp w) as [[st1 evs1]|] eqn:X; [|discriminate]. injection H as <- <-. unfold load_loop in X.
      destruct (nth_error (l_cls (d_loop st)) a) as [ka|] eqn:KA; [|discriminate]. destruct (d_busy st a) eqn:BA; [discriminate|].
      destruct (loop_step (d_loop st) a inp) as [[l1 e1]|] eqn:LS.
      2:{ repeat match type of X with context [match ?y with _ => _ end] => destruct y; try discriminate end. }
      assert (SAME : d_busy st1 = d_busy st -> d_loop st1 = l1 -> counting st1 i).
      { intros E1 E2 b B. rewrite E1 in B. destruct (C _ B) as (U & k & K & P). split; [exact U|]. exists k. split; [|exact P].
        rewrite E2. rewrite (loop_other _ _ _ _ _ _ LS); [exact K|]. intros ->. congruence. }
      destruct inp as [ce| |se]; [injection X as <- <-; now apply SAME..|].
      destruct (limited ka) as [l'|] eqn:LK; [|injection X as <- <-; now apply SAME].
      destruct (d_lims st l') as [s1|] eqn:D1; destruct (v_more se) as [b|] eqn:VM; try discriminate; [|injection X as <- <-; now apply SAME].
      destruct (L.l_ph s1 a) as [|j| |] eqn:PH; try discriminate; destruct b; try discriminate; [|injection X as <- <-; now apply SAME].
      destruct (L.lstep s1 a _) as [s2|] eqn:S2; [|discriminate]. injection X as <- <-.
      intros b B. cbn [d_busy d_loop] in *. destruct (calls_affected e1) eqn:CA; [|apply SAME; auto].
      destruct (Nat.eq_dec a i) as [->|N].
      2:{ rewrite natupd_other in B by auto. destruct (C _ B) as (U & k & K & P). split; [exact U|]. exists k. split; [|exact P].
          rewrite (loop_other _ _ _ _ _ _ LS); auto. }
      rewrite natupd_same in B. injection B as <-. split; [eapply limited_used; eauto|].
      destruct (stmt_limited _ _ LK) as (m & s & PC & NS & ID & RS & LM).
      unfold loop_step in LS. rewrite KA, PC in LS. cbn [cstep] in LS.
      destruct (exec_stmt (l_c ka) (l_st ka) m se) as [[st2 e2] nx] eqn:EX.
      destruct (exec_affected _ _ _ _ _ _ _ _ _ EX NS ID RS LM) as (_ & _ & A).
      destruct nx as [| |sp]; (destruct (set_nth _ _ _) eqn:SN; [|discriminate]); injection LS as <- <-; cbn [l_cls];
        rewrite (LimitProofs.set_nth_same _ _ _ _ SN); eexists; (split; [reflexivity|]); cbn [l_pc].
      + unfold stmt_pc. destruct (_ <? _)%nat; discriminate.
      + discriminate.
      + exfalso. specialize (A _ eq_refl). assert (Z : calls_affected (e2 ++ finish st2 sp) = false); [|congruence].
        unfold calls_affected in *. rewrite existsb_app, A. unfold finish. destruct (s_conn st2); reflexivity.
    - destruct (load_count st a) as [st1|] eqn:X; [|discriminate]. injection H as <- <-. unfold load_count in X.
      destruct (d_busy st a) as [l'|] eqn:BA; [|discriminate]. destruct (d_lims st l') as [s1|] eqn:D1; [|discriminate].
      destruct (L.lstep s1 a L.LAffected) as [s2|] eqn:S2; [|discriminate]. injection X as <-.
      intros b B. cbn [d_busy d_loop] in *. apply C. destruct (L.l_ph s2 a); auto.
      destruct (Nat.eq_dec a i) as [->|N]; [rewrite natupd_same in B; discriminate|now rewrite natupd_other in B by auto].
  Qed.

  (** ** No client is blocked *)

  Lemma loop_goes (st : lst V) i k : nth_error (l_cls st) i = Some k ->
    match l_pc k with
    | PcStart => forall ce, loop_step st i (LConnect ce) <> None
    | PcIter => loop_step st i LCheck <> None
    | PcStmt _ => forall se, loop_step st i (LStmt se) <> None
    | PcDone => True
    end.
  Proof.
    intros K. assert (LT : (i < length (l_cls st))%nat) by (apply nth_error_Some; congruence).
    assert (SN : forall x, exists l', set_nth (l_cls st) i x = Some l') by (intros x; now apply set_nth_some).
    unfold loop_step. rewrite K. destruct (l_pc k) as [| |m|]; cbn [cstep]; [| | |exact I].
    - intros ce. destruct (connect _ _ _ _) as [[s1 e1] []].
      1: destruct (SN (LCl (l_c k) s1 PcIter 0)) as (x & ->); discriminate.
      all: destruct (SN (LCl (l_c k) s1 PcDone 0)) as (x & ->); discriminate.
    - destruct (loop_check (l_cnt st) k) as [cnt [[|]|]]; match goal with |- match set_nth _ _ ?y with _ => _ end <> None => destruct (SN y) as (x & ->); discriminate end.
    - intros se. destruct (exec_stmt _ _ _ _) as [[s1 e1] [| |sp]]; match goal with |- match set_nth _ _ ?y with _ => _ end <> None => destruct (SN y) as (x & ->); discriminate end.
  Qed.

  Lemma flows_go st i k : fits cs st -> flows st i -> measured st -> counting st i ->
    nth_error (l_cls (d_loop st)) i = Some k -> l_pc k <> PcDone -> can_go st i.
  Proof.
    intros FT F ME C K P. pose proof (loop_goes _ _ _ K) as G. destruct (F k K P) as (F1 & F2).
    destruct (d_busy st i) as [b|] eqn:B.
    - right. right. right. right. destruct (d_lims st b) as [s|] eqn:D; [|destruct (F1 _ eq_refl D)]. specialize (F2 _ _ D). cbn in F2. rewrite Nat.eqb_refl in F2.
      destruct F2 as (w & j & PH & J). cbn [load_step]. unfold load_count. rewrite B, D. unfold L.lstep. rewrite PH.
      destruct (nth_error (L.l_leaves s) j) as [lf|] eqn:NJ; [|discriminate].
      destruct (set_nth_some (L.l_leaves s) j (L.leaf_affected w lf)) as (ls & ->); [apply nth_error_Some; congruence|discriminate].
    - destruct (l_pc k) as [| |m|] eqn:PC; [| | |congruence].
      + left. intros ce w. cbn [load_step]. unfold load_loop. rewrite K, B. specialize (G ce). destruct (loop_step _ _ _) as [[? ?]|]; [discriminate|congruence].
      + right. left. intros w. cbn [load_step]. unfold load_loop. rewrite K, B. destruct (loop_step _ _ _) as [[? ?]|]; [discriminate|congruence].
      + right. right. destruct (limited k) as [l|] eqn:LK.
        2:{ right. left. exists None. intros se w _. cbn [load_step]. unfold load_loop. rewrite K, B, LK. specialize (G se). destruct (loop_step _ _ _) as [[? ?]|]; [discriminate|congruence]. }
        destruct (d_lims st l) as [s|] eqn:D.
        2:{ right. left. exists None. intros se w VM. cbn [load_step]. unfold load_loop. rewrite K, B, LK, D, VM. specialize (G se). destruct (loop_step _ _ _) as [[? ?]|]; [discriminate|congruence]. }
        specialize (F2 _ _ D). cbn in F2. unfold limited_by in F2. rewrite LK, Nat.eqb_refl in F2.
        assert (CHECK : forall j s1, L.l_ph s1 i = L.LCheck j -> (j < length (L.l_leaves s1))%nat -> forall c, L.lstep s1 i (L.LMore c) <> None).
        { intros j s1 PH J c. unfold L.lstep. rewrite PH. destruct (nth_error (L.l_leaves s1) j) as [lf|] eqn:NJ; [|apply nth_error_None in NJ; lia].
          destruct (L.leaf_more c lf) as [lf' b]. destruct (set_nth_some (L.l_leaves s1) j lf' J) as (ls & ->). discriminate. }
        destruct (ME l s (limited_used _ _ _ _ FT K LK) D) as [NE _].
        destruct F2 as [PH|[PH|(j & PH & J)]].
        * left. intros c. cbn [load_step]. unfold load_check. rewrite K, B, LK, D, PH.
          destruct (L.lstep s i L.LStart) as [s1|] eqn:S1; [|unfold L.lstep in S1; rewrite PH in S1; discriminate].
          assert (L1 := lstep_len _ _ _ _ S1). unfold L.lstep in S1. rewrite PH in S1. injection S1 as <-.
          match goal with |- context [L.lstep ?a i (L.LMore c)] => specialize (CHECK 0%nat a); destruct (L.lstep a i (L.LMore c)) eqn:S2; [discriminate|] end.
          exfalso. apply (CHECK ltac:(cbn; apply natupd_same) ltac:(cbn; lia) c S2).
        * right. left. exists (Some false). intros se w VM. cbn [load_step]. unfold load_loop. rewrite K, B, LK, D, VM, PH. specialize (G se).
          destruct (loop_step _ _ _) as [[? ?]|]; [discriminate|congruence].
        * destruct (Nat.eq_dec j (length (L.l_leaves s))) as [->|NJ].
          -- right. left. exists (Some true). intros se w VM. cbn [load_step]. unfold load_loop. rewrite K, B, LK, D, VM, PH. specialize (G se).
             destruct (loop_step _ _ _) as [[l1 e1]|]; [|congruence]. unfold L.lstep. rewrite PH, Nat.eqb_refl. destruct (executed_ok e1); discriminate.
          -- left. intros c. cbn [load_step]. unfold load_check. rewrite K, B, LK, D, PH. specialize (CHECK j s PH ltac:(lia) c).
             destruct (L.lstep s i (L.LMore c)); [discriminate|congruence].
  Qed.

  (** ** How many checks and counts there are *)

  Definition pending (st : dst V) (i : nat) : nat :=
    match d_busy st i with
    | Some b => match d_lims st b with Some s => match L.l_ph s i with L.LCount _ j => 2 * M + 1 - j | _ => 0 end | None => 0 end
    | None => match nth_error (l_cls (d_loop st)) i with
              | Some k => match limited k with
                          | Some l => match d_lims st l with
                                      | Some s => match L.l_ph s i with L.LIdle => M | L.LCheck j => M - j | _ => 0 end
                                      | None => 0 end
                          | None => 0 end
              | None => 0 end
    end.

  Lemma pending_max st i : (pending st i <= 2 * M + 1)%nat.
  Proof.
    unfold pending. destruct (d_busy st i) as [b|].
    - destruct (d_lims st b) as [s|]; [|lia]. destruct (L.l_ph s i); lia.
    - destruct (nth_error _ _) as [k|]; [|lia]. destruct (limited k) as [l|]; [|lia]. destruct (d_lims st l) as [s|]; [|lia]. destruct (L.l_ph s i); lia.
  Qed.

  Lemma pending_other (st : dst V) i a l s s' busy : a <> i -> busy i = d_busy st i -> d_lims st l = Some s -> L.l_ph s' i = L.l_ph s i ->
    forall loop, nth_error (l_cls loop) i = nth_error (l_cls (d_loop st)) i -> pending (DSt loop (natupd (d_lims st) l (Some s')) busy) i = pending st i.
  Proof.
    intros N B D PH loop LP. unfold pending. cbn [d_busy d_loop d_lims]. rewrite B, LP. clear B LP.
    assert (X : forall b, match natupd (d_lims st) l (Some s') b with Some s => Some (L.l_ph s i) | None => None end = match d_lims st b with Some s => Some (L.l_ph s i) | None => None end).
    { intros b. destruct (Nat.eq_dec l b) as [<-|NE]; [rewrite natupd_same, D, PH; reflexivity|now rewrite natupd_other by auto]. }
    destruct (d_busy st i) as [b|].
    - specialize (X b). destruct (natupd _ _ _ b), (d_lims st b); try discriminate; [injection X as ->|]; reflexivity.
    - destruct (nth_error _ _) as [k|]; [|reflexivity]. destruct (limited k) as [b|]; [|reflexivity].
      specialize (X b). destruct (natupd _ _ _ b), (d_lims st b); try discriminate; [injection X as ->|]; reflexivity.
  Qed.

  Lemma step_pending st e st' evs i : fits cs st -> flows st i -> measured st -> counting st i -> load_step (V := V) st e = Some (st', evs) ->
    ((if limit_step i e then 1 else 0) + pending st' i <= (2 * M + 1) * (if other_step i e then 1 else 0) + pending st i)%nat.
  Proof.
    intros FT F ME C H. destruct e as [a c|a inp w|a]; cbn [load_step limit_step other_step] in *.
    - destruct (load_check st a c) as [st1|] eqn:X; [|discriminate]. injection H as <- <-. unfold load_check in X.
      destruct (nth_error (l_cls (d_loop st)) a) as [ka|] eqn:KA; [|discriminate]. destruct (d_busy st a) eqn:BA; [discriminate|].
      destruct (limited ka) as [l'|] eqn:LK; [|discriminate]. destruct (d_lims st l') as [s1|] eqn:D1; [|discriminate].
      destruct (match L.l_ph s1 a with L.LIdle => L.lstep s1 a L.LStart | _ => Some s1 end) as [s2|] eqn:S2; [|discriminate].
      destruct (L.lstep s2 a (L.LMore c)) as [s3|] eqn:S3; [|discriminate]. injection X as <-.
      destruct (ME l' s1 (limited_used _ _ _ _ FT KA LK) D1) as [N1 N2].
      destruct (Nat.eqb_spec a i) as [->|N].
      + unfold pending. cbn [d_busy d_loop d_lims]. rewrite BA, KA, LK, natupd_same, D1.
        assert (L2 : length (L.l_leaves s2) = length (L.l_leaves s1)) by (destruct (L.l_ph s1 i); try (injection S2 as <-; reflexivity); eapply lstep_len; eauto).
        assert (P2 : exists j, L.l_ph s2 i = L.LCheck j /\ (L.l_ph s1 i = L.LIdle /\ j = 0 \/ L.l_ph s1 i = L.LCheck j)%nat).
        { unfold L.lstep in S3. destruct (L.l_ph s2 i) as [|j| |] eqn:P2; try discriminate. exists j. split; [reflexivity|].
          destruct (L.l_ph s1 i) as [|j1| |] eqn:P1; try (injection S2 as <-; rewrite P1 in P2; try discriminate; injection P2 as ->; now right).
          left. split; [reflexivity|]. unfold L.lstep in S2. rewrite P1 in S2. injection S2 as <-. cbn [L.l_ph] in P2. rewrite natupd_same in P2. now injection P2 as <-. }
        destruct P2 as (j & P2 & P1). unfold L.lstep in S3. rewrite P2 in S3.
        destruct (nth_error (L.l_leaves s2) j) as [lf|] eqn:NJ; [|discriminate]. destruct (L.leaf_more c lf) as [lf' b].
        destruct (set_nth _ _ _); [|discriminate]. injection S3 as <-. cbn [L.l_ph]. rewrite natupd_same.
        assert (j < length (L.l_leaves s2))%nat by (apply nth_error_Some; congruence).
        destruct P1 as [[-> ->]| ->]; destruct b; lia.
      + assert (PH : L.l_ph s3 i = L.l_ph s1 i).
        { rewrite (lstep_other _ _ _ _ _ S3 N). destruct (L.l_ph s1 a); try (injection S2 as <-; reflexivity). exact (lstep_other _ _ _ _ _ S2 N). }
        rewrite (pending_other st i a l' s1 s3 (d_busy st) N eq_refl D1 PH (d_loop st) eq_refl). lia.
    - destruct (Nat.eqb_spec a i) as [->|N]; [pose proof (pending_max st' i); lia|].
      destruct (load_loop st a inp w) as [[st1 evs1]|] eqn:X; [|discriminate]. injection H as <- <-. unfold load_loop in X.
      destruct (nth_error (l_cls (d_loop st)) a) as [ka|] eqn:KA; [|discriminate]. destruct (d_busy st a) eqn:BA; [discriminate|].
      destruct (loop_step (d_loop st) a inp) as [[l1 e1]|] eqn:LS.
      2:{ repeat match type of X with context [match ?y with _ => _ end] => destruct y; try discriminate end. }
      pose proof (loop_other _ _ _ _ _ _ LS N) as LO.
      assert (SAME : forall st1, d_busy st1 = d_busy st -> d_loop st1 = l1 -> d_lims st1 = d_lims st -> (0 + pending st1 i <= (2 * M + 1) * 0 + pending st i)%nat).
      { intros st0 E1 E2 E3. unfold pending. rewrite E1, E2, E3, LO. lia. }
      destruct inp as [ce| |se]; [injection X as <- <-; now apply SAME..|].
      destruct (limited ka) as [l'|] eqn:LK; [|injection X as <- <-; now apply SAME].
      destruct (d_lims st l') as [s1|] eqn:D1; destruct (v_more se) as [b|] eqn:VM; try discriminate; [|injection X as <- <-; now apply SAME].
      destruct (L.l_ph s1 a) as [|j| |] eqn:PH; try discriminate; destruct b; try discriminate; [|injection X as <- <-; now apply SAME].
      destruct (L.lstep s1 a _) as [s2|] eqn:S2; [|discriminate]. injection X as <- <-.
      rewrite (pending_other st i a l' s1 s2); auto; [lia|destruct (calls_affected e1); [now rewrite natupd_other by auto|reflexivity]|].
      exact (lstep_other _ _ _ _ _ S2 N).
    - destruct (load_count st a) as [st1|] eqn:X; [|discriminate]. injection H as <- <-. unfold load_count in X.
      destruct (d_busy st a) as [l'|] eqn:BA; [|discriminate]. destruct (d_lims st l') as [s1|] eqn:D1; [|discriminate].
      destruct (L.lstep s1 a L.LAffected) as [s2|] eqn:S2; [|discriminate]. injection X as <-.
      destruct (Nat.eqb_spec a i) as [->|N].
      + destruct (C _ BA) as (U & k & K & P). destruct (ME l' s1 U D1) as [N1 N2]. destruct (F k K P) as (_ & F2). specialize (F2 _ _ D1).
        rewrite BA in F2. cbn in F2. rewrite Nat.eqb_refl in F2. destruct F2 as (w & j & PH & J).
        unfold pending at 2. rewrite BA, D1, PH. unfold L.lstep in S2. rewrite PH in S2.
        destruct (nth_error (L.l_leaves s1) j) as [lf|] eqn:NJ.
        * destruct (set_nth _ _ _); [|discriminate]. injection S2 as <-. cbn [L.l_ph]. rewrite natupd_same.
          unfold pending. cbn [d_busy d_lims]. rewrite BA, natupd_same. cbn [L.l_ph]. rewrite natupd_same. lia.
        * injection S2 as <-. cbn [L.l_ph]. rewrite natupd_same. unfold pending. cbn [d_busy d_lims d_loop]. rewrite natupd_same, K.
          destruct (limited k) as [b|]; [|lia]. destruct (natupd _ _ _ b) as [s|]; [|lia]. destruct (L.l_ph s i); lia.
      + rewrite (pending_other st i a l' s1 s2); auto; [lia|destruct (L.l_ph s2 a); try reflexivity; now rewrite natupd_other by auto|].
        exact (lstep_other _ _ _ _ _ S2 N).
  Qed.

  Lemma run_flows tr : forall st st' evs i, fits cs st -> flows st i -> measured st -> counting st i -> load_run (V := V) st tr = Some (st', evs) ->
    (fits cs st' /\ flows st' i /\ measured st' /\ counting st' i) /\
    (count (limit_step i) tr + pending st' i <= (2 * M + 1) * count (other_step i) tr + pending st i)%nat.
  Proof.
    induction tr as [|e tr IH]; intros st st' evs i FT F ME C H; cbn [load_run] in H.
    - injection H as <- <-. split; [auto|]. cbn. lia.
    - destruct (load_step st e) as [[st1 e1]|] eqn:S; [|discriminate]. destruct (load_run st1 tr) as [[st2 e2]|] eqn:R; [|discriminate]. injection H as <- <-.
      destruct (IH _ _ _ i (step_fits _ _ _ _ _ FT S) (step_flows _ _ _ _ _ S F) (step_measured _ _ _ _ S ME) (step_counting _ _ _ _ _ FT S C) R) as (A & B).
      split; [exact A|]. pose proof (step_pending _ _ _ _ _ FT F ME C S) as Q.
      unfold count in *. cbn [filter]. destruct (limit_step i e), (other_step i e); cbn [length]; lia.
  Qed.
  Lemma init_flows lims i : (forall l ls, used l -> lims l = Some ls -> (1 <= length ls <= M)%nat) ->
    fits cs (load_init (V := V) lims cs) /\ flows (load_init lims cs) i /\ measured (load_init lims cs) /\ counting (load_init lims cs) i /\ pending (load_init lims cs) i = 0%nat.
  Proof.
    intros H. split; [apply init_fits|]. split.
    { apply fresh_flows. split; [reflexivity|]. intros l s D. cbn in D. destruct (lims l); [|discriminate]. injection D as <-. reflexivity. }
    split. { intros l s U D. cbn in D. destruct (lims l) as [ls|] eqn:E; [|discriminate]. injection D as <-. cbn. eauto. }
    split; [intros b B; discriminate|]. unfold pending. cbn [d_busy load_init d_loop loop_init l_cls]. rewrite nth_error_map.
    destruct (nth_error cs i) as [c|]; reflexivity.
  Qed.
End Flow.
