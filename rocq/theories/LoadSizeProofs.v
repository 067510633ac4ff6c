(** Size limits of statements that clients execute: proofs about the runs of LoadModel.v. *)
From Verif Require Import Prelude ListAux ScopeModel StmtModel WorkloadModel ClientModel ClientSpec IterModel IterSpec LoopModel LoopSpec LoopProofs.
From Verif Require Import LoadModel LoadSpec LoadProofs LoadFlowProofs.
From Verif Require LimitSpec LimitProofs LimitProps PaceModel PaceProofs.

(** ** Counting *)

Lemma count_app {A} (f : A -> bool) (a b : list A) : count f (a ++ b) = (count f a + count f b)%nat.
Proof. unfold count. now rewrite filter_app, app_length. Qed.

Section Phases.
  Variable K : nat.
  Definition phases (f : L.lphase -> bool) (g : nat -> L.lphase) : nat := count (fun i => f (g i)) (seq 0 K).

  Lemma count_le {A} (f : A -> bool) (l : list A) : (count f l <= length l)%nat.
  Proof. unfold count. induction l as [|x l IH]; cbn; [lia|]. destruct (f x); cbn; lia. Qed.
  Lemma phases_le f g : (phases f g <= K)%nat.
  Proof. unfold phases. pose proof (count_le (fun i => f (g i)) (seq 0 K)). rewrite seq_length in H. exact H. Qed.

  Lemma phases_upd f g i v : (i < K)%nat ->
    (phases f (natupd g i v) + (if f (g i) then 1 else 0) = phases f g + (if f v then 1 else 0))%nat.
  Proof.
    unfold phases. intros H.
    assert (X : forall n a, (count (fun j => f (natupd g i v j)) (seq a n) + (if (a <=? i) && (i <? a + n) && f (g i) then 1 else 0)
                = count (fun j => f (g j)) (seq a n) + (if (a <=? i) && (i <? a + n) && f v then 1 else 0))%nat%bool).
    { induction n as [|n IH]; intros a.
      - cbn. replace ((a <=? i) && (i <? a + 0))%nat%bool with false; [reflexivity|]. symmetry. apply andb_false_iff.
        destruct (Nat.leb_spec a i); [right; apply Nat.ltb_ge; lia|now left].
      - specialize (IH (S a)). cbn [seq]. unfold count in *. cbn [filter].
        destruct (Nat.eq_dec a i) as [->|N].
        + rewrite natupd_same. replace ((S i <=? i) && (i <? S i + n))%nat%bool with false in IH by (symmetry; apply andb_false_iff; left; apply Nat.leb_gt; lia).
          replace ((i <=? i) && (i <? i + S n))%nat%bool with true by (symmetry; apply andb_true_iff; split; [apply Nat.leb_le; lia|apply Nat.ltb_lt; lia]).
          cbn [andb] in *. destruct (f v), (f (g i)); cbn [length]; lia.
        + rewrite (natupd_other g i a v) by auto.
          replace ((a <=? i) && (i <? a + S n))%nat%bool with ((S a <=? i) && (i <? S a + n))%nat%bool.
          * destruct (f (g a)); cbn [length]; lia.
          * replace (a + S n)%nat with (S a + n)%nat by lia. f_equal. destruct (Nat.leb_spec a i), (Nat.leb_spec (S a) i); auto; lia. }
    specialize (X K 0%nat). cbn [Nat.leb andb Nat.add] in X. replace (i <? K)%nat with true in X by (symmetry; now apply Nat.ltb_lt). exact X.
  Qed.
  Lemma phases_idle f : f L.LIdle = false -> phases f (fun _ => L.LIdle) = 0%nat.
  Proof. intros H. unfold phases, count. rewrite H. now induction (seq 0 K). Qed.
End Phases.

Definition passed_ph (p : L.lphase) : bool := match p with L.LCheck (S _) => true | _ => false end.
Definition gone_ph (p : L.lphase) : bool := match p with L.LGone => true | _ => false end.
Definition is_write (x : nat * L.laction) : bool := match snd x with L.LExec (Some _) => true | _ => false end.

Definition is_more (x : nat * L.laction) : bool := match snd x with L.LMore _ => true | _ => false end.

Definition size_end (z : L.size) (calls : list L.conn) : L.size := fold_left (fun z c => fst (L.size_more c z)) calls z.
Lemma size_calls_split cs1 : forall z cs2, LimitSpec.size_calls z (cs1 ++ cs2) = LimitSpec.size_calls z cs1 ++ LimitSpec.size_calls (size_end z cs1) cs2.
Proof.
  induction cs1 as [|c cs1 IH]; intros z cs2; [reflexivity|]. cbn. destruct (L.size_more c z) as [z' b]. cbn. now rewrite IH.
Qed.

Lemma size_calls_length cs : forall z, length (LimitSpec.size_calls z cs) = length cs.
Proof. induction cs as [|c cs IH]; intros z; cbn; [reflexivity|]. destruct (L.size_more c z). cbn. now rewrite IH. Qed.

(** One size limit: each execution was allowed by a check, each client that is gone was refused by one. *)
Lemma size_steps K ltr : forall s s' z, LimitProps.lexec s ltr = Some s' -> L.l_leaves s = [L.LSize z] ->
  Forall (fun x => (fst x < K)%nat /\ snd x <> L.LLeave) ltr ->
  exists calls, Forall (fun c => exists i, In (i, L.LMore c) ltr) calls /\ L.l_leaves s' = [L.LSize (size_end z calls)] /\
    (count is_write ltr + phases K passed_ph (L.l_ph s') <= phases K passed_ph (L.l_ph s) + LimitSpec.count_true (LimitSpec.size_calls z calls))%nat /\
    (phases K gone_ph (L.l_ph s') = phases K gone_ph (L.l_ph s) + LimitSpec.count_false (LimitSpec.size_calls z calls))%nat /\
    length calls = count is_more ltr.
Proof.
  induction ltr as [|[i a] ltr IH]; intros s s' z H LV F; cbn [LimitProps.lexec] in H.
  - injection H as <-. exists []. repeat split; auto; cbn; lia.
  - destruct (L.lstep s i a) as [s1|] eqn:S; [|discriminate]. inversion F as [|? ? [IK NL] F' E1]; subst. cbn [fst snd] in *.
    assert (NEXT : forall z1, L.l_leaves s1 = [L.LSize z1] -> exists calls, Forall (fun c => exists i, In (i, L.LMore c) ltr) calls /\ L.l_leaves s' = [L.LSize (size_end z1 calls)] /\
      (count is_write ltr + phases K passed_ph (L.l_ph s') <= phases K passed_ph (L.l_ph s1) + LimitSpec.count_true (LimitSpec.size_calls z1 calls))%nat /\
      (phases K gone_ph (L.l_ph s') = phases K gone_ph (L.l_ph s1) + LimitSpec.count_false (LimitSpec.size_calls z1 calls))%nat /\ length calls = count is_more ltr).
    { intros z1 LV1. apply IH; auto. }
    assert (MONO : forall calls, Forall (fun c => exists i, In (i, L.LMore c) ltr) calls -> Forall (fun c => exists i0, In (i0, L.LMore c) ((i, a) :: ltr)) calls).
    { intros calls. apply Forall_impl. intros c (i0 & I). exists i0. now right. }
    assert (WR : count is_write ((i, a) :: ltr) = ((if is_write (i, a) then 1 else 0) + count is_write ltr)%nat) by (unfold count; cbn [filter]; destruct (is_write (i, a)); reflexivity).
    assert (MO : count is_more ((i, a) :: ltr) = ((if is_more (i, a) then 1 else 0) + count is_more ltr)%nat) by (unfold count; cbn [filter]; destruct (is_more (i, a)); reflexivity).
    rewrite WR, MO. clear WR MO. unfold L.lstep in S. rewrite LV in S.
    destruct (L.l_ph s i) as [|j|w j|] eqn:PH; destruct a as [|c|res| |]; try discriminate; try congruence.
    + injection S as <-. destruct (NEXT z eq_refl) as (calls & C1 & C2 & C3 & C4 & C5). cbn [L.l_ph] in C3, C4.
      pose proof (phases_upd K passed_ph (L.l_ph s) i (L.LCheck 0) IK) as U1. pose proof (phases_upd K gone_ph (L.l_ph s) i (L.LCheck 0) IK) as U2.
      rewrite PH in U1, U2. cbn in U1, U2 |- *. exists calls. repeat split; auto; lia.
    + destruct j as [|j]; cbn [nth_error] in S; [|destruct j; discriminate]. cbn [L.leaf_more] in S. destruct (L.size_more c z) as [z1 b] eqn:SM. cbn [set_nth] in S. injection S as <-.
      destruct (NEXT z1 eq_refl) as (calls & C1 & C2 & C3 & C4 & C5). cbn [L.l_ph] in C3, C4.
      exists (c :: calls). split; [constructor; [exists i; now left|auto]|].
      cbn [size_end fold_left LimitSpec.size_calls]. rewrite SM. cbn [fst]. split; [exact C2|]. unfold LimitSpec.count_true, LimitSpec.count_false in *.
      destruct b.
      * pose proof (phases_upd K passed_ph (L.l_ph s) i (L.LCheck 1) IK) as U1. pose proof (phases_upd K gone_ph (L.l_ph s) i (L.LCheck 1) IK) as U2.
        rewrite PH in U1, U2. cbn in U1, U2 |- *. repeat split; lia.
      * pose proof (phases_upd K passed_ph (L.l_ph s) i L.LGone IK) as U1. pose proof (phases_upd K gone_ph (L.l_ph s) i L.LGone IK) as U2.
        rewrite PH in U1, U2. cbn in U1, U2 |- *. repeat split; lia.
    + cbn [length] in S. destruct (Nat.eqb_spec j 1) as [->|]; [|discriminate].
      assert (X : L.l_leaves s1 = [L.LSize z] /\ exists p, L.l_ph s1 = natupd (L.l_ph s) i p /\ passed_ph p = false /\ gone_ph p = false).
      { destruct res; injection S as <-; (split; [reflexivity|]); eexists; (split; [reflexivity|]); split; reflexivity. }
      destruct X as (X & p & EP & P1 & P2). destruct (NEXT z X) as (calls & C1 & C2 & C3 & C4 & C5). rewrite EP in C3, C4.
      pose proof (phases_upd K passed_ph (L.l_ph s) i p IK) as U1. pose proof (phases_upd K gone_ph (L.l_ph s) i p IK) as U2.
      rewrite PH, P1 in U1. rewrite PH, P2 in U2. cbn [passed_ph gone_ph] in U1, U2. exists calls. split; [auto|]. split; [exact C2|]. unfold is_write at 1. cbn [snd]. split; [destruct res; lia|split; [lia|exact C5]].
    + assert (X : L.l_leaves s1 = [L.LSize z] /\ exists p, L.l_ph s1 = natupd (L.l_ph s) i p /\ passed_ph p = false /\ gone_ph p = false).
      { destruct j as [|j]; cbn [nth_error] in S; [cbn [L.leaf_affected set_nth] in S|destruct j; cbn in S]; injection S as <-; (split; [reflexivity|]); eexists; (split; [reflexivity|]); split; reflexivity. }
      destruct X as (X & p & EP & P1 & P2). destruct (NEXT z X) as (calls & C1 & C2 & C3 & C4 & C5). rewrite EP in C3, C4.
      pose proof (phases_upd K passed_ph (L.l_ph s) i p IK) as U1. pose proof (phases_upd K gone_ph (L.l_ph s) i p IK) as U2.
      rewrite PH, P1 in U1. rewrite PH, P2 in U2. cbn in U1, U2 |- *. exists calls. repeat split; auto; lia.
Qed.

(** ** What happens to one limit *)

Section One.
  Context {V : Type}.
  Notation event := (event V).
  Variable cs : list client.
  Variable l : nat.
  Notation K := (length cs).

  Lemma step_counts (st : lst V) i inp st' evs w k : nth_error (l_cls st) i = Some k -> nth_error cs i = Some (l_c k) ->
    loop_step st i inp = Some (st', evs) ->
    count (writes cs l) (map (fun ev => (i, ev, w)) evs) = (if executed_ok evs && limited_by k l then 1 else 0)%bool%nat /\
    ((exists se, inp = LStmt se) \/ executed_ok evs = false).
  Proof.
    intros HK C H. destruct (step_written cs l _ _ _ _ _ 1%Z _ HK C H) as (A & B). split; [|exact B].
    assert (X : Z.of_nat (count (writes cs l) (map (fun ev => (i, ev, w)) evs)) = rows_where (writes cs l) (map (fun ev => (i, ev, 1%Z)) evs)).
    { clear. unfold count. induction evs as [|e evs IH]; [reflexivity|]. cbn [map filter rows_where fold_right].
      assert (E : writes cs l (i, e, w) = writes cs l (i, e, 1%Z)) by reflexivity. rewrite E. destruct (writes cs l (i, e, 1%Z)); cbn [length snd]; unfold rows_where in IH; lia. }
    rewrite A in X. destruct (_ && _)%bool; lia.
  Qed.

  Definition from_tr (tr : list (devent V)) (x : nat * L.laction) : Prop :=
    (fst x < K)%nat /\ match snd x with L.LMore c => In (DCheck (fst x) c) tr | L.LLeave => False | _ => True end.

  Lemma step_project st e st' evs s : fits cs st -> load_step (V := V) st e = Some (st', evs) -> d_lims st l = Some s ->
    exists ltr s', d_lims st' l = Some s' /\ LimitProps.lexec s ltr = Some s' /\ Forall (from_tr [e]) ltr /\ count is_write ltr = count (writes cs l) evs /\ (count is_more ltr <= 1)%nat.
  Proof.
    intros (CS & BZ) H D. destruct e as [i c|i inp w|i]; cbn [load_step] in H.
    - unfold load_check in H. destruct (nth_error (l_cls (d_loop st)) i) as [k|] eqn:Hk; [|discriminate].
      assert (IK : (i < K)%nat) by (rewrite <- CS, map_length; apply nth_error_Some; congruence).
      destruct (d_busy st i); [discriminate|]. destruct (limited k) as [l'|]; [|discriminate].
      destruct (d_lims st l') as [s1|] eqn:D1; [|discriminate].
      destruct (match L.l_ph s1 i with L.LIdle => L.lstep s1 i L.LStart | _ => Some s1 end) as [s2|] eqn:S2; [|discriminate].
      destruct (L.lstep s2 i (L.LMore c)) as [s3|] eqn:S3; [|discriminate]. injection H as <- <-. cbn [d_loop d_lims].
      destruct (Nat.eq_dec l' l) as [->|N].
      + rewrite natupd_same. rewrite D in D1. injection D1 as <-.
        assert (X : exists pre, LimitProps.lexec s pre = Some s2 /\ Forall (from_tr [DCheck i c]) pre /\ count is_write pre = 0%nat /\ count is_more pre = 0%nat).
        { destruct (L.l_ph s i); try (injection S2 as <-; exists []; repeat split; constructor).
          exists [(i, L.LStart)]. cbn [LimitProps.lexec]. rewrite S2. repeat split; auto. repeat constructor. exact IK. }
        destruct X as (pre & X1 & X2 & X3 & X4). exists (pre ++ [(i, L.LMore c)]), s3. split; [reflexivity|]. split.
        { clear - X1 S3. revert s X1. induction pre as [|[t a] pre IH]; intros s X1; cbn [LimitProps.lexec app] in *; [injection X1 as ->; now rewrite S3|].
          destruct (L.lstep s t a); [auto|discriminate]. }
        split; [apply Forall_app; split; [exact X2|]; constructor; [|constructor]; split; [exact IK|now left]|]. rewrite !count_app, X3, X4. split; [reflexivity|cbn; lia].
      + rewrite natupd_other by auto. exists [], s. repeat split; auto; cbn; lia.
    - unfold load_loop in H. destruct (nth_error (l_cls (d_loop st)) i) as [k|] eqn:Hk; [|discriminate].
      assert (IK : (i < K)%nat) by (rewrite <- CS, map_length; apply nth_error_Some; congruence).
      assert (CI : nth_error cs i = Some (l_c k)) by (rewrite <- CS, nth_error_map, Hk; reflexivity).
      destruct (d_busy st i); [discriminate|].
      (* steps that leave the limits alone *)
      assert (OTHER : forall l1 evs1 busy, loop_step (d_loop st) i inp = Some (l1, evs1) -> (executed_ok evs1 && limited_by k l = false)%bool ->
          exists ltr s', d_lims (DSt l1 (d_lims st) busy) l = Some s' /\ LimitProps.lexec s ltr = Some s' /\ Forall (from_tr [DLoop i inp w]) ltr /\
            count is_write ltr = count (writes cs l) (map (fun ev => (i, ev, w)) evs1) /\ (count is_more ltr <= 1)%nat).
      { intros l1 evs1 busy LS NX. exists [], s. split; [exact D|]. split; [reflexivity|]. split; [constructor|].
        destruct (step_counts _ _ _ _ _ w _ Hk CI LS) as (-> & _). rewrite NX. split; [reflexivity|cbn; lia]. }
      destruct inp as [ce| |se].
      1,2: destruct (loop_step (d_loop st) i _) as [[l' evs0]|] eqn:LS; [|discriminate]; injection H as <- <-;
        apply OTHER; [reflexivity|]; destruct (step_counts _ _ _ _ _ w _ Hk CI LS) as (_ & [(se & X)|X]); [discriminate|now rewrite X].
      destruct (limited k) as [l'|] eqn:LK.
      2:{ destruct (loop_step (d_loop st) i _) as [[l' evs0]|] eqn:LS; [|discriminate]; injection H as <- <-.
          apply OTHER; [reflexivity|]. unfold limited_by. rewrite LK. apply andb_false_r. }
      destruct (d_lims st l') as [s1|] eqn:D1; destruct (v_more se) as [b|] eqn:VM; try discriminate.
      + destruct (L.l_ph s1 i) as [|j| |] eqn:PH; try discriminate; destruct b; try discriminate.
        * destruct (loop_step (d_loop st) i (LStmt se)) as [[l1 evs0]|] eqn:LS; [|discriminate].
          destruct (L.lstep s1 i _) as [s2|] eqn:S2; [|discriminate]. injection H as <- <-. cbn [d_loop d_lims].
          destruct (step_counts _ _ _ _ _ w _ Hk CI LS) as (WR & _). rewrite WR. unfold limited_by. rewrite LK.
          destruct (Nat.eqb_spec l' l) as [->|N].
          -- rewrite natupd_same. rewrite D in D1. injection D1 as <-.
             exists [(i, L.LExec (if executed_ok evs0 then Some w else None))], s2. split; [reflexivity|]. cbn [LimitProps.lexec]. rewrite S2.
             split; [reflexivity|]. split; [repeat constructor; exact IK|]. unfold count. cbn [filter]. unfold is_write, is_more. cbn [snd]. destruct (executed_ok evs0); split; cbn; lia.
          -- rewrite natupd_other by auto. rewrite andb_false_r. exists [], s. repeat split; auto; cbn; lia.
        * destruct (loop_step (d_loop st) i (LStmt se)) as [[l1 evs0]|] eqn:LS; [|discriminate]; injection H as <- <-.
          apply OTHER; [reflexivity|]. replace (executed_ok evs0) with false; [reflexivity|]. symmetry. eapply refused_no_exec; eauto.
      + destruct (loop_step (d_loop st) i (LStmt se)) as [[l1 evs0]|] eqn:LS; [|discriminate]; injection H as <- <-.
        apply OTHER; [reflexivity|]. unfold limited_by. rewrite LK. destruct (Nat.eqb_spec l' l) as [->|N]; [congruence|apply andb_false_r].
    - unfold load_count in H. destruct (d_busy st i) as [l'|] eqn:B; [|discriminate]. destruct (d_lims st l') as [s1|] eqn:D1; [|discriminate].
      destruct (L.lstep s1 i L.LAffected) as [s2|] eqn:S2; [|discriminate]. injection H as <- <-. cbn [d_loop d_lims].
      destruct (Nat.eq_dec l' l) as [->|N].
      + rewrite natupd_same. rewrite D in D1. injection D1 as <-. exists [(i, L.LAffected)], s2. cbn [LimitProps.lexec]. rewrite S2. repeat split; auto.
        repeat constructor. eapply BZ; eauto.
      + rewrite natupd_other by auto. exists [], s. repeat split; auto; cbn; lia.
  Qed.

  Lemma load_project tr : forall st st' evs s, fits cs st -> load_run (V := V) st tr = Some (st', evs) -> d_lims st l = Some s ->
    exists ltr s', d_lims st' l = Some s' /\ LimitProps.lexec s ltr = Some s' /\ Forall (from_tr tr) ltr /\ count is_write ltr = count (writes cs l) evs /\ (count is_more ltr <= length tr)%nat.
  Proof.
    induction tr as [|e tr IH]; intros st st' evs s F H D; cbn [load_run] in H.
    - injection H as <- <-. exists [], s. repeat split; auto; cbn; lia.
    - destruct (load_step st e) as [[st1 e1]|] eqn:S; [|discriminate]. destruct (load_run st1 tr) as [[st2 e2]|] eqn:R; [|discriminate].
      injection H as <- <-. destruct (step_project _ _ _ _ _ F S D) as (t1 & s1 & D1 & X1 & F1 & C1 & N1).
      destruct (IH _ _ _ _ (step_fits _ _ _ _ _ F S) R D1) as (t2 & s2 & D2 & X2 & F2 & C2 & N2).
      exists (t1 ++ t2), s2. split; [exact D2|]. split.
      { clear - X1 X2. revert s X1. induction t1 as [|[t a] t1 IH]; intros s X1; cbn [LimitProps.lexec app] in *; [injection X1 as ->; exact X2|].
        destruct (L.lstep s t a); [auto|discriminate]. }
      split; [|rewrite !count_app, C1, C2; split; [reflexivity|cbn [length]; lia]]. apply Forall_app. split.
      + eapply Forall_impl; [|exact F1]. intros [t a] (A & B). split; [exact A|]. cbn [fst snd] in *. destruct a; auto. destruct B as [->|[]]. now left.
      + eapply Forall_impl; [|exact F2]. intros [t a] (A & B). split; [exact A|]. cbn [fst snd] in *. destruct a; auto. now right.
  Qed.

  Lemma from_basic tr ltr : Forall (from_tr tr) ltr -> Forall (fun x => (fst x < K)%nat /\ snd x <> L.LLeave) ltr.
  Proof. apply Forall_impl. intros [t a] (A & B). split; [exact A|]. cbn in *. now destruct a. Qed.
  Lemma from_calls tr ltr calls : Forall (from_tr tr) ltr -> Forall (fun c => exists i, In (i, L.LMore c) ltr) calls -> forall c, In c calls -> exists i, In (DCheck i c) tr.
  Proof. intros F C c I. rewrite Forall_forall in F, C. destruct (C c I) as (i & J). destruct (F _ J) as (_ & X). exists i. exact X. Qed.

  (** A table of a size limit has reached its size when [tr2] starts. *)
  Lemma size_load lims max db tbl tr1 (st1 : dst V) evs1 tr2 st2 evs2 : lims l = Some [L.LSize (L.new_size max "" tbl)] ->
    load_run (load_init lims cs) tr1 = Some (st1, evs1) -> load_run st1 tr2 = Some (st2, evs2) ->
    (forall i c, In (DCheck i c) (tr1 ++ tr2) -> LimitSpec.mysql c /\ forall d, L.q_database c = Some d -> d = db) ->
    (forall i c b, In (DCheck i c) tr2 -> L.q_bytes c (LimitSpec.table_query db tbl) = Some b -> (max <= b)%N) ->
    (N.of_nat (count (writes cs l) evs2) <= N.of_nat K + (L.z_m (L.new_size max "" tbl) - 1) * (N.of_nat K + 1))%N.
  Proof.
    intros LM R1 R2 Q B.
    assert (D0 : d_lims (load_init (V := V) lims cs) l = Some (L.linit [L.LSize (L.new_size max "" tbl)])) by (cbn; now rewrite LM).
    destruct (load_project _ _ _ _ _ (init_fits _ _) R1 D0) as (t1 & s1 & D1 & X1 & F1 & C1 & N1).
    destruct (load_project _ _ _ _ _ (load_fits _ _ _ _ _ (init_fits _ _) R1) R2 D1) as (t2 & s2 & D2 & X2 & F2 & C2 & N2).
    destruct (size_steps K _ _ _ _ X1 eq_refl (from_basic _ _ F1)) as (c1 & A1 & A2 & A3 & A4 & A5).
    destruct (size_steps K _ _ _ _ X2 A2 (from_basic _ _ F2)) as (c2 & B1 & B2 & B3 & B4 & B5).
    pose proof (from_calls _ _ _ F1 A1) as I1. pose proof (from_calls _ _ _ F2 B1) as I2.
    destruct (LimitProps.C18_stops_soon max db tbl c1 c2) as (_ & LE).
    { intros c I. apply in_app_or in I as [I|I]; [destruct (I1 c I) as (i & J)|destruct (I2 c I) as (i & J)]; apply (Q i c); apply in_or_app; auto. }
    { intros c b I HB. destruct (I2 c I) as (i & J). eapply B; eauto. }
    assert (SK : skipn (length c1) (LimitSpec.size_calls (L.new_size max "" tbl) (c1 ++ c2)) = LimitSpec.size_calls (size_end (L.new_size max "" tbl) c1) c2).
    { rewrite size_calls_split.
      rewrite <- (size_calls_length c1 (L.new_size max "" tbl)) at 1. now rewrite skipn_app, skipn_all, Nat.sub_diag. }
    rewrite SK in LE. pose proof (phases_le K gone_ph (L.l_ph s2)) as GL. pose proof (phases_le K passed_ph (L.l_ph s1)) as PL.
    rewrite <- C2. set (T := LimitSpec.count_true _) in *. set (Fa := LimitSpec.count_false (LimitSpec.size_calls (size_end _ c1) c2)) in *.
    assert ((L.z_m (L.new_size max "" tbl) - 1) * (N.of_nat Fa + 1) <= (L.z_m (L.new_size max "" tbl) - 1) * (N.of_nat K + 1))%N by (apply N.mul_le_mono_l; lia).
    lia.
  Qed.

  (** A client is refused by a size limit only if the database said so or could not be asked. *)
  Lemma size_gone lims max db tbl tr (st : dst V) evs s i : lims l = Some [L.LSize (L.new_size max "" tbl)] ->
    load_run (load_init lims cs) tr = Some (st, evs) -> d_lims st l = Some s -> L.l_ph s i = L.LGone ->
    (forall i c, In (DCheck i c) tr -> LimitSpec.mysql c /\ forall d, L.q_database c = Some d -> d = db) ->
    exists i c, In (DCheck i c) tr /\
      (L.q_database c = None \/ L.q_exec c ("ANALYZE TABLE " ++ tbl)%string = false \/ L.q_bytes c (LimitSpec.table_query db tbl) = None \/
       exists b, L.q_bytes c (LimitSpec.table_query db tbl) = Some b /\ (max <= b)%N).
  Proof.
    intros LM R D PH Q.
    assert (D0 : d_lims (load_init (V := V) lims cs) l = Some (L.linit [L.LSize (L.new_size max "" tbl)])) by (cbn; now rewrite LM).
    destruct (load_project _ _ _ _ _ (init_fits _ _) R D0) as (t1 & s1 & D1 & X1 & F1 & C1 & N1). rewrite D in D1. injection D1 as <-.
    destruct (size_steps K _ _ _ _ X1 eq_refl (from_basic _ _ F1)) as (calls & A1 & A2 & A3 & A4 & A5).
    pose proof (from_calls _ _ _ F1 A1) as I1. cbn [L.linit L.l_ph] in A4. rewrite phases_idle in A4 by reflexivity. cbn [Nat.add] in A4.
    assert (IK : (i < K)%nat).
    { assert (X : forall t s s', LimitProps.lexec s t = Some s' -> Forall (fun x => (fst x < K)%nat /\ snd x <> L.LLeave) t -> ~ (i < K)%nat -> L.l_ph s' i = L.l_ph s i).
      { clear. induction t as [|[j a] t IH]; intros s s' H F N; cbn in H; [now injection H as <-|]. destruct (L.lstep s j a) as [s1|] eqn:S; [|discriminate].
        inversion F as [|? ? [A _] F']; subst. cbn in A. rewrite (IH _ _ H F' N). apply (lstep_other _ _ _ _ _ S). lia. }
      destruct (Nat.lt_ge_cases i K) as [|GE]; [assumption|]. exfalso. rewrite (X _ _ _ X1 (from_basic _ _ F1)) in PH by lia. discriminate. }
    assert (G1 : (1 <= phases K gone_ph (L.l_ph s))%nat).
    { pose proof (phases_upd K gone_ph (L.l_ph s) i L.LIdle IK) as U. rewrite PH in U. cbn in U. lia. }
    assert (NF : exists n, nth_error (LimitSpec.size_calls (L.new_size max "" tbl) calls) n = Some false).
    { rewrite A4 in G1. unfold LimitSpec.count_false in G1. destruct (filter negb _) as [|b bs] eqn:FL; [cbn in G1; lia|].
      assert (IN : In b (filter negb (LimitSpec.size_calls (L.new_size max "" tbl) calls))) by (rewrite FL; now left).
      apply filter_In in IN as [IN NB]. destruct b; [discriminate|]. now apply In_nth_error in IN. }
    destruct NF as (n & NF).
    assert (NC : exists c, nth_error calls n = Some c).
    { assert (n < length calls)%nat by (rewrite <- (size_calls_length calls (L.new_size max "" tbl)); apply nth_error_Some; congruence).
      destruct (nth_error calls n) eqn:E; [eauto|]. apply nth_error_None in E. lia. }
    destruct NC as (c & NC).
    destruct (LimitProps.C18_not_early max db tbl calls n c) as [(m & cm & _ & NM & X)|X]; auto.
    { intros c0 I. destruct (I1 c0 I) as (i0 & J). eauto. }
    - destruct (I1 cm (nth_error_In _ _ NM)) as (i0 & J). exists i0, cm. auto.
    - destruct (I1 c (nth_error_In _ _ NC)) as (i0 & J). exists i0, c. auto.
  Qed.

  (** A limit of a database refuses every m-th check, whatever the database holds. *)
  Lemma periodic m bs : (0 < m)%N -> forall n0, (forall i b, nth_error bs i = Some b -> b = negb ((n0 + N.of_nat i + 1) mod m =? 0)%N) ->
    (N.of_nat (LimitSpec.count_true bs) + n0 mod m <= (m - 1) * (N.of_nat (LimitSpec.count_false bs) + 1))%N.
  Proof.
    intros M0. unfold LimitSpec.count_true, LimitSpec.count_false. induction bs as [|b bs IH]; intros n0 H.
    - cbn. pose proof (N.mod_lt n0 m). lia.
    - assert (B := H 0%nat b eq_refl). cbn [N.of_nat] in B. rewrite N.add_0_r in B. specialize (IH (n0 + 1)%N).
      assert (IH' : forall i b, nth_error bs i = Some b -> b = negb ((n0 + 1 + N.of_nat i + 1) mod m =? 0)%N).
      { intros i b' E. rewrite (H (S i) b' E). do 3 f_equal. lia. }
      specialize (IH IH'). cbn [filter]. pose proof (N.mod_lt n0 m ltac:(lia)) as LT.
      assert (NX : ((n0 + 1) mod m = if n0 mod m + 1 =? m then 0 else n0 mod m + 1)%N).
      { rewrite (N.div_mod n0 m) at 1 by lia. rewrite <- N.add_assoc, (N.mul_comm m), N.add_comm, N.mod_add by lia.
        destruct (N.eqb_spec (n0 mod m + 1) m) as [->|NE]; [now rewrite N.mod_same by lia|apply N.mod_small; lia]. }
      rewrite NX in *. destruct (N.eqb_spec (n0 mod m + 1) m) as [E|NE].
      + subst b. cbn [N.eqb negb filter length]. rewrite Nat2N.inj_succ. nia.
      + destruct b; [|exfalso; symmetry in B; apply negb_false_iff, N.eqb_eq in B; lia]. cbn [negb length]. lia.
  Qed.

  Lemma database_load lims max db tr (st : dst V) evs : lims l = Some [L.LSize (L.new_size max db "")] -> db <> ""%string ->
    load_run (load_init lims cs) tr = Some (st, evs) -> (N.of_nat (length tr) < 2 ^ 64)%N ->
    (forall i c, In (DCheck i c) tr -> LimitSpec.mysql c /\ L.q_tables c <> None) ->
    (N.of_nat (count (writes cs l) evs) <= (L.z_m (L.new_size max db "") - 1) * (N.of_nat K + 1))%N.
  Proof.
    intros LM DB R LN Q.
    assert (D0 : d_lims (load_init (V := V) lims cs) l = Some (L.linit [L.LSize (L.new_size max db "")])) by (cbn; now rewrite LM).
    destruct (load_project _ _ _ _ _ (init_fits _ _) R D0) as (t1 & s1 & D1 & X1 & F1 & C1 & N1).
    destruct (size_steps K _ _ _ _ X1 eq_refl (from_basic _ _ F1)) as (c1 & A1 & A2 & A3 & A4 & A5).
    pose proof (from_calls _ _ _ F1 A1) as I1. rewrite <- C1. cbn [L.linit L.l_ph] in A3, A4. rewrite phases_idle in A3, A4 by reflexivity.
    pose proof (phases_le K gone_ph (L.l_ph s1)) as GL.
    set (m := L.z_m (L.new_size max db "")) in *.
    assert (M0 : (0 < m)%N) by (unfold m; cbn; destruct (N.leb_spec 107374182400 max), (N.leb_spec max 1073741824); lia).
    pose proof (periodic m (LimitSpec.size_calls (L.new_size max db "") c1) M0 0%N) as PE.
    assert (NT : forall i b, nth_error (LimitSpec.size_calls (L.new_size max db "") c1) i = Some b -> b = negb ((0 + N.of_nat i + 1) mod m =? 0)%N).
    { intros i b NB. assert (IL : (i < length c1)%nat) by (rewrite <- (size_calls_length c1 (L.new_size max db "")); apply nth_error_Some; congruence).
      rewrite (LimitProps.C19_always_stops_partial max db c1 i DB) in NB; [injection NB as <-; reflexivity| | | |exact IL].
      - lia.
      - apply Forall_forall. intros c I. destruct (I1 c I) as (i0 & J). apply (Q i0 c J).
      - intros c I. destruct (I1 c I) as (i0 & J). apply (Q i0 c J). }
    specialize (PE NT). rewrite N.mod_0_l in PE by lia. set (T := LimitSpec.count_true _) in *. set (Fa := LimitSpec.count_false _) in *.
    assert ((m - 1) * (N.of_nat Fa + 1) <= (m - 1) * (N.of_nat K + 1))%N by (apply N.mul_le_mono_l; lia). lia.
  Qed.
End One.
