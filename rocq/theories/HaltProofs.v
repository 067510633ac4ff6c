(** C131: a stage whose contexts are done: proofs. *)
From Verif Require Import Prelude ListAux ScopeModel StmtModel WorkloadModel ClientModel ClientSpec IterModel IterSpec LoopModel LoopSpec LoopProofs WholeModel WholeSpec WholeProofs HaltSpec.
From Verif Require Import ClientProofs.
From Verif Require StageModel StageProps StopProps LimitProofs.
#[local] Open Scope list_scope.

Section Client.
  Context {V : Type} (c : client).
  Lemma stop_kind (st : cst V) pc inp st' pc' evs : cstep c st pc inp = Some (st', pc', evs) -> StopProps.after_done inp ->
    StopProps.few evs true /\
    (pc' = PcDone \/ evs = [] /\ pc' = stmt_pc c 0 /\ pc = PcIter \/
     evs = [] /\ exists i s, pc = PcStmt i /\ nth_error (c_stmts c) i = Some s /\ is_idle s = true /\ pc' = stmt_pc c (S i)).
  Proof.
    intros E A. assert (F0 : StopProps.few (V := V) [] true) by (split; [constructor|cbn; lia]).
    apply step_inv in E. inversion E; subst.
    - match goal with H : connect _ _ _ _ = _ |- _ => unfold connect in H; cbn in A; rewrite A in H; injection H as <- <- <- end.
      split; [|now left]. cbn [app]. split.
      + apply Forall_forall. intros e I. now apply StopProps.finish_effect in I.
      + rewrite StopProps.execs_none; [cbn; lia|]. intros e I. now apply StopProps.finish_effect in I.
    - split; [|now left]. split.
      + apply Forall_forall. intros e I. now apply StopProps.finish_effect in I.
      + rewrite StopProps.execs_none; [cbn; lia|]. intros e I. now apply StopProps.finish_effect in I.
    - split; [exact F0|]. right. left. auto.
    - match goal with H : exec_case _ _ _ _ _ _ _ |- _ => destruct (StopProps.exec_after _ _ _ _ _ _ _ H A) as [(s1 & N & ID & -> & -> & ->)|[(s1 & ->) FW]] end.
      + split; [exact F0|]. right. right. split; [reflexivity|]. eauto 10.
      + split; [apply FW|now left].
  Qed.

  (** A bound on the steps left, with [q] the number of a query. *)
  Definition left_of (q : nat) (pc : cpc) (chk : nat) : nat :=
    match pc with
    | PcStart => 1
    | PcIter => q + 2 + (2 - chk)
    | PcStmt i => if (i <=? q)%nat then q - i + 1 else length (c_stmts c) - i + (q + 4)
    | PcDone => 0
    end.
  Lemma left_max q pc chk : (q < length (c_stmts c))%nat -> (left_of q pc chk <= length (c_stmts c) + 3)%nat.
  Proof. intros Q. destruct pc; cbn [left_of]; try lia. destruct (Nat.leb_spec i q); lia. Qed.
  Lemma left_less q s (st : cst V) pc inp st' pc' evs chk : nth_error (c_stmts c) q = Some s -> is_idle s = false ->
    cstep c st pc inp = Some (st', pc', evs) -> StopProps.after_done inp -> (left_of q pc' 0 < left_of q pc chk)%nat.
  Proof.
    intros HQ HI E A. assert (QL : (q < length (c_stmts c))%nat) by (apply nth_error_Some; congruence).
    destruct (stop_kind _ _ _ _ _ _ E A) as (_ & [->|[(_ & -> & ->)|(_ & i & s1 & -> & N & ID & ->)]]).
    - cbn [left_of]. apply step_inv in E. inversion E; subst; cbn [left_of]; try lia. destruct (Nat.leb_spec i q); lia.
    - unfold stmt_pc. replace (0 <? length (c_stmts c))%nat with true by (symmetry; apply Nat.ltb_lt; lia). cbn [left_of]. destruct (Nat.leb_spec 0 q); lia.
    - assert (IL : (i < length (c_stmts c))%nat) by (apply nth_error_Some; congruence). assert (i <> q) by (intros ->; congruence).
      unfold stmt_pc. destruct (Nat.ltb_spec (S i) (length (c_stmts c))); cbn [left_of].
      + destruct (Nat.leb_spec (S i) q), (Nat.leb_spec i q); lia.
      + destruct (Nat.leb_spec i q); lia.
  Qed.
End Client.

Section Loop.
  Context {V : Type}.
  Definition kleft (q : nat) (k : lcl V) : nat := left_of (l_c k) q (l_pc k) (l_chk k).
  Lemma loop_saw (st : lst V) j inp st' evs : loop_step st j inp = Some (st', evs) -> saw inp ->
    exists k k', nth_error (l_cls st) j = Some k /\ set_nth (l_cls st) j k' = Some (l_cls st') /\ l_c k' = l_c k /\
      StopProps.few evs true /\ (evs = [] \/ l_pc k' = PcDone) /\ l_pc k <> PcDone /\
      forall q s, nth_error (c_stmts (l_c k)) q = Some s -> is_idle s = false -> (kleft q k' < kleft q k)%nat.
  Proof.
    intros H SW. assert (F0 : StopProps.few (V := V) [] true) by (split; [constructor|cbn; lia]).
    assert (STEP : forall k ci s pc (ev : list (event V)), cstep (l_c k) (l_st k) (l_pc k) ci = Some (s, pc, ev) -> StopProps.after_done ci ->
      StopProps.few ev true /\ (ev = [] \/ pc = PcDone) /\ l_pc k <> PcDone /\
      forall q s0, nth_error (c_stmts (l_c k)) q = Some s0 -> is_idle s0 = false -> (kleft q (LCl (l_c k) s pc 0) < kleft q k)%nat).
    { intros k ci s pc ev E A. destruct (stop_kind _ _ _ _ _ _ _ E A) as (F & D). split; [exact F|]. split; [|split].
      - destruct D as [->|[(-> & _)|(-> & _)]]; auto.
      - intros P. rewrite P in E. destruct ci; discriminate.
      - intros q s0 Q I. unfold kleft. cbn [l_c l_pc l_chk]. eapply left_less; eauto. }
    unfold loop_step in H. destruct (nth_error (l_cls st) j) as [k|] eqn:K; [|discriminate].
    destruct inp as [ce| |se].
    - destruct (cstep (l_c k) (l_st k) (l_pc k) (IConnect ce)) as [[[s pc] e]|] eqn:E; [|discriminate].
      destruct (set_nth (l_cls st) j _) as [l|] eqn:S; [|discriminate]. injection H as <- <-. destruct (STEP _ _ _ _ _ E SW) as (A & B & C & D).
      do 2 eexists. split; [reflexivity|]. split; [exact S|]. split; [reflexivity|]. auto.
    - destruct (l_pc k) eqn:P; try discriminate. destruct (loop_check (l_cnt st) k) as [cnt [[|]|]] eqn:LC.
      + destruct (cstep (l_c k) (l_st k) PcIter IGo) as [[[s pc] e]|] eqn:E; [|discriminate].
        destruct (set_nth (l_cls st) j _) as [l|] eqn:S; [|discriminate]. injection H as <- <-. rewrite <- P in E. destruct (STEP _ _ _ _ _ E Logic.I) as (A & B & C & D).
        do 2 eexists. split; [reflexivity|]. split; [exact S|]. split; [reflexivity|]. auto.
      + destruct (cstep (l_c k) (l_st k) PcIter IStop) as [[[s pc] e]|] eqn:E; [|discriminate].
        destruct (set_nth (l_cls st) j _) as [l|] eqn:S; [|discriminate]. injection H as <- <-. rewrite <- P in E. destruct (STEP _ _ _ _ _ E Logic.I) as (A & B & C & D).
        do 2 eexists. split; [reflexivity|]. split; [exact S|]. split; [reflexivity|]. auto.
      + destruct (set_nth (l_cls st) j _) as [l|] eqn:S; [|discriminate]. injection H as <- <-.
        do 2 eexists. split; [reflexivity|]. split; [exact S|]. split; [reflexivity|]. split; [exact F0|]. split; [now left|]. split; [congruence|].
        intros q s Q I. unfold kleft. rewrite P. cbn [l_c l_pc l_chk left_of]. unfold loop_check in LC. destruct (l_chk k) as [|[|m]]; [lia|lia|discriminate].
    - destruct (cstep (l_c k) (l_st k) (l_pc k) (IStmt se)) as [[[s pc] e]|] eqn:E; [|discriminate].
      destruct (set_nth (l_cls st) j _) as [l|] eqn:S; [|discriminate]. injection H as <- <-. destruct (STEP _ _ _ _ _ E SW) as (A & B & C & D).
      do 2 eexists. split; [reflexivity|]. split; [exact S|]. split; [reflexivity|]. auto.
  Qed.
End Loop.

Section Stage.
  Context {V : Type}.
  Variable cfg : C.stage.
  Variable out : list (list (list client)).

  Lemma done_by_app x (a b : list (wevent V)) : done_by x (a ++ b) = done_by x a ++ done_by x b.
  Proof. apply flat_map_app. Qed.
  Lemma done_by_own x (evs : list (event V)) : done_by x (map (WC x) evs) = evs.
  Proof. induction evs as [|e l IH]; [reflexivity|]. cbn. rewrite (proj2 (StageProps.client_eqb_eq x x) eq_refl). cbn. f_equal. exact IH. Qed.
  Lemma done_by_other x y (evs : list (event V)) : x <> y -> done_by x (map (WC y) evs) = [].
  Proof.
    intros N. induction evs as [|e l IH]; [reflexivity|]. cbn. destruct (G.client_eqb x y) eqn:E; [apply StageProps.client_eqb_eq in E; congruence|exact IH].
  Qed.
  Lemma done_by_stage x es : done_by x (map (@WS V) es) = [].
  Proof. induction es as [|e l IH]; [reflexivity|exact IH]. Qed.

  Lemma runs_valid (st : wst V) tr c : winv out st tr -> In c (G.s_run (w_stage st)) -> valid out c.
  Proof.
    intros I H. pose proof (SP.reach_inv _ _ _ (w_reach _ _ _ I)) as [_ J _ _]. eapply start_valid; [exact (w_reach _ _ _ I)|auto].
  Qed.

  (** One client, once its context is done. *)
  Lemma client_halts x : valid out x -> forall acts (st st' : wst V) tr0 tr k, winv out st tr0 -> whole_run cfg out st acts = Some (st', tr) ->
    nth_error (l_cls (w_loop st)) (idx out x) = Some k -> Forall (client_saw x) acts ->
    exists k', nth_error (l_cls (w_loop st')) (idx out x) = Some k' /\ l_c k' = l_c k /\
      (forall q s, nth_error (c_stmts (l_c k)) q = Some s -> is_idle s = false -> (kleft q k' + length (filter (step_of x) acts) <= kleft q k)%nat) /\
      StopProps.few (done_by x tr) true /\ (done_by x tr = [] \/ l_pc k' = PcDone) /\ (l_pc k = PcDone -> l_pc k' = PcDone /\ done_by x tr = []).
  Proof.
    intros VX. assert (F0 : StopProps.few (V := V) [] true) by (split; [constructor|cbn; lia]).
    induction acts as [|a acts IH]; intros st st' tr0 tr k I H K FA; cbn [whole_run] in H.
    { injection H as <- <-. exists k. split; [exact K|]. split; [reflexivity|]. split; [intros; cbn; lia|]. auto. }
    destruct (whole_step cfg out st a) as [[st1 es]|] eqn:E; [|discriminate].
    destruct (whole_run cfg out st1 acts) as [[st2 tr2]|] eqn:E2; [|discriminate]. injection H as <- <-.
    inversion FA as [|? ? F1 F2]; subst. pose proof (winv_step _ _ _ _ _ _ _ I E) as I1.
    assert (OTHER : done_by x es = [] -> step_of x a = false -> nth_error (l_cls (w_loop st1)) (idx out x) = Some k ->
      exists k', nth_error (l_cls (w_loop st2)) (idx out x) = Some k' /\ l_c k' = l_c k /\
      (forall q s, nth_error (c_stmts (l_c k)) q = Some s -> is_idle s = false -> (kleft q k' + length (filter (step_of x) (a :: acts)) <= kleft q k)%nat) /\
      StopProps.few (done_by x (es ++ tr2)) true /\ (done_by x (es ++ tr2) = [] \/ l_pc k' = PcDone) /\ (l_pc k = PcDone -> l_pc k' = PcDone /\ done_by x (es ++ tr2) = [])).
    { intros D N K1. destruct (IH _ _ _ _ _ I1 E2 K1 F2) as (k' & A1 & A2 & A3 & A4 & A5 & A6). exists k'. rewrite done_by_app, D. cbn [app filter]. rewrite N. auto 10. }
    destruct a as [a|e g|y inp]; cbn in E.
    - destruct (match a with G.AFinish c => client_returned out st c | G.AElapse => _ | _ => true end); [|discriminate].
      destruct (G.step (sizes out) (w_stage st) a) as [[s0 es0]|]; [|discriminate]. injection E as <- <-. apply OTHER; [apply done_by_stage|reflexivity|exact K].
    - destruct (_ && _)%bool; [|discriminate]. injection E as <- <-. apply OTHER; [reflexivity|reflexivity|exact K].
    - destruct (existsb (G.client_eqb y) (G.s_run (w_stage st))) eqn:RY; [|discriminate]. destruct (fits _ _ _); [|discriminate]. cbn [andb] in E.
      destruct (loop_step (w_loop st) (idx out y) inp) as [[l es0]|] eqn:LS; [|discriminate]. injection E as <- <-. cbn [w_loop] in *.
      destruct (G.client_eqb x y) eqn:XY.
      + apply StageProps.client_eqb_eq in XY. subst y. cbn in F1. destruct (loop_saw _ _ _ _ _ LS (F1 eq_refl)) as (k0 & k1 & K0 & SET & EC & FW & DN & ND & LT).
        rewrite K in K0. injection K0 as <-. assert (K1 : nth_error (l_cls l) (idx out x) = Some k1) by (eapply LimitProofs.set_nth_same; eauto).
        destruct (IH _ _ _ _ _ I1 E2 K1 F2) as (k' & A1 & A2 & A3 & A4 & A5 & A6). exists k'. split; [exact A1|]. split; [congruence|].
        rewrite done_by_app, done_by_own. cbn [filter step_of]. rewrite (proj2 (StageProps.client_eqb_eq x x) eq_refl). cbn [length].
        split; [|split; [|split]].
        * intros q s Q ID. rewrite EC in A3. specialize (A3 q s Q ID). specialize (LT q s Q ID). lia.
        * destruct DN as [->|DN]; [exact A4|]. destruct (A6 DN) as (_ & ->). rewrite app_nil_r. exact FW.
        * destruct DN as [->|DN]; [exact A5|]. right. apply (A6 DN).
        * intros P. congruence.
      + assert (NE : x <> y) by (intros ->; rewrite (proj2 (StageProps.client_eqb_eq y y) eq_refl) in XY; discriminate).
        apply SP.existsb_in in RY. pose proof (runs_valid _ _ _ I RY) as VY.
        apply OTHER; [now apply done_by_other|exact XY|]. apply loop_inv in LS as (k0 & k1 & K0 & SET & _).
        rewrite <- K. eapply LimitProofs.set_nth_diff; [exact SET|]. intros J. apply NE. apply (idx_inj out); auto.
  Qed.

  (** The first query of a client. *)
  Definition fq (c : client) : nat := match queries c with q :: _ => q | [] => 0%nat end.
  Lemma fq_query c : queries c <> [] -> exists s, nth_error (c_stmts c) (fq c) = Some s /\ is_idle s = false.
  Proof.
    intros N. unfold fq. destruct (queries c) as [|q l] eqn:Q; [congruence|]. assert (I : In q (queries c)) by (rewrite Q; now left).
    unfold queries in I. apply filter_In in I as (_ & I). destruct (nth_error (c_stmts c) q) as [s|]; [|discriminate]. exists s. split; [reflexivity|]. now apply negb_true_iff in I.
  Qed.

  Definition lefts (l : list (lcl V)) : nat := list_sum (map (fun k => kleft (fq (l_c k)) k) l).
  Lemma lefts_set : forall (l : list (lcl V)) j k k' l', nth_error l j = Some k -> set_nth l j k' = Some l' ->
    (lefts l' + kleft (fq (l_c k)) k = lefts l + kleft (fq (l_c k')) k')%nat.
  Proof.
    unfold lefts, list_sum. induction l as [|x l IH]; intros [|j] k k' l' K H; try discriminate; cbn in K, H.
    - injection K as ->. injection H as <-. cbn. lia.
    - destruct (set_nth l j k') as [l1|] eqn:E; [|discriminate]. injection H as <-. specialize (IH _ _ _ _ K E). cbn. lia.
  Qed.
  Lemma lefts_steps : forall acts (st st' : wst V) tr, (forall k, In k (l_cls (w_loop st)) -> queries (l_c k) <> []) ->
    whole_run cfg out st acts = Some (st', tr) -> Forall all_saw acts ->
    (lefts (l_cls (w_loop st')) + length (filter is_client acts) <= lefts (l_cls (w_loop st)))%nat.
  Proof.
    induction acts as [|a acts IH]; intros st st' tr HQ H FA; cbn [whole_run] in H; [injection H as <- <-; cbn; lia|].
    destruct (whole_step cfg out st a) as [[st1 es]|] eqn:E; [|discriminate].
    destruct (whole_run cfg out st1 acts) as [[st2 tr2]|] eqn:E2; [|discriminate]. injection H as <- <-. inversion FA as [|? ? F1 F2]; subst.
    destruct a as [a|e g|c inp]; cbn in E; cbn [filter is_client].
    - destruct (match a with G.AFinish c => client_returned out st c | G.AElapse => _ | _ => true end); [|discriminate].
      destruct (G.step (sizes out) (w_stage st) a) as [[s es0]|]; [|discriminate]. injection E as <- <-. refine (IH _ _ _ _ E2 F2); exact HQ.
    - destruct (_ && _)%bool; [|discriminate]. injection E as <- <-. refine (IH _ _ _ _ E2 F2); exact HQ.
    - destruct (_ && _)%bool; [|discriminate]. destruct (loop_step (w_loop st) (idx out c) inp) as [[l es0]|] eqn:LS; [|discriminate]. injection E as <- <-. cbn [w_loop] in *.
      destruct (loop_saw _ _ _ _ _ LS F1) as (k & k' & K & SET & EC & _ & _ & _ & LT). pose proof (lefts_set _ _ _ _ _ K SET) as LE.
      destruct (fq_query _ (HQ k (nth_error_In _ _ K))) as (s & S1 & S2). specialize (LT _ _ S1 S2). rewrite EC in LE.
      assert (HQ' : forall x, In x (l_cls l) -> queries (l_c x) <> []).
      { intros x I. destruct (In_nth_error _ _ I) as (j & J). destruct (Nat.eq_dec j (idx out c)) as [->|N].
        - rewrite (LimitProofs.set_nth_same _ _ _ _ SET) in J. injection J as <-. rewrite EC. apply HQ. eapply nth_error_In; eauto.
        - rewrite (LimitProofs.set_nth_diff _ _ _ _ _ SET N) in J. apply HQ. eapply nth_error_In; eauto. }
      specialize (IH (WSt _ l _) _ _ HQ' E2 F2). cbn [w_loop length] in *. lia.
  Qed.

  (** A client whose context is done can go on. *)
  Lemma client_can_saw (st : wst V) c k : ctx_done out st c = true -> In c (G.s_run (w_stage st)) -> nth_error (l_cls (w_loop st)) (idx out c) = Some k -> l_pc k <> PcDone ->
    exists inp st' es, saw inp /\ whole_step cfg out st (WClient c inp) = Some (st', es).
  Proof.
    intros CD I K P. set (ce := CEnv true None false true None (fun _ => None)).
    assert (SET : forall k', exists l, set_nth (l_cls (w_loop st)) (idx out c) k' = Some l).
    { intros k'. apply set_nth_some. apply nth_error_Some. congruence. }
    assert (OK : forall n, cenv_fits true n ce = true).
    { intros n. unfold cenv_fits, ce. cbn. induction (seq 0 n) as [|y l IH]; [reflexivity|exact IH]. }
    assert (X : exists inp l es, saw inp /\ loop_step (w_loop st) (idx out c) inp = Some (l, es) /\ forall n, fits true n inp = true).
    { unfold loop_step. rewrite K. destruct (l_pc k) as [| |i|] eqn:PC; [| | |congruence].
      - exists (LConnect ce). cbn [cstep]. destruct (connect _ _ _ _) as [[st1 evs] r]. destruct r; edestruct SET as (l & ->); do 2 eexists; (split; [reflexivity|split; [reflexivity|exact OK]]).
      - exists LCheck. destruct (loop_check _ _) as [cnt [[|]|]]; cbn [cstep]; edestruct SET as (l & ->); do 2 eexists; (split; [exact Logic.I|split; [reflexivity|reflexivity]]).
      - exists (LStmt (SEnv [] (Some true) (Some err_ctx) None true ce)). cbn [cstep]. destruct (exec_stmt _ _ _ _) as [[st1 evs] nx].
        destruct nx; edestruct SET as (l & ->); do 2 eexists; (split; [repeat split; discriminate|split; [reflexivity|]]); intros n; cbn [fits v_ctx v_res v_scan v_conn]; rewrite OK; reflexivity. }
    destruct X as (inp & l & es & SW & LS & F). exists inp. cbn [whole_step].
    assert (E : existsb (G.client_eqb c) (G.s_run (w_stage st)) = true) by (apply existsb_exists; exists c; split; [exact I|now apply SP.client_eqb_eq]).
    rewrite E, CD, F, LS. cbn. eauto.
  Qed.

  Definition over (st : wst V) : Prop := G.s_elapsed (w_stage st) = true \/ G.s_stopped (w_stage st) = true.
  Lemma flags_step (s : G.state) a s' es : G.step (sizes out) s a = Some (s', es) ->
    (G.s_elapsed s = true -> G.s_elapsed s' = true) /\ (G.s_stopped s = true -> G.s_stopped s' = true).
  Proof.
    intros H. destruct a as [ctx|c|c| |]; cbn in H.
    - unfold G.stage_step in H. destruct (G.s_pc s) as [g|g [|c todo]|g [|n]|g n ms|];
        repeat match goal with H : match ?x with _ => _ end = Some _ |- _ => destruct x eqn:?; try discriminate H end; inversion H; subst; cbn; (split; [auto|intros; congruence]).
    - destruct (existsb _ _); [|discriminate]. injection H as <- _. auto.
    - destruct (_ && _)%bool; [|discriminate]. injection H as <- _. auto.
    - destruct (G.s_elapsed s); [discriminate|]. injection H as <- _. cbn. auto.
    - destruct (G.s_stopped s); [discriminate|]. injection H as <- _. cbn. auto.
  Qed.
  Lemma over_step (st : wst V) a st' es : whole_step cfg out st a = Some (st', es) ->
    (over st -> over st') /\ forall c, ctx_done out st c = true -> ctx_done out st' c = true.
  Proof.
    intros E. destruct a as [a|e g|c inp]; cbn in E.
    - destruct (match a with G.AFinish c => client_returned out st c | G.AElapse => _ | _ => true end); [|discriminate].
      destruct (G.step (sizes out) (w_stage st) a) as [[s es0]|] eqn:S; [|discriminate]. injection E as <- <-. destruct (flags_step _ _ _ _ S) as (A & B).
      unfold over, ctx_done. cbn. split; [tauto|]. intros c D. apply orb_true_iff in D as [D|D]; [|now rewrite D, !orb_true_r].
      apply orb_true_iff in D as [D|D]; [rewrite (A D)|rewrite (B D)]; rewrite ?orb_true_r; reflexivity.
    - destruct (_ && _)%bool; [|discriminate]. injection E as <- <-. unfold over, ctx_done. cbn. split; [tauto|]. intros c D.
      apply orb_true_iff in D as [D|D]; [now rewrite D|]. destruct (nth_error (labelled out) (idx out c)) as [[[e1 g1] cl]|]; [|discriminate]. rewrite D, !orb_true_r. reflexivity.
    - destruct (_ && _)%bool; [|discriminate]. destruct (loop_step (w_loop st) (idx out c) inp) as [[l es0]|]; [|discriminate]. injection E as <- <-. auto.
  Qed.
  Lemma over_run : forall acts (st st' : wst V) tr, whole_run cfg out st acts = Some (st', tr) ->
    (over st -> over st') /\ forall c, ctx_done out st c = true -> ctx_done out st' c = true.
  Proof.
    induction acts as [|a acts IH]; intros st st' tr H; cbn [whole_run] in H; [injection H as <- <-; auto|].
    destruct (whole_step cfg out st a) as [[st1 es]|] eqn:E; [|discriminate].
    destruct (whole_run cfg out st1 acts) as [[st2 tr2]|] eqn:E2; [|discriminate]. injection H as <- <-.
    destruct (over_step _ _ _ _ E) as (A & B), (IH _ _ _ E2) as (A' & B'). auto.
  Qed.
  Lemma winv_more : forall acts (st st' : wst V) tr0 tr, winv out st tr0 -> whole_run cfg out st acts = Some (st', tr) -> winv out st' (tr0 ++ tr).
  Proof.
    induction acts as [|a acts IH]; intros st st' tr0 tr I H; cbn [whole_run] in H; [injection H as <- <-; now rewrite app_nil_r|].
    destruct (whole_step cfg out st a) as [[st1 es]|] eqn:E; [|discriminate].
    destruct (whole_run cfg out st1 acts) as [[st2 tr2]|] eqn:E2; [|discriminate]. injection H as <- <-. rewrite app_assoc. eapply IH; [|exact E2]. eapply winv_step; eauto.
  Qed.

  (** Stage.Run goes on by itself. *)
  Lemma stage_can (st : wst V) tr : winv out st tr -> over st -> G.s_pc (w_stage st) <> G.Ended ->
    exists st' es, whole_step cfg out st (WStage (G.AStage true)) = Some (st', es).
  Proof.
    intros I O P. pose proof (SP.reach_inv _ _ _ (w_reach _ _ _ I)) as [J _ _ _]. unfold SP.started in J.
    assert (D : (G.s_elapsed (w_stage st) || G.s_stopped (w_stage st))%bool = true) by (apply orb_true_iff; exact O).
    cbn [whole_step G.step]. destruct (G.stage_step (sizes out) (w_stage st) true) as [[s' es]|] eqn:S; [eauto|].
    exfalso. unfold G.stage_step in S. destruct (G.s_pc (w_stage st)) as [g|g [|c todo]|g [|n]|g n ms|] eqn:Ep.
    - destruct (nth_error (sizes out) g); [destruct (G.s_stopped (w_stage st))|]; discriminate.
    - destruct J as (J & _). apply nth_error_Some in J. destruct (nth_error (sizes out) g); [discriminate|congruence].
    - discriminate.
    - discriminate.
    - rewrite D in S. discriminate.
    - destruct n; [|destruct ms; [|destruct (G.s_chan (w_stage st))]]; discriminate.
    - congruence.
  Qed.
  Lemma stage_alone : forall m (st : wst V) tr, winv out st tr -> over st ->
    exists n st' es, (n <= m)%nat /\ whole_run cfg out st (repeat (WStage (G.AStage true)) n) = Some (st', es) /\ (G.s_pc (w_stage st') = G.Ended \/ n = m).
  Proof.
    induction m as [|m IH]; intros st tr I O; [exists 0%nat; do 2 eexists; cbn; eauto|].
    assert (X : G.s_pc (w_stage st) = G.Ended \/ G.s_pc (w_stage st) <> G.Ended) by (destruct (G.s_pc (w_stage st)); (left; reflexivity) || (right; discriminate)).
    destruct X as [X|X]; [exists 0%nat; do 2 eexists; split; [lia|]; cbn; eauto|].
    destruct (stage_can _ _ I O X) as (st1 & es & E1). destruct (IH st1 _ (winv_step _ _ _ _ _ _ _ I E1) (proj1 (over_step _ _ _ _ E1) O)) as (n & st2 & es2 & L & R & E).
    exists (S n). do 2 eexists. split; [lia|]. cbn [repeat whole_run]. rewrite E1, R. split; [reflexivity|]. destruct E as [E| ->]; auto.
  Qed.
  Lemma pairs_length : length (pairs out) = list_sum (map (@length _) out).
  Proof.
    unfold pairs. assert (X : forall l n, length (concat (mapi_from (fun e (css : list (list client)) => map (fun g => (e, g)) (seq 0 (length css))) n l)) = list_sum (map (@length _) l)).
    { induction l as [|css l IH]; intros n; [reflexivity|]. cbn [mapi_from concat map]. rewrite app_length, IH, map_length, seq_length. reflexivity. }
    apply X.
  Qed.
End Stage.
