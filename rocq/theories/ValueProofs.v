(** Proofs about the values of a client's statements. *)
From Coq Require Import Sorting.Sorted.
From Verif Require Import Prelude ListAux ScopeModel ScopeSpec CallProofs StmtModel WorkloadModel WorkloadSpec ClientModel ClientSpec
  ClientProofs ClientConnProofs ClientTrxProofs ValueModel ValueSpec.
#[local] Open Scope list_scope.

Lemma save_ptrs_ok s d p : In p (save_ptrs s d) <-> scans_into s d p.
Proof.
  assert (X : forall l : list (option nat), In p (somes l) <-> In (Some p) l).
  { induction l as [|[x|] l IH]; cbn; [tauto| |]; rewrite IH; intuition (congruence || auto). }
  unfold save_ptrs, scans_into. destruct (st_resultset s); [apply X|]. rewrite X. cbn. intuition congruence.
Qed.

Section P.
  Context {G V : Type}.
  Variable gvalues : G -> runcount -> G * list V.
  Variable own : nat -> bool.
  Variable gscope : nat -> scope.
  Variable gen0 : nat -> G.
  Variable c : client.
  Notation cst := (cst V).
  Notation event := (event V).
  Notation world := (world (G := G) (V := V)).
  Notation log := (list (vlog G V)).
  Notation vstep := (vstep gvalues own c).
  Notation vrun := (vrun gvalues own gscope gen0 c).
  Notation use_inputs := (use_inputs gvalues own).
  Notation sg_uses := (sg_uses G V gvalues).

  (** ** Lists of uses *)
  Lemma groups_app (a b : log) : groups (a ++ b) = groups a ++ groups b.
  Proof. apply flat_map_app. Qed.
  Lemma uses_in_app p a b : uses_in (V := V) p (a ++ b) = uses_in p a ++ uses_in p b.
  Proof. apply flat_map_app. Qed.
  Lemma values_in_app p a b : values_in (V := V) p (a ++ b) = values_in p a ++ values_in p b.
  Proof. apply flat_map_app. Qed.

  Lemma sg_uses_app s a b : sg_uses s (a ++ b) =
    let '(s1, v1) := sg_uses s a in let '(s2, v2) := sg_uses s1 b in (s2, v1 ++ v2).
  Proof.
    revert s. induction a as [|u a IH]; intros s; cbn [ScopeModel.sg_uses app].
    - now destruct (sg_uses s b).
    - destruct (sg_use _ _ gvalues s u) as [s1 v]. rewrite IH. destruct (sg_uses s1 a) as [s2 v1].
      destruct (sg_uses s2 b) as [s3 v2]. reflexivity.
  Qed.

  Lemma use_inputs_ok rc : forall ins (w : world) o w' us, use_inputs w ins rc o = (w', us) ->
    map (fun u => (u_ptr u, u_explicit u)) us = ins /\
    forall p, own p = true ->
      sg_uses (w p) (map to_use (map (fun u => (u_explicit u, rc)) (of_ptr p us))) = (w' p, map u_vals (of_ptr p us)).
  Proof.
    induction ins as [|[q ex] ins IH]; intros w o w' us H; cbn [ValueModel.use_inputs] in H.
    - injection H as <- <-. split; [reflexivity|]. intros p _. reflexivity.
    - destruct (own q) eqn:O.
      + destruct (sg_use _ _ gvalues (w q) (Use ex rc)) as [s v] eqn:E.
        destruct (use_inputs (natupd w q s) ins rc (tl o)) as [w2 us2] eqn:E2. injection H as <- <-.
        destruct (IH _ _ _ _ E2) as [A B]. split; [cbn; now rewrite A|]. intros p P. specialize (B p P).
        unfold of_ptr in *. cbn [filter u_ptr]. destruct (Nat.eqb_spec q p) as [->|N].
        * rewrite natupd_same in B. cbn [map u_explicit u_vals ScopeModel.sg_uses]. unfold to_use at 1. cbn [fst snd]. rewrite E, B. reflexivity.
        * rewrite natupd_other in B by auto. exact B.
      + destruct (use_inputs w ins rc (tl o)) as [w2 us2] eqn:E2. injection H as <- <-.
        destruct (IH _ _ _ _ E2) as [A B]. split; [cbn; now rewrite A|]. intros p P. specialize (B p P).
        unfold of_ptr in *. cbn [filter u_ptr]. destruct (Nat.eqb_spec q p) as [->|N]; [congruence|exact B].
  Qed.

  Lemma save_all_in i sv : forall ps (w : world) w' l p g, save_all i w ps sv = (w', l) -> In p ps -> sv p = Some g -> In (LSave i p g) l.
  Proof.
    induction ps as [|q ps IH]; intros w w' l p g H I S; cbn [save_all] in H; [destruct I|].
    destruct (sv q) as [g'|] eqn:E.
    - destruct (save_all i (natupd w q (sg_set (w q) g')) ps sv) as [w2 l2] eqn:E2. injection H as <- <-.
      destruct I as [->|I]; [left; congruence|right; eapply IH; eauto].
    - destruct I as [->|I]; [congruence|eapply IH; eauto].
  Qed.

  Lemma save_all_ok i sv : forall ps (w : world) w' l, save_all i w ps sv = (w', l) ->
    groups l = [] /\ (forall p, ~ In p ps -> w' p = w p) /\
    (forall x, In x l -> exists p g, x = LSave i p g /\ In p ps /\ sv p = Some g).
  Proof.
    induction ps as [|q ps IH]; intros w w' l H; cbn [save_all] in H.
    - injection H as <- <-. split; [reflexivity|]. split; [auto|]. intros x [].
    - destruct (sv q) as [g|] eqn:E.
      + destruct (save_all i (natupd w q (sg_set (w q) g)) ps sv) as [w2 l2] eqn:E2. injection H as <- <-.
        destruct (IH _ _ _ E2) as (A & B & D). split; [exact A|]. split.
        * intros p N. rewrite B by (intros X; apply N; now right). apply natupd_other. intros ->. apply N. now left.
        * intros x [<-|X]; [exists q, g; cbn; auto|]. destruct (D x X) as (p & g' & -> & I & S). exists p, g'. cbn. auto.
      + destruct (IH _ _ _ H) as (A & B & D). split; [exact A|]. split.
        * intros p N. apply B. intros X; apply N; now right.
        * intros x X. destruct (D x X) as (p & g' & -> & I & S). exists p, g'. cbn. auto.
  Qed.

  (** ** Steps *)
  Inductive vcase (st : cst) (pc : cpc) (w : world) : cst -> cpc -> world -> list event -> log -> Prop :=
  | VPlain inp st' pc' evs : cstep c st pc inp = Some (st', pc', evs) ->
      (forall i se s, pc = PcStmt i -> inp = IStmt se -> nth_error (c_stmts c) i = Some s -> is_idle s = false -> nth_error (c_data c) i = None) ->
      vcase st pc w st' pc' w evs []
  | VStmt i se s d o w1 us sv w2 l st' pc' evs : pc = PcStmt i ->
      nth_error (c_stmts c) i = Some s -> nth_error (c_data c) i = Some d -> is_idle s = false ->
      use_inputs w (d_inputs d) (pre_rc st d) o = (w1, us) -> v_inputs se = map u_vals us ->
      cstep c st (PcStmt i) (IStmt se) = Some (st', pc', evs) ->
      save_all i w1 (save_ptrs s d) sv = (w2, l) ->
      vcase st pc w st' pc' w2 evs (LUses i (pre_rc st d) us :: l).

  Lemma vstep_inv st pc w inp st' pc' w' evs l : vstep st pc w inp = Some (st', pc', w', evs, l) -> vcase st pc w st' pc' w' evs l.
  Proof.
    unfold ValueModel.vstep. destruct inp as [inp sv]. cbn [fst snd]. intros H.
    assert (PL : (forall i se s, pc = PcStmt i -> inp = IStmt se -> nth_error (c_stmts c) i = Some s -> is_idle s = false -> nth_error (c_data c) i = None) ->
      match cstep c st pc inp with Some (st'0, pc'0, evs0) => Some (st'0, pc'0, w, evs0, []) | None => None end = Some (st', pc', w', evs, l) ->
      vcase st pc w st' pc' w' evs l).
    { intros N X. destruct (cstep c st pc inp) as [[[a b] d]|] eqn:E; [|discriminate]. injection X as <- <- <- <- <-. econstructor; eauto. }
    destruct pc as [| |i|]; try (apply PL; [discriminate|exact H]).
    destruct inp as [ce| | |se]; try (apply PL; [discriminate|exact H]).
    destruct (nth_error (c_stmts c) i) as [s|] eqn:ES; [|apply PL; [intros ? ? ? [= <-] _; congruence|exact H]].
    destruct (nth_error (c_data c) i) as [d|] eqn:ED; [|apply PL; [intros ? ? ? [= <-]; auto|exact H]].
    destruct (negb (st_idle s =? 0)%Z) eqn:EI; [apply PL; [intros j se' s' [= <-] _ X Y; unfold is_idle in Y; congruence|exact H]|].
    destruct (use_inputs w (d_inputs d) (input_rc (s_rc st) d) (v_inputs se)) as [w1 us] eqn:EU.
    destruct (cstep c st (PcStmt i) (IStmt (with_inputs se (map u_vals us)))) as [[[st1 pc1] e1]|] eqn:EC; [|discriminate].
    destruct (save_all i w1 (save_ptrs s d) sv) as [w2 l2] eqn:EV. injection H as <- <- <- <- <-.
    change (input_rc (s_rc st) d) with (pre_rc st d) in *.
    eapply VStmt; [reflexivity|exact ES|exact ED|exact EI|exact EU| |exact EC|exact EV]. reflexivity.
  Qed.

  Lemma vcase_step st pc w st' pc' w' evs l : vcase st pc w st' pc' w' evs l -> exists inp, cstep c st pc inp = Some (st', pc', evs).
  Proof. intros H. inv H; eauto. Qed.

  (** ** The scans of one statement *)
  Lemma vrun_snoc inp : forall inps st pc w st1 pc1 w1 evs1 l1 r, vrun_from gvalues own c st pc w inps = Some (st1, pc1, w1, evs1, l1) ->
    vrun_from gvalues own c st pc w (inps ++ [inp]) = Some r ->
    exists st2 pc2 w2 evs2 l2, vstep st1 pc1 w1 inp = Some (st2, pc2, w2, evs2, l2) /\ r = (st2, pc2, w2, evs1 ++ evs2, l1 ++ l2).
  Proof.
    induction inps as [|a inps IH]; intros st pc w st1 pc1 w1 evs1 l1 r A B; cbn [vrun_from app] in *.
    - injection A as <- <- <- <- <-. destruct (vstep st pc w inp) as [[[[[s2 p2] w2] e2] l2]|]; [|discriminate].
      injection B as <-. rewrite !app_nil_r. do 5 eexists. split; reflexivity.
    - destruct (vstep st pc w a) as [[[[[sa pa] wa] ea] la]|]; [|discriminate].
      destruct (vrun_from gvalues own c sa pa wa inps) as [[[[[sb pb] wb] eb] lb]|] eqn:E; [|discriminate].
      injection A as <- <- <- <- <-.
      destruct (vrun_from gvalues own c sa pa wa (inps ++ [inp])) as [[[[[sc' pc'] wc] ec] lc]|] eqn:E2; [|discriminate].
      injection B as <-. destruct (IH _ _ _ _ _ _ _ _ _ E E2) as (s2 & p2 & w2 & e2 & l2 & S & R). injection R as -> -> -> -> ->.
      do 5 eexists. split; [exact S|]. now rewrite !app_assoc.
  Qed.
  Lemma scans_of_step inps i st w evs l se sv st' pc' w' evs' l' s d :
    vrun inps = Some (st, PcStmt i, w, evs, l) -> vrun (inps ++ [(IStmt se, sv)]) = Some (st', pc', w', evs', l') ->
    nth_error (c_stmts c) i = Some s -> nth_error (c_data c) i = Some d -> is_idle s = false ->
    exists rc us scans, l' = l ++ LUses i rc us :: scans /\
      forall x, In x scans <-> exists p g, x = LSave i p g /\ scans_into s d p /\ sv p = Some g.
  Proof.
    intros A B ES ED EI. destruct (vrun_snoc _ _ _ _ _ _ _ _ _ _ _ A B) as (s2 & p2 & w2 & e2 & l2 & S & R). injection R as -> -> -> -> ->.
    unfold ValueModel.vstep in S. cbn [fst snd] in S. rewrite ES, ED in S. unfold is_idle in EI. rewrite EI in S.
    destruct (use_inputs w (d_inputs d) (input_rc (s_rc st) d) (v_inputs se)) as [w1 us].
    destruct (cstep c st (PcStmt i) (IStmt (with_inputs se (map u_vals us)))) as [[[st1 pc1] e1]|]; [|discriminate].
    destruct (save_all i w1 (save_ptrs s d) sv) as [w3 l3] eqn:EV. injection S as <- <- <- <- <-.
    do 3 eexists. split; [reflexivity|]. intros x. split.
    - intros X. destruct (save_all_ok _ _ _ _ _ _ EV) as (_ & _ & P). destruct (P x X) as (p & g & -> & I & SV).
      exists p, g. rewrite <- save_ptrs_ok. auto.
    - intros (p & g & -> & I & SV). rewrite <- save_ptrs_ok in I. eapply save_all_in; eauto.
  Qed.

  (** Induction over runs. *)
  Lemma vrun_ind (P : cst -> cpc -> world -> list event -> log -> Prop) :
    P (client_init c) PcStart (world_init gscope gen0) [] [] ->
    (forall st pc w evs l st' pc' w' evs' l', (exists inps, client_run c inps = Some (st, pc, evs)) -> P st pc w evs l ->
       vcase st pc w st' pc' w' evs' l' -> P st' pc' w' (evs ++ evs') (l ++ l')) ->
    forall inps st pc w evs l, vrun inps = Some (st, pc, w, evs, l) ->
    P st pc w evs l /\ exists inps, client_run c inps = Some (st, pc, evs).
  Proof.
    intros H0 HS.
    assert (SNOC : forall inps (st : cst) pc st1 pc1 evs inp st2 pc2 e2, crun c st pc inps = Some (st1, pc1, evs) -> cstep c st1 pc1 inp = Some (st2, pc2, e2) ->
      crun c st pc (inps ++ [inp]) = Some (st2, pc2, evs ++ e2)).
    { induction inps as [|i inps IH]; intros st pc st1 pc1 evs inp st2 pc2 e2 A B; cbn [crun app] in *.
      - injection A as <- <- <-. rewrite B. cbn. now rewrite app_nil_r.
      - destruct (cstep c st pc i) as [[[sa pa] ea]|]; [|discriminate]. destruct (crun c sa pa inps) as [[[sb pb] eb]|] eqn:E; [|discriminate].
        injection A as <- <- <-. rewrite (IH _ _ _ _ _ _ _ _ _ E B). now rewrite app_assoc. }
    assert (X : forall inps st pc w evs l, P st pc w evs l -> (exists inps, client_run c inps = Some (st, pc, evs)) ->
      forall st' pc' w' evs' l', vrun_from gvalues own c st pc w inps = Some (st', pc', w', evs', l') ->
      P st' pc' w' (evs ++ evs') (l ++ l') /\ exists inps, client_run c inps = Some (st', pc', evs ++ evs')).
    { induction inps as [|i inps IH]; intros st pc w evs l HP (is & HR) st' pc' w' evs' l' H; cbn [vrun_from] in H.
      - injection H as <- <- <- <- <-. rewrite !app_nil_r. eauto.
      - destruct (vstep st pc w i) as [[[[[s1 p1] w1] e1] l1]|] eqn:E; [|discriminate]. apply vstep_inv in E.
        destruct (vrun_from gvalues own c s1 p1 w1 inps) as [[[[[s2 p2] w2] e2] l2]|] eqn:E2; [|discriminate]. injection H as <- <- <- <- <-.
        rewrite !app_assoc. eapply IH; [eapply HS; eauto| |exact E2].
        destruct (vcase_step _ _ _ _ _ _ _ _ E) as (inp & EC). exists (is ++ [inp]). unfold client_run in *. eapply SNOC; eauto. }
    intros inps st pc w evs l H. unfold ValueModel.vrun in H. apply (X inps _ _ _ [] [] H0); [|exact H]. exists []. reflexivity.
  Qed.

  (** ** The uses of a generator that is not scanned into are a history of the scoped generator *)
  Lemma uses_history inps st pc w evs l : vrun inps = Some (st, pc, w, evs, l) ->
    forall p, own p = true -> (forall i, ~ saves_at c i p) ->
    sg_uses (sg_new (gscope p) (gen0 p)) (map to_use (uses_in p (groups l))) = (w p, values_in p (groups l)).
  Proof.
    intros H p O NS. revert H. intros H.
    refine (proj1 (vrun_ind (fun st pc w evs l => sg_uses (sg_new (gscope p) (gen0 p)) (map to_use (uses_in p (groups l))) = (w p, values_in p (groups l)))
      _ _ inps st pc w evs l H)).
    - reflexivity.
    - intros st0 pc0 w0 e0 l0 st1 pc1 w1 e1 l1 _ IH X. rewrite groups_app, uses_in_app, values_in_app, map_app, sg_uses_app, IH. inv X.
      + cbn. now rewrite !app_nil_r.
      + match goal with H1 : use_inputs _ _ _ _ = _ |- _ => destruct (use_inputs_ok _ _ _ _ _ _ H1) as [_ B] end.
        match goal with H1 : save_all _ _ _ _ = _ |- _ => destruct (save_all_ok _ _ _ _ _ _ H1) as (A & D & _) end.
        specialize (B p O). 
        match goal with |- context [groups (LUses ?a ?b ?u :: ?x)] => change (groups (LUses a b u :: x)) with ((a, b, u) :: groups x) end.
        rewrite A.
        cbn [uses_in values_in flat_map fst snd]. rewrite !app_nil_r, B, (D p); [reflexivity|].
        intros I. apply (NS i). exists s, d. rewrite <- save_ptrs_ok. auto.
  Qed.

  (** ** Counters *)
  Definition rcs (l : log) : list runcount := map (fun g => snd (fst g)) (groups l).
  Definition countable (f : runcount -> N) : Prop := f = rc_statement \/ f = rc_trx \/ f = rc_iter \/ f = rc_conn.

  Lemma connect_rc (st : cst) cerr ce st' evs r : connect c st cerr ce = (st', evs, r) -> s_rc st' = s_rc st.
  Proof. intros H. apply connect_inv in H as ((_ & E & _) & _). exact E. Qed.
  Lemma exec_rc (st : cst) i se (st' : cst) evs nx f : countable f -> exec_case c st i se st' evs nx -> (f (s_rc st) <= f (s_rc st'))%N /\
    forall s d, nth_error (c_stmts c) i = Some s -> is_idle s = false -> nth_error (c_data c) i = Some d -> nx = NStmt \/ nx = NIter -> (f (pre_rc st d) <= f (s_rc st'))%N.
  Proof.
    intros F X.
    assert (PRE : forall d, (f (s_rc st) <= f (pre_rc st d))%N).
    { intros d. unfold pre_rc. destruct F as [->|[->|[->| ->]]]; cbn; destruct (d_begin d); lia. }
    inv X; cbn [pre_state s_rc]; try (split; [try lia; apply PRE|]); try (intros ? ? ? ? ? [?|?]; discriminate).
    - intros s0 d0 E1 E2 E3 _. congruence.
    - intros s0 d0 E1 E2 E3 _. assert (d0 = d) as -> by congruence. lia.
    - match goal with H1 : connect _ _ _ _ = _ |- _ => apply connect_rc in H1; cbn [pre_state s_rc] in H1; rename H1 into RC1 end.
      specialize (PRE d). destruct r; cbn [with_rc s_rc].
      + assert (LE : (f (pre_rc st d) <= f (let rc := pre_rc st d in
          RC (rc_statement rc) (rc_trx rc) (rc_iter rc) (rc_conn rc + 1) (rc_client rc) (rc_cg rc) (rc_eg rc) (rc_stage rc)))%N)
          by (destruct F as [->|[->|[->| ->]]]; cbn; lia).
        cbv zeta in LE. cbv zeta. split; [lia|]. intros s0 d0 E1 E2 E3 _. assert (d0 = d) as -> by congruence. exact LE.
      + rewrite RC1. split; [exact PRE|]. intros ? ? ? ? ? [?|?]; discriminate.
      + rewrite RC1. split; [exact PRE|]. intros ? ? ? ? ? [?|?]; discriminate.
  Qed.

  Lemma step_rc (st : cst) pc inp st' pc' evs f : countable f -> cstep c st pc inp = Some (st', pc', evs) -> (f (s_rc st) <= f (s_rc st'))%N.
  Proof.
    intros F H. apply step_inv in H. inv H.
    - match goal with H1 : connect _ _ _ _ = _ |- _ => apply connect_rc in H1; rewrite H1 end. lia.
    - lia.
    - destruct F as [->|[->|[->| ->]]]; cbn; lia.
    - match goal with H1 : exec_case _ _ _ _ _ _ _ |- _ => apply (exec_rc _ _ _ _ _ _ _ F H1) end.
  Qed.

  Lemma ss_app {A} (R : A -> A -> Prop) a b : StronglySorted R a -> StronglySorted R b -> (forall x y, In x a -> In y b -> R x y) ->
    StronglySorted R (a ++ b).
  Proof.
    intros HA HB H. induction HA as [|x a HA IH F]; [exact HB|]. cbn. constructor.
    - apply IH. intros; apply H; auto. now right.
    - apply Forall_app. split; [exact F|]. apply Forall_forall. intros y Y. apply H; auto. now left.
  Qed.
  Lemma ss_const {A} (R : A -> A -> Prop) a : (forall x y, In x a -> In y a -> R x y) -> StronglySorted R a.
  Proof.
    intros H. induction a as [|x a IH]; constructor.
    - apply IH. intros; apply H; now right.
    - apply Forall_forall. intros y Y. apply H; [now left|now right].
  Qed.
  Lemma ss_nth {A} (R : A -> A -> Prop) l : StronglySorted R l -> forall i j x y, (i < j)%nat -> nth_error l i = Some x -> nth_error l j = Some y -> R x y.
  Proof.
    induction 1 as [|a l HS IH F]; intros i j x y L X Y; [destruct i; discriminate|].
    destruct j as [|j]; [lia|]. destruct i as [|i]; cbn in *.
    - injection X as <-. rewrite Forall_forall in F. apply F. eapply nth_error_In; eauto.
    - eapply IH; [|exact X|exact Y]. lia.
  Qed.

  Section Trx.
    Variable lens : list nat.
    Hypothesis TRX : has_trx c lens.
    Hypothesis START : trx_start_with_query c lens.
    Hypothesis NE : c_stmts c <> [].

    Definition started (st : cst) (pc : cpc) : Prop :=
      (1 <= rc_conn (s_rc st))%N /\ forall i, pc = PcStmt i -> (1 <= rc_iter (s_rc st))%N /\ ((0 < i)%nat -> (1 <= rc_trx (s_rc st))%N).

    Lemma started_run inps st pc evs : client_run c inps = Some (st, pc, evs) -> started st pc.
    Proof.
      revert inps st pc evs. apply (client_run_ind c (fun st pc _ => started st pc)).
      - split; [cbn; lia|discriminate].
      - intros st pc evs inp st' pc' evs' [A B] H. pose proof H as H'.
        pose proof (step_rc _ _ _ _ _ _ rc_conn ltac:(unfold countable; auto) H) as M1.
        pose proof (step_rc _ _ _ _ _ _ rc_iter ltac:(unfold countable; auto) H) as M2.
        pose proof (step_rc _ _ _ _ _ _ rc_trx ltac:(unfold countable; auto) H) as M3.
        split; [lia|]. intros i ->. apply step_inv in H.
        assert (GEN : forall pcx, step_case c st pc inp st' pcx evs' -> pcx = PcStmt i -> (1 <= rc_iter (s_rc st'))%N /\ ((0 < i)%nat -> (1 <= rc_trx (s_rc st'))%N)); [|eapply GEN; eauto].
        clear H H'. intros pcx H. inversion H; intros PX; subst pc inp.
        + destruct r; discriminate.
        + discriminate.
        + unfold stmt_pc in PX. destruct (0 <? length (c_stmts c))%nat; [|discriminate]. injection PX as <-. cbn. split; [lia|lia].
        + destruct nx; try discriminate. unfold stmt_pc in PX. destruct (Nat.ltb_spec (S i0) (length (c_stmts c))); [|discriminate]. injection PX as <-.
          destruct (B _ eq_refl) as [B1 B2]. split; [lia|]. intros _. destruct i0 as [|i0]; [|specialize (B2 ltac:(lia)); lia].
          match goal with H1 : exec_case _ _ _ _ _ _ _ |- _ => pose proof (exec_rc _ _ _ _ _ _ rc_trx ltac:(unfold countable; auto) H1) as [_ X] end.
          destruct (nth_error (c_stmts c) 0) as [s|] eqn:ES; [|apply nth_error_None in ES; lia].
          destruct (nth_error (c_data c) 0) as [d|] eqn:ED.
          2: { exfalso. apply nth_error_None in ED. destruct TRX as (P1 & P2 & P3 & _). apply (f_equal (@length _)) in P3. rewrite map_length in P3.
               assert (LM : length (marks lens) = list_sum lens).
               { unfold marks. clear. induction lens as [|a l IH]; cbn; auto. rewrite app_length, map_length, seq_length, IH. reflexivity. }
               lia. }
          specialize (X s d eq_refl (START _ _ ES eq_refl) eq_refl ltac:(auto)).
          destruct (data_marks c lens TRX _ _ ED) as [E _]. unfold pre_rc in X. rewrite E in X. cbn in X. lia.
    Qed.

    Lemma pre_rc_pos inps (st : cst) i evs d f : countable f -> client_run c inps = Some (st, PcStmt i, evs) -> nth_error (c_data c) i = Some d -> (1 <= f (pre_rc st d))%N.
    Proof.
      intros F R D. destruct (started_run _ _ _ _ R) as [A B]. destruct (B _ eq_refl) as [B1 B2]. destruct (data_marks c lens TRX _ _ D) as [E _].
      unfold pre_rc. rewrite E. destruct F as [->|[->|[->| ->]]]; cbn; try lia. destruct i as [|i]; [cbn; lia|].
      specialize (B2 ltac:(lia)). destruct (first_of_trx lens (S i)); lia.
    Qed.

    Lemma rcs_sorted inps st pc w evs l f : countable f -> vrun inps = Some (st, pc, w, evs, l) ->
      Forall (fun rc => (1 <= f rc)%N) (rcs l) /\ StronglySorted (fun a b => (f a <= f b)%N) (rcs l).
    Proof.
      intros F H.
      assert (X : (Forall (fun rc => (1 <= f rc)%N) (rcs l) /\ StronglySorted (fun a b => (f a <= f b)%N) (rcs l)) /\
        (pc <> PcDone -> Forall (fun rc => (f rc <= f (s_rc st))%N) (rcs l))); [|apply X].
      refine (proj1 (vrun_ind (fun st pc w evs l => (Forall (fun rc => (1 <= f rc)%N) (rcs l) /\ StronglySorted (fun a b => (f a <= f b)%N) (rcs l)) /\
        (pc <> PcDone -> Forall (fun rc => (f rc <= f (s_rc st))%N) (rcs l))) _ _ inps st pc w evs l H)).
      - repeat split; constructor.
      - clear st pc w evs l inps H. intros st pc w evs l st' pc' w' evs' l' (inps & R) [[A B] C] X.
        destruct (vcase_step _ _ _ _ _ _ _ _ X) as (inp & ST). pose proof (step_rc _ _ _ _ _ _ f F ST) as M.
        assert (ND : pc <> PcDone) by (intros ->; destruct inp; discriminate). specialize (C ND).
        assert (C' : Forall (fun rc => (f rc <= f (s_rc st'))%N) (rcs l)) by (eapply Forall_impl; [|exact C]; cbn; intros; lia).
        unfold rcs. rewrite groups_app, map_app. fold (rcs l). inv X.
        + cbn. rewrite app_nil_r. auto.
        + match goal with H1 : save_all _ _ _ _ = _ |- _ => destruct (save_all_ok _ _ _ _ _ _ H1) as (G0 & _) end.
          match goal with |- context [groups (LUses ?a ?b ?u :: ?x)] => change (groups (LUses a b u :: x)) with ((a, b, u) :: groups x) end.
          rewrite G0. cbn [map fst snd].
          match goal with H1 : nth_error (c_data c) _ = Some d |- _ => pose proof (pre_rc_pos _ _ _ _ _ f F R H1) as P1 end.
          assert (PRE : (f (s_rc st) <= f (pre_rc st d))%N).
          { unfold pre_rc. destruct F as [->|[->|[->| ->]]]; cbn; destruct (d_begin d); lia. }
          split; [split|].
          * apply Forall_app. auto.
          * apply ss_app; [exact B|repeat constructor|]. intros x y XI [<-|[]]. rewrite Forall_forall in C. specialize (C x XI). lia.
          * intros ND'. apply Forall_app. split; [exact C'|]. constructor; [|constructor].
            match goal with H1 : cstep _ _ _ _ = Some (st', pc', evs') |- _ => apply step_inv in H1; inv H1 end.
            match goal with H1 : exec_case _ _ _ _ _ _ _ |- _ => destruct (exec_rc _ _ _ _ _ _ f F H1) as [_ Y] end.
            eapply Y; eauto. destruct nx; auto. congruence.
    Qed.

    Lemma uses_counting inps st pc w evs l sc p : single_client sc -> vrun inps = Some (st, pc, w, evs, l) ->
      counting (scope_counter sc) (uses_in p (groups l)).
    Proof.
      intros SC H.
      assert (F : countable (scope_counter sc)) by (unfold countable; destruct SC as [->|[->|[->| ->]]]; cbn; auto).
      destruct (rcs_sorted _ _ _ _ _ _ _ F H) as [A B].
      assert (IN : forall gs u, In u (uses_in (V := V) p gs) -> In (snd u) (map (fun g => snd (fst g)) gs)).
      { intros gs u I. unfold uses_in in I. apply in_flat_map in I as (g & I1 & I2). apply in_map_iff in I2 as (x & <- & _). cbn. 
        apply in_map_iff. eauto. }
      split.
      - intros u I. apply IN in I. rewrite Forall_forall in A. exact (A _ I).
      - intros i j u u' L X Y.
        refine (ss_nth (fun a b : bool * runcount => (scope_counter sc (snd a) <= scope_counter sc (snd b))%N) (uses_in p (groups l)) _ i j u u' L X Y).
        clear -B IN. unfold rcs in B. induction (groups l) as [|g gs IH]; [constructor|].
        cbn [map] in B. apply StronglySorted_inv in B as [B1 B2]. change (uses_in p (g :: gs)) with (map (fun u => (u_explicit u, snd (fst g))) (of_ptr p (snd g)) ++ uses_in p gs).
        apply ss_app; [|now apply IH|].
        + apply ss_const. intros x y X Y. apply in_map_iff in X as (? & <- & _), Y as (? & <- & _). cbn. lia.
        + intros x y X Y. apply in_map_iff in X as (? & <- & _). apply IN in Y. rewrite Forall_forall in B2. exact (B2 _ Y).
    Qed.
  End Trx.

  (** ** The calls made for each execution *)
  Lemma exec_of_case (st : cst) i se st' evs nx : exec_case c st i se st' evs nx ->
    (execs evs = [] /\ (exists s, nth_error (c_stmts c) i = Some s /\ is_idle s = true)) \/ (execs evs = [] /\ exists s, nx = NStop s) \/
    exists d ps k vals res x, nth_error (c_data c) i = Some d /\ execs evs = [EvExec i ps k (pre_rc st d) vals res x].
  Proof.
    intros X.
    assert (QE : forall e : event, quiet e = true -> is_exec e = false) by (intros []; cbn; congruence).
    assert (PE : execs (permits_for c i : list event) = []).
    { apply (permits_no c is_exec). intros []; cbn; congruence. }
    inv X.
    - right. left. split; [reflexivity|eauto].
    - left. split; [reflexivity|eauto].
    - right. left. split; [exact PE|eauto].
    - right. left. split; [exact PE|eauto].
    - right. right. rewrite execs_app, PE. exists d. do 5 eexists. split; [eassumption|reflexivity].
    - right. right. rewrite !execs_app, PE. exists d. do 5 eexists. split; [eassumption|]. cbn [app execs filter is_exec].
      fold (execs (record_of (V := V) slot s)). fold (execs (saved_of (V := V) i s d)).
      assert (E1 : execs (record_of (V := V) slot s) = []) by (destruct slot; reflexivity).
      assert (E2 : execs (saved_of (V := V) i s d) = []) by (unfold saved_of; destruct (st_resultset s), (d_outputs d), (st_limit s), (d_insertId d); reflexivity).
      rewrite E1, E2. reflexivity.
    - right. right. rewrite !execs_app, PE. exists d. do 5 eexists. split; [eassumption|]. cbn [app execs filter is_exec].
      fold (execs (record_of (V := V) slot s)). fold (execs (error_of (V := V) slot e se)). fold (execs evs0).
      assert (E1 : execs (record_of (V := V) slot s) = []) by (destruct slot; reflexivity).
      assert (E2 : execs (error_of (V := V) slot e se) = []) by (unfold error_of; destruct slot, (v_ctx se); reflexivity).
      assert (E3 : execs evs0 = []).
      { match goal with H1 : connect _ _ _ _ = _ |- _ => apply connect_inv in H1 as [_ Q] end. apply (quiet_no is_exec); auto. }
      rewrite E1, E2, E3. reflexivity.
  Qed.

  Lemma groups_match inps st pc w evs l : vrun inps = Some (st, pc, w, evs, l) ->
    exists rest, Forall2 (made_for c) (execs evs) (firstn (length (execs evs)) (groups l)) /\
      groups l = firstn (length (execs evs)) (groups l) ++ rest /\ (pc <> PcDone -> rest = []) /\ (length rest <= 1)%nat.
  Proof.
    intros H.
    assert (X : exists gs rest, groups l = gs ++ rest /\ Forall2 (made_for c) (execs evs) gs /\ (pc <> PcDone -> rest = []) /\ (length rest <= 1)%nat).
    2: { destruct X as (gs & rest & E & F & R & L). exists rest.
         assert (LL : length (execs evs) = length gs) by (clear -F; induction F; cbn; congruence).
         rewrite E, LL, firstn_app, Nat.sub_diag, firstn_all. cbn [firstn]. rewrite app_nil_r. auto. }
    refine (proj1 (vrun_ind (fun st pc w evs l => exists gs rest, groups l = gs ++ rest /\ Forall2 (made_for c) (execs evs) gs /\ (pc <> PcDone -> rest = []) /\ (length rest <= 1)%nat)
      _ _ inps st pc w evs l H)).
    - exists [], []. cbn. repeat split; auto.
    - clear st pc w evs l inps H. intros st pc w evs l st' pc' w' evs' l' (inps & R) (gs & rest & E & F & RN & L) X.
      destruct (vcase_step _ _ _ _ _ _ _ _ X) as (inp & ST).
      assert (ND : pc <> PcDone) by (intros ->; destruct inp; discriminate). specialize (RN ND). subst rest. rewrite app_nil_r in E.
      rewrite groups_app, E, execs_app. clear E.
      assert (QE : forall e : event, quiet e = true -> is_exec e = false) by (intros []; cbn; congruence).
      assert (FE : forall s0 s, execs (finish (V := V) s0 s) = []) by (intros; apply (finish_no is_exec); auto).
      inv X.
      + exists gs, []. split; [reflexivity|]. split; [|cbn; auto].
        replace (execs evs') with (@nil event); [now rewrite app_nil_r|]. symmetry.
        match goal with H1 : cstep _ _ _ inp0 = _ |- _ => apply step_inv in H1; inv H1 end.
        * rewrite execs_app. match goal with H1 : connect _ _ _ _ = _ |- _ => apply connect_inv in H1 as [_ Q] end.
          unfold execs at 1. rewrite (quiet_no is_exec evs0) by auto. destruct r; [reflexivity|apply FE|apply FE].
        * apply FE.
        * reflexivity.
        * rewrite execs_app. match goal with H1 : exec_case _ _ _ _ _ _ _ |- _ => destruct (exec_of_case _ _ _ _ _ _ H1) as [[E1 _]|[[E1 _]|(d & ps & k & vals & res & x & D & E1)]] end.
          -- rewrite E1. destruct nx; [reflexivity..|apply FE].
          -- rewrite E1. destruct nx; [reflexivity..|apply FE].
          -- exfalso. match goal with H1 : forall i se s, _ -> _ -> _ |- _ => rename H1 into K end.
             destruct (nth_error (c_stmts c) i) as [s|] eqn:ES.
             ++ destruct (is_idle s) eqn:EI; [|specialize (K _ _ _ eq_refl eq_refl ES EI); congruence].
                match goal with H1 : exec_stmt _ _ _ _ = _ |- _ => unfold exec_stmt in H1; rewrite ES, D in H1; unfold is_idle in EI; rewrite EI in H1 end.
                destruct (nth_error (s_values st) i), (nth_error (s_ps st) i); match goal with H1 : (_, _, _) = _ |- _ => injection H1 as <- <- <- end; discriminate.
             ++ match goal with H1 : exec_stmt _ _ _ _ = _ |- _ => unfold exec_stmt in H1; rewrite ES in H1; injection H1 as <- <- <- end. discriminate.
      + match goal with H1 : save_all _ _ _ _ = _ |- _ => destruct (save_all_ok _ _ _ _ _ _ H1) as (G0 & _) end.
        match goal with |- context [groups (LUses ?a ?b ?u :: ?x)] => change (groups (LUses a b u :: x)) with ((a, b, u) :: groups x) end.
        rewrite G0.
        match goal with H1 : use_inputs _ _ _ _ = _ |- _ => destruct (use_inputs_ok _ _ _ _ _ _ H1) as [UI _] end.
        match goal with H1 : cstep _ _ _ (IStmt se) = _ |- _ => pose proof H1 as CS; apply step_inv in H1; inv H1 end.
        rewrite execs_app. replace (execs (match nx with NStop s0 => finish st' s0 | _ => [] end)) with (@nil event) by (destruct nx; [reflexivity..|symmetry; apply FE]).
        rewrite app_nil_r.
        match goal with H1 : exec_case _ _ _ _ _ _ _ |- _ => destruct (exec_of_case _ _ _ _ _ _ H1) as [[E1 (s1 & S1 & S2)]|[[E1 (s1 & ->)]|(d0 & ps & k & vals & res & x & D & E1)]] end.
        * congruence.
        * exists gs, [(i, pre_rc st d, us)]. rewrite E1, app_nil_r. split; [reflexivity|]. split; [exact F|]. split; [congruence|cbn; lia].
        * assert (d0 = d) as -> by congruence. exists (gs ++ [(i, pre_rc st d, us)]), []. rewrite app_nil_r. split; [reflexivity|]. split; [|cbn; auto].
          rewrite E1. apply Forall2_app; [exact F|]. constructor; [|constructor]. unfold made_for. split; [reflexivity|]. split; [reflexivity|].
          exists s, d. repeat (split; [assumption|]). intros A0 AV. cbn [ex_vals].
          match goal with H1 : v_inputs se = _ |- _ => rewrite <- H1 end.
          eapply (values_placed c inps st (PcStmt i) evs se); [exact R|exact CS| |eassumption|exact A0|].
          -- apply in_app_iff. left. assert (I : In (EvExec i ps k (pre_rc st d) vals res x) (execs evs0)) by (rewrite E1; now left).
             apply filter_In in I as [I _]. exact I.
          -- match goal with H1 : v_inputs se = _ |- _ => rewrite H1 end. now rewrite map_map.
  Qed.
End P.
