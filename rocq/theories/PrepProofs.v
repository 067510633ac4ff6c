(** Allocating the clients of a stage never panics if the keys of its statements are loaded. *)
From Verif Require Import Prelude ListAux ScopeModel ScopeSpec ScopeProofs StmtModel WorkloadModel
  WorkloadSpec WalkProofs FlatProofs GroupProofs RunProofs.

(** What the allocator takes for granted of a statement; [ks]: the keys of the stage. *)
Definition stmt_ready (ks : string -> option key) (s : stmt) : Prop :=
  length (st_calls s) = length (st_inputs s) /\
  (forall k, In k (st_inputs s) -> k = PREV \/ ks k <> None) /\
  (forall k, In k (st_outputs s) -> k = PREV \/ ks k <> None) /\
  (st_insertId s <> ""%string -> ks (st_insertId s) <> None /\ serves ks (st_insertId s) = true).

Section prep.
  Context (ks : string -> option key) (st : N) (POS : (0 < st)%N).

  Definition Loaded (sc : scopes) : Prop := W sc st /\ (forall k, kscope sc k = scope_in ks k).

  Lemma scope_in_none k : scope_in ks k = None <-> ks k = None.
  Proof. unfold scope_in. destruct (ks k); split; congruence. Qed.

  Lemma copy_total sc k rl : Loaded sc -> rl_stage rl = st -> k = PREV \/ ks k <> None ->
    exists sc' r, scopes_copy sc k rl = Some (sc', r) /\ Loaded sc' /\
      (if serves ks k then exists p, r = Some p else r = None).
  Proof.
    intros [A B] E K.
    destruct (scopes_copy sc k rl) as [[sc' r]|] eqn:H.
    - destruct (copy_W _ _ _ _ _ _ A E POS H) as (C & D & F). exists sc', r. split; auto. split.
      + split; auto. intros k'. now rewrite D.
      + now rewrite <- (serves_served sc ks B).
    - exfalso. unfold scopes_copy in H. destruct (String.eqb_spec k PREV); [discriminate|].
      destruct K as [K|K]; [congruence|]. specialize (B k). unfold kscope in B.
      destruct (s_keys sc k) as [ky|]; [|symmetry in B; apply scope_in_none in B; congruence].
      destruct (String.eqb (k_name ky) NOOP_COLUMN); [destruct (s_noop sc)|]; discriminate.
  Qed.

  Lemma inputs_total rl ins : rl_stage rl = st -> forall sc calls, Loaded sc ->
    length calls = length ins -> (forall k, In k ins -> k = PREV \/ ks k <> None) ->
    exists sc' l, walk_inputs sc rl ins calls = Some (sc', l) /\ Loaded sc'.
  Proof.
    intros E. induction ins as [|k ins IH]; intros sc calls L LEN K; cbn [walk_inputs]; [eauto|].
    destruct (copy_total sc k rl L E (K k (or_introl eq_refl))) as (sc1 & r & -> & L1 & _).
    destruct calls as [|c calls]; [discriminate|]. cbn in LEN.
    destruct (IH sc1 calls L1) as (sc2 & l & H & L2); [lia|intros; apply K; now right|].
    destruct r as [p|]; cbn [tl]; rewrite H; eauto.
  Qed.

  Lemma outputs_total rl iid outs : rl_stage rl = st -> forall sc, Loaded sc ->
    (forall k, In k outs -> k = PREV \/ ks k <> None) ->
    exists sc' l, walk_outputs sc rl outs iid = Some (sc', l) /\ Loaded sc'.
  Proof.
    intros E. induction outs as [|k outs IH]; intros sc L K; cbn [walk_outputs]; [eauto|].
    assert (K' : forall k, In k outs -> k = PREV \/ ks k <> None) by (intros; apply K; now right).
    destruct (String.eqb k iid).
    - destruct (IH sc L K') as (sc2 & l & -> & L2). eauto.
    - destruct (copy_total sc k rl L E (K k (or_introl eq_refl))) as (sc1 & r & -> & L1 & _).
      destruct (IH sc1 L1 K') as (sc2 & l & -> & L2). eauto.
  Qed.

  Lemma stmt_total rl s sc : rl_stage rl = st -> Loaded sc -> stmt_ready ks s ->
    exists sc' d, stmt_g sc rl s = Some (sc', d) /\ Loaded sc'.
  Proof.
    intros E L (R1 & R2 & R3 & R4). unfold stmt_g.
    destruct (inputs_total rl (st_inputs s) E sc (st_calls s) L R1 R2) as (sc1 & ins & -> & L1).
    destruct (outputs_total rl (st_insertId s) (st_outputs s) E sc1 L1 R3) as (sc2 & outs & -> & L2).
    unfold walk_insert_id. destruct (String.eqb_spec (st_insertId s) "") as [Z|Z]; [eauto|].
    destruct (R4 Z) as [A B].
    destruct (copy_total sc2 (st_insertId s) rl L2 E (or_intror A)) as (sc3 & r & -> & L3 & F).
    rewrite B in F. destruct F as [p ->]. eauto.
  Qed.

  Lemma stmts_total stmts : forall rl sc, rl_stage rl = st -> Loaded sc ->
    Forall (stmt_ready ks) stmts ->
    exists sc' ds, stmts_g sc rl stmts = Some (sc', ds) /\ Loaded sc'.
  Proof.
    induction stmts as [|s stmts IH]; intros rl sc E L F; cbn [stmts_g]; [eauto|].
    inv F. destruct (stmt_total (next_query rl) s sc) as (sc1 & d & -> & L1); auto.
    destruct (IH (next_query rl) sc1) as (sc2 & ds & -> & L2); eauto.
  Qed.

  Context (ts : trxset).

  Lemma trxs_total trx : forall rl sc, rl_stage rl = st -> Loaded sc ->
    Forall (fun t => Forall (stmt_ready ks) (ts_stmts ts t)) trx ->
    exists sc' ds, trxs_g ts sc rl trx = Some (sc', ds) /\ Loaded sc'.
  Proof.
    induction trx as [|t trx IH]; intros rl sc E L F; cbn [trxs_g]; [eauto|].
    inv F. destruct (stmts_total (ts_stmts ts t) (next_trx rl) sc) as (sc1 & d & -> & L1); auto.
    destruct (IH (next_trx rl) sc1) as (sc2 & ds & -> & L2); eauto.
  Qed.

  (** The trx of a client group can be walked. *)
  Definition cg_ready (cg : cgcfg) : Prop :=
    Forall (fun t => ts_stmts ts t <> [] /\ Forall (stmt_ready ks) (ts_stmts ts t)) (cg_trx cg).

  Lemma clients_total wst0 cg p1 p2 q t todo : cg_ready cg -> forall w rl k,
    rl_stage rl = st -> Loaded (w_sc w) ->
    exists w' rl' cs, walk_clients ts wst0 cg p1 p2 q t w rl k todo = Some (w', rl', cs) /\
      rl_stage rl' = st /\ Loaded (w_sc w').
  Proof.
    intros R. induction todo as [|todo IH]; intros w rl k E L; cbn [walk_clients]; [eauto 6|].
    destruct (and_new w q (cg_qps cg)) as [w1 qps] eqn:Q1.
    destruct (and_new w1 t (cg_tps cg)) as [w2 tps] eqn:Q2.
    apply and_new_sc in Q1. apply and_new_sc in Q2.
    set (rl2 := RL _ _ _ _ _ _).
    assert (NE : Forall (fun t => ts_stmts ts t <> []) (cg_trx cg)) by (eapply Forall_impl; [|exact R]; cbn; tauto).
    assert (RD : Forall (fun t => Forall (stmt_ready ks) (ts_stmts ts t)) (cg_trx cg)) by (eapply Forall_impl; [|exact R]; cbn; tauto).
    pose proof (walk_trx_g ts (wst0 && negb (cg_disableStats cg)) (cg_trx cg) NE (w_sc w2) rl2 0%nat []
                  (repeat stmt_nil (count_stmts ts (cg_trx cg))) [] eq_refl eq_refl) as G.
    rewrite repeat_length in G. cbn [app] in G. rewrite G by (apply count_stmts_eq). clear G.
    destruct (trxs_total (cg_trx cg) rl2 (w_sc w2)) as (sc3 & ds & -> & L3); auto; [now rewrite Q2, Q1|].
    match goal with |- context [walk_clients _ _ _ _ _ _ _ ?w ?r ?k _] => destruct (IH w r k) as (w' & rl' & cs & -> & E' & L') end.
    - destruct (rev (cg_trx cg)); exact E.
    - exact L3.
    - eauto 6.
  Qed.

  Context (ws : bool) (wl : list cgcfg) (READY : Forall cg_ready wl).

  Lemma cgs_total p q t refs : (forall r, In r refs -> (r < length wl)%nat) -> forall w rl n,
    rl_stage rl = st -> Loaded (w_sc w) ->
    exists w' rl' css, walk_cgs ts ws wl p q t w rl n refs = Some (w', rl', css) /\
      rl_stage rl' = st /\ Loaded (w_sc w').
  Proof.
    induction refs as [|r refs IH]; intros B w rl n E L; cbn [walk_cgs]; [eauto 6|].
    destruct (nth_error wl r) as [cg|] eqn:N.
    2:{ apply nth_error_None in N. specialize (B r (or_introl eq_refl)). lia. }
    destruct (and_new w q (cg_qpsClients cg)) as [w1 qps] eqn:Q1.
    destruct (and_new w1 t (cg_tpsClients cg)) as [w2 tps] eqn:Q2.
    apply and_new_sc in Q1. apply and_new_sc in Q2.
    assert (R : cg_ready cg) by (rewrite Forall_forall in READY; eapply READY, nth_error_In; eauto).
    match goal with |- context [walk_clients ?a ?b ?c ?d ?e ?f ?g ?h ?i ?j ?k] =>
      destruct (clients_total b c d e f g k R h i j) as (w4 & rl4 & cs & -> & E4 & L4) end; auto.
    { cbn. now rewrite Q2, Q1. }
    destruct (IH (fun r H => B r (or_intror H)) w4 rl4 (S n) E4 L4) as (w5 & rl5 & css & -> & E5 & L5). eauto 6.
  Qed.

  Lemma egs_total q t gs : Forall (fun g => g <> []) gs -> (forall r, In r (concat gs) -> (r < length wl)%nat) ->
    forall w rl n, rl_stage rl = st -> Loaded (w_sc w) ->
    exists w' rl' out, walk_egs ts ws wl q t w rl n gs = Some (w', rl', out) /\
      rl_stage rl' = st /\ Loaded (w_sc w').
  Proof.
    induction gs as [|g gs IH]; intros NE B w rl n E L; cbn [walk_egs]; [eauto 6|].
    inversion NE as [|? ? G0 NE']; subst. destruct g as [|r0 g]; [congruence|].
    destruct (nth_error wl r0) as [cg|] eqn:N.
    2:{ apply nth_error_None in N. specialize (B r0). cbn in B. specialize (B (or_introl eq_refl)). lia. }
    destruct (and_new w q (cg_qpsExecGroup cg)) as [w1 qps] eqn:Q1.
    destruct (and_new w1 t (cg_tpsExecGroup cg)) as [w2 tps] eqn:Q2.
    apply and_new_sc in Q1. apply and_new_sc in Q2. cbn [concat] in B.
    match goal with |- context [walk_cgs ?a ?b ?c ?d ?e ?f ?h ?i ?j ?k] =>
      destruct (cgs_total d e f k) with (w := h) (rl := i) (n := j) as (w4 & rl4 & css & -> & E4 & L4) end; auto.
    { intros r Hr. apply B, in_or_app. now left. }
    { cbn. now rewrite Q2, Q1. }
    destruct (IH NE' (fun r H => B r (in_or_app _ _ _ (or_intror H))) w4 rl4 (S n) E4 L4) as (w5 & rl5 & o & -> & E5 & L5).
    eauto 6.
  Qed.
End prep.

(** A stage whose statements only use its keys. *)
Definition stage_ready (ks : string -> option key) (st : stagecfg) : Prop :=
  (forall k ky, sg_keys st k = Some ky -> k_name ky = k) /\
  forall wl gs cg t, groups (sg_ts st) (sg_wl st) = Some (wl, gs) -> In cg wl -> In t (cg_trx cg) ->
    ts_stmts (sg_ts st) t <> [] /\ Forall (stmt_ready (stage_keys ks st)) (ts_stmts (sg_ts st) t).

Lemma stage_total s ks n st nx : RInv s ks n -> (n < sg_N st)%N -> stage_ready ks st ->
  exists w' out, prepare_stage st (WSt s nx) = Some (w', out).
Proof.
  intros R LT [NM RD]. unfold prepare_stage, allocate. cbn [w_sc w_next].
  destruct (stage_start s ks n st R LT NM) as (I1 & NG1 & _ & K1).
  set (s1 := load_keys (scopes_reset s) (sg_keys st)) in *.
  destruct (new_rate (WSt s1 nx) (sg_qps st)) as [w1 q] eqn:Q1.
  destruct (new_rate w1 (sg_tps st)) as [w2 t] eqn:Q2.
  assert (SC : w_sc w2 = s1).
  { unfold new_rate in *. destruct (sg_qps st =? 0)%N; inv Q1; destruct (sg_tps st =? 0)%N; inv Q2; reflexivity. }
  destruct (groups_spec (sg_ts st) (sg_wl st)) as (w0 & wl & gs & _ & _ & G & _).
  rewrite G. destruct (groups_partition _ _ _ _ G) as (P1 & P2 & _). unfold clients.
  assert (POS : (0 < sg_N st)%N) by lia.
  destruct (egs_total (stage_keys ks st) (sg_N st) POS (sg_ts st) (sg_stats st) wl) with
    (q := q) (t := t) (gs := gs) (w := w2) (rl := RL (sg_N st) 0 0 0 0 0) (n := 0%nat) as (w' & rl' & out & -> & _); auto.
  - apply Forall_forall. intros cg Hcg. apply Forall_forall. intros x Hx. eapply RD; eauto.
  - intros r Hr. rewrite P1 in Hr. apply in_seq in Hr. lia.
  - rewrite SC. split; [|exact K1]. constructor; auto.
    + apply (inv_name _ _ I1).
    + intros k ky X N Y. destruct (inv_key _ _ I1 k ky X N) as [_ Z]. now rewrite Y in Z.
  - eauto.
Qed.

(** All stages. *)
Fixpoint run_ready (ks : string -> option key) (sts : list stagecfg) : Prop :=
  match sts with
  | [] => True
  | st :: sts' => stage_ready ks st /\ run_ready (stage_keys ks st) sts'
  end.

Lemma run_total sts : forall s ks n nx, RInv s ks n -> run_ok sts -> Forall (fun st => (n < sg_N st)%N) sts ->
  run_ready ks sts -> exists w' outs, prepare_all sts (WSt s nx) = Some (w', outs).
Proof.
  induction sts as [|st sts IH]; intros s ks n nx R OK LT RD; cbn [prepare_all]; [eauto|].
  destruct RD as [RD RDS]. inversion LT as [|? ? LT1 LT2]; subst. destruct OK as [INC F].
  inversion F as [|? ? (F1 & F2 & F3) FS]; subst.
  destruct (stage_total s ks n st nx R LT1 RD) as (w' & out & H). rewrite H.
  destruct (stage_ok _ _ _ _ _ _ _ R LT1 F2 F3 H) as (R' & _).
  destruct w' as [s' nx']. cbn [w_sc] in R'.
  destruct (IH s' (stage_keys ks st) (sg_N st) nx' R') as (w2 & outs & ->); auto.
  - split; auto. intros a b sa sb L A B. apply (INC (S a) (S b)); auto. lia.
  - apply Forall_forall. intros y Hy. apply In_nth_error in Hy as [b Hb]. apply (INC 0%nat (S b) st y); auto. lia.
  - eauto.
Qed.
