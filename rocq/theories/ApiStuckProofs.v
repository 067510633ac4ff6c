(** Consequences of the invariants, and states no request leads out of. *)
From Verif Require Import Prelude ConfigModel ConfigProofs TrxModel ApiModel ApiSpec ApiProofs ApiServerProofs ApiSeqProofs ApiInvProofs ApiReachProofs.

(** * Schedules *)
Lemma run_reach test ok s l s' es tr : reach test ok s tr -> run test s l = Some (s', es) ->
  (forall s1 a, ok s1 a) -> reach test ok s' (tr ++ es).
Proof.
  revert s tr es. induction l as [|a l IH]; cbn; intros s tr es R H Hok.
  - injection H as <- <-. now rewrite app_nil_r.
  - destruct (step test s a) as [[s1 e1]|] eqn:E; [|discriminate].
    destruct (run test s1 l) as [[s2 e2]|] eqn:E2; [|discriminate]. injection H as <- <-.
    rewrite app_assoc. eapply IH; [|exact E2|exact Hok]. econstructor; eauto.
Qed.

(** No live handler of a request a remote called [n] must not overlap. *)
Definition idleb (s : state) (n : string) : bool :=
  forallb (fun i => match s_threads s i with
                    | Some (c, p) => negb (main_pc p && String.eqb (r_name (s_rcs s c)) n)
                    | None => true
                    end) (seq 0 (s_nthreads s)).
Definition seqb (s : state) (a : action) : bool :=
  match a with
  | ARequest q => negb (main_request q) || match q_name q with Some n => idleb s (clean n) | None => true end
  | _ => true
  end.
Lemma seqb_spec s a : bound s -> seqb s a = true -> sequential s a.
Proof.
  intros B H. destruct a; cbn in *; auto. intros Hm i c p Hi Hp E. rewrite Hm in H. cbn in H. destruct (q_name q) as [n|]; [|discriminate].
  injection E as E. unfold idleb in H. rewrite forallb_forall in H.
  destruct (Nat.lt_ge_cases i (s_nthreads s)) as [Hl|Hl]; [|rewrite (b_thr s B) in Hi by lia; discriminate].
  specialize (H i). rewrite Hi, Hp, E, String.eqb_refl in H. cbn in H. discriminate H. apply in_seq. lia.
Qed.

Fixpoint run_seq (test : bool) (s : state) (l : list action) : bool :=
  match l with
  | [] => true
  | a :: l' => seqb s a && match step test s a with Some (s1, _) => run_seq test s1 l' | None => false end
  end.
Lemma run_reach_seq test s l s' es tr : reach test sequential s tr -> run test s l = Some (s', es) ->
  run_seq test s l = true -> reach test sequential s' (tr ++ es).
Proof.
  revert s tr es. induction l as [|a l IH]; cbn; intros s tr es R H Hok.
  - injection H as <- <-. now rewrite app_nil_r.
  - destruct (step test s a) as [[s1 e1]|] eqn:E; [|discriminate].
    destruct (run test s1 l) as [[s2 e2]|] eqn:E2; [|discriminate]. injection H as <- <-.
    apply andb_prop in Hok as [Ha Hok].
    rewrite app_assoc. eapply IH; [|exact E2|exact Hok]. econstructor; [exact R| |exact E].
    apply seqb_spec; [|exact Ha]. exact (reach_bound _ _ _ _ R).
Qed.

(** * The run signal *)
Lemma run_signal_seq test s tr a s' es m n : reach test sequential s tr -> sequential s a ->
  step test s a = Some (s', es) -> In (ERun m n) es ->
  In (EBooted m n) tr /\ g_run (s_metas s m) = true.
Proof.
  intros R Hs H Hin. destruct (reach_seq _ _ _ R) as (B & N & Q).
  assert (X : exists i c, s_threads s i = Some (c, GetRunWrite) /\ r_stage (s_rcs s c) = Some m /\ r_name (s_rcs s c) = n).
  { step_cases H; cbn in Hin; try (intuition discriminate).
    - destruct Hin as [[= <- <-]|[[=]|[]]]. eauto.
    - exfalso. now apply (b_ts s B _ _ _ Heqo). }
  destruct X as (i & c & Hi & Hst & <-). pose proof (q_thr _ _ Q _ _ _ Hi) as T. cbn in T.
  destruct T as (m1 & (T1 & T2) & T3). assert (m1 = m) as -> by congruence. auto.
Qed.

Lemma booted_instances test s tr m : reach test sequential s tr -> g_booted (s_metas s m) = true ->
  exists L, NoDup L /\ N.of_nat (List.length L) = g_inst (s_metas s m)
    /\ (forall n, In (Some n) L -> In (EBooted m n) tr) /\ (In None L -> g_local (s_metas s m) = true).
Proof.
  intros R Hb. destruct (reach_seq _ _ _ R) as (B & N & Q).
  exists (counted m tr). destruct (q_cnt _ _ Q m) as (Q1 & Q2 & Q3). unfold cnt in *.
  split; [|split; [now apply (n_booted _ _ _ N)|split]].
  - clear - Q1. induction (counted m tr); cbn in *; [constructor|]. inv Q1. constructor; [|auto].
    intros Hi. apply H1. apply in_app_iff. now left.
  - intros n Hn. apply Q2. apply in_app_iff. now left.
  - intros Hn. apply Q3. apply in_app_iff. now left.
Qed.

Lemma local_booted test ok s tr a s' es m : reach test ok s tr ->
  step test s a = Some (s', es) -> In (ELocal m) es -> g_booted (s_metas s m) = true /\ g_local (s_metas s m) = true /\ test = false.
Proof.
  intros R H Hin. destruct (reach_sane _ _ _ _ R) as (B & F & N). pose proof (n_srv _ _ _ N) as V.
  destruct a; try (exfalso; step_cases H; cbn in Hin; intuition discriminate; fail).
  unfold step, server_step in H. destruct (s_server s); try discriminate; cbn in V.
  all: cbv zeta in H; repeat (dmh H; try discriminate H); try discriminate H; injection H as <- <-; cbn in Hin; try (intuition discriminate).
  destruct Hin as [[= <-]|[]]. tauto.
Qed.

Lemma done_after_run test s tr a s' es m n : reach test sequential s tr -> sequential s a ->
  step test s a = Some (s', es) -> In (EDone m n) es -> In (ERun m n) tr /\ ~ In (Some n) (fin s tr m).
Proof.
  intros R Hs H Hin. destruct (reach_seq _ _ _ R) as (B & N & Q).
  assert (X : exists i c err, s_threads s i = Some (c, PostRunAck err) /\ r_stage (s_rcs s c) = Some m /\ r_name (s_rcs s c) = n).
  { step_cases H; cbn in Hin; try (intuition discriminate).
    - destruct Hin as [[= <- <-]|[]]. eauto 7.
    - exfalso. now apply (b_ts s B _ _ _ Heqo). }
  destruct X as (i & c & err & Hi & Hst & <-). pose proof (q_thr _ _ Q _ _ _ Hi) as T. cbn -[fin] in T.
  destruct T as (m1 & ((T1 & T2) & T3 & T4) & T5 & _). assert (m1 = m) as -> by congruence. auto.
Qed.

Lemma stats_while_running test s tr a s' es m n : reach test sequential s tr -> sequential s a ->
  step test s a = Some (s', es) -> In (EStats m n) es -> In (ERun m n) tr.
Proof.
  intros R Hs H Hin. destruct (reach_seq _ _ _ R) as (B & N & Q).
  assert (X : exists i c, s_threads s i = Some (c, StatsRead) /\ r_stage (s_rcs s c) = Some m /\ r_name (s_rcs s c) = n).
  { step_cases H; cbn in Hin; try (intuition discriminate).
    - destruct Hin as [[= <- <-]|[[=]|[]]]. eauto.
    - exfalso. now apply (b_ts s B _ _ _ Heqo). }
  destruct X as (i & c & Hi & Hst & <-). pose proof (q_thr _ _ Q _ _ _ Hi) as T. cbn -[fin] in T.
  destruct T as (m1 & T1 & T2). congruence.
Qed.

Lemma finished_instances test s tr a s' es m : reach test sequential s tr ->
  step test s a = Some (s', es) -> In (EEnd m) es ->
  exists L, NoDup L /\ N.of_nat (List.length L) = g_inst (s_metas s m)
    /\ (forall n, In (Some n) L -> In (EBooted m n) tr /\ In (EDone m n) tr) /\ (In None L -> In (ELocalDone m) tr).
Proof.
  intros R H Hin. destruct (reach_seq _ _ _ R) as (B & N & Q). pose proof (n_srv _ _ _ N) as V.
  destruct a; try (exfalso; step_cases H; cbn in Hin; intuition discriminate; fail).
  assert (X : s_server s = RunWait m 0).
  { unfold step, server_step in H. destruct (s_server s); try discriminate; cbn in V.
    all: cbv zeta in H; repeat (dmh H; try discriminate H); try discriminate H; injection H as <- <-; cbn in Hin; try (intuition discriminate).
    destruct Hin as [[= <-]|[]]. f_equal. now apply N.eqb_eq. }
  rewrite X in V. cbn in V. destruct V as [_ V].
  exists (finished m tr). destruct (q_fin _ _ Q m) as (Q1 & Q2). pose proof (q_finl _ _ Q m) as Q3. unfold fin in *.
  split; [|split; [lia|split]].
  - clear - Q1. induction (finished m tr); cbn in *; [constructor|]. inv Q1. constructor; [|auto].
    intros Hi. apply H1. apply in_app_iff. now left.
  - intros n Hn. destruct (Q2 n); [apply in_app_iff; now left|]. easy.
  - intros Hn. apply Q3. apply in_app_iff. now left.
Qed.

(** * --test *)
Definition run_pc (p : pc) : bool := match p with GetRunDone | GetRunWrite | GetRunSet => true | _ => false end.
Lemma test_no_run ok s tr : reach true ok s tr ->
  (forall m, g_run (s_metas s m) = false) /\ (forall i c p, s_threads s i = Some (c, p) -> run_pc p = false).
Proof.
  intros R. assert (G : forall s tr m, reach true ok s tr -> g_run (s_metas s m) = false).
  { intros s0 tr0 m R0. destruct (reach_sane _ _ _ _ R0) as (_ & _ & N).
    destruct (g_run (s_metas s0 m)) eqn:E; [|reflexivity]. now apply (n_run _ _ _ N) in E. }
  split; [intros m; eapply G; exact R|].
  induction R as [|s tr a s' es R IH Hok H]; [easy|]. intros i c p Hi.
  destruct (other_thread true s a s' es i c p (reach_bound _ _ _ _ R) H Hi) as [(body & ok' & ->)|[Hi0|(q & -> & -> & -> & _)]].
  - unfold step in H. destruct (s_threads s i) as [[c0 p0]|] eqn:E; [|discriminate]. specialize (IH _ _ _ E).
    unfold thread_step in H. cbv zeta in H.
    repeat (dmh H; try discriminate H); try discriminate H; injection H as <- <-; cbn in *; try discriminate;
      rewrite ?upd_same in Hi; try discriminate; try (injection Hi as <- <-; reflexivity); try (rewrite E in Hi; injection Hi as <- <-; reflexivity).
    exfalso. pose proof (G _ _ (match r_stage (s_rcs s c0) with Some m => m | None => 0%nat end) R). congruence.
  - eauto.
  - unfold first_pc. now destruct (q_path q), (is_get q).
Qed.

(** * A stage whose remotes are all booting *)
Definition quiet (names : list string) (a : action) : Prop :=
  forall q n, a = ARequest q -> q_path q = PBoot -> q_method q = POST -> q_name q = Some n -> ~ In (clean n) names.

Definition stuck_pc (s : state) (m c : nat) (p : pc) : Prop :=
  match p with
  | GetBootCheck | GetBootWait => True
  | FileCheck _ _ | GetRunCheck | PostRunCheck | StatsCheck | PingDone =>
      exists n, sget n (g_clients (s_metas s m)) = Some c
  | _ => False
  end.

Record stuck (m : nat) (s : state) : Prop := {
  k_cur : s_cur s = Some m;
  k_full : full (s_metas s m) = true;
  k_flags : g_done (s_metas s m) = false /\ g_booted (s_metas s m) = false /\ g_run (s_metas s m) = false;
  k_cl : forall n c, sget n (g_clients (s_metas s m)) = Some c ->
      r_state (s_rcs s c) = Booting /\ r_stage (s_rcs s c) = Some m;
  k_thr : forall i c p, s_threads s i = Some (c, p) -> stuck_pc s m c p;
  k_srv : s_server s = Stopped \/ exists k, s_server s = Boot m k /\ (k <> g_inst (s_metas s m))%N;
  k_q : Forall (fun a => snd a = true) (g_bootq (s_metas s m)) }.

Definition progress (e : event) : bool :=
  match e with
  | EAssigned _ _ _ | EBooted _ _ | ERun _ _ | ECount _ _ | ELocal _ | EEnd _ | EDone _ _ | EStats _ _ => true
  | _ => false
  end.

Lemma stuck_step test m s a s' es : bound s -> stuck m s -> quiet (skeys (g_clients (s_metas s m))) a ->
  step test s a = Some (s', es) ->
  stuck m s' /\ g_clients (s_metas s' m) = g_clients (s_metas s m) /\ Forall (fun e => progress e = false) es.
Proof.
  intros B K Hq H. destruct K as [Kc Kf (Kd & Kb & Kr) Kcl Kt Ks Kq].
  destruct a as [q|i body ok|id inst dl trx lok|d|m0|].
  - unfold step, request_step in H. destruct (api_client s q) as [code|n|c] eqn:Ea; injection H as <- <-.
    + split; [split; auto|]. split; [reflexivity|repeat constructor].
    + destruct (api_client_new _ _ _ Ea) as (m1 & n0 & Hcur & Hqn & -> & Hg & Hmeth & Hpath).
      split; [|split; [reflexivity|constructor]]. split; cbn; auto.
      * intros n c Hn. destruct (b_cl s B _ _ _ Hn) as (Hc & _). rewrite upd_other by lia. eauto.
      * intros i c p Hi. unfold upd in Hi. destruct (Nat.eqb_spec i (s_nthreads s)); [|now apply Kt in Hi].
        injection Hi as <- <-. unfold first_pc, is_get. rewrite Hpath, Hmeth. exact I.
    + destruct (api_client_known _ _ _ Ea) as (m1 & n0 & Hcur & Hqn & Hg & Hmeth).
      assert (m1 = m) as -> by congruence.
      split; [|split; [reflexivity|constructor]]. split; cbn; auto.
      intros i c' p Hi. unfold upd in Hi. destruct (Nat.eqb_spec i (s_nthreads s)); [|now apply Kt in Hi].
      injection Hi as <- <-. unfold first_pc, is_get.
      destruct (q_path q) eqn:Ep; cbn; eauto; destruct (q_method q) eqn:Em; cbn; eauto; try easy.
      exfalso. apply (Hq q n0 eq_refl Ep Em Hqn). apply sget_keys. congruence.
  - unfold step in H. destruct (s_threads s i) as [[c p]|] eqn:Ei; [|discriminate]. pose proof (Kt _ _ _ Ei) as T.
    assert (X : (s' = s \/ exists p', s' = with_thread s i p' /\ (p' = None \/ p' = Some (c, GetBootWait))) /\ Forall (fun e => progress e = false) es).
    { destruct p; cbn in T; try easy; unfold thread_step in H; cbv zeta in H.
      - dmh H; injection H as <- <-; split; eauto 6; repeat constructor.
      - rewrite Kc, Kf, Bool.orb_true_r in H. injection H as <- <-. split; [now left|constructor].
      - repeat (dmh H; try discriminate H); injection H as <- <-; split; eauto 6; repeat constructor.
      - destruct T as [n Hn]. destruct (Kcl _ _ Hn) as [E _]. rewrite E in H. cbn in H. injection H as <- <-. split; eauto 6; repeat constructor.
      - destruct T as [n Hn]. destruct (Kcl _ _ Hn) as [E _]. rewrite E in H. cbn in H. injection H as <- <-. split; eauto 6; repeat constructor.
      - destruct T as [n Hn]. destruct (Kcl _ _ Hn) as [E _]. rewrite E in H. cbn in H. injection H as <- <-. split; eauto 6; repeat constructor.
      - injection H as <- <-. split; eauto 6; repeat constructor. }
    destruct X as [[->|(p' & -> & Hp)] X]; (split; [|split; [reflexivity|exact X]]); split; auto.
    intros j c' p0 Hj. cbn in Hj. unfold upd in Hj. destruct (Nat.eqb_spec j i); [|now apply Kt in Hj].
    destruct Hp as [->| ->]; [discriminate|]. injection Hj as <- <-. exact I.
  - exfalso. unfold step in H. destruct Ks as [E|(k & E & _)]; rewrite E in H; discriminate.
  - unfold step, server_step in H. destruct Ks as [E|(k & E & Hk)]; rewrite E in H; [discriminate|].
    apply N.eqb_neq in Hk. rewrite Hk in H. destruct d.
    + destruct (s_cancelled s); [|discriminate]. injection H as <- <-. split; [|split; [reflexivity|constructor]].
      split; cbn; auto.
    + destruct (g_bootq (s_metas s m)) as [|[who err] l] eqn:Eq; [discriminate|]. inv Kq. cbn in H2. subst err.
      injection H as <- <-. cbn. rewrite upd_same. split; [|split; [reflexivity|constructor]].
      split; cbn -[upd]; rewrite ?upd_same; cbn; auto.
      * intros i c p Hi. pose proof (Kt _ _ _ Hi) as T. destruct p; cbn in *; auto; rewrite upd_same; exact T.
      * right. exists k. split; [exact E|now apply N.eqb_neq].
  - cbn in H. destruct (existsb _ _ && _); [|discriminate]. injection H as <- <-. cbn.
    assert (X : g_clients (upd (s_metas s) m0 (set_doneq (s_metas s m0) (g_doneq (s_metas s m0) ++ [(None, false)])) m)
      = g_clients (s_metas s m)) by (unfold upd; destruct (Nat.eqb_spec m m0) as [->|]; reflexivity).
    split; [|split; [exact X|repeat constructor]].
    split; cbn -[upd]; rewrite ?X; auto.
    + unfold upd. destruct (Nat.eqb_spec m m0) as [->|]; exact Kf.
    + unfold upd. destruct (Nat.eqb_spec m m0) as [->|]; auto.
    + intros i c p Hi. pose proof (Kt _ _ _ Hi) as T. destruct p; cbn -[upd] in *; auto; rewrite X; exact T.
    + unfold upd. destruct (Nat.eqb_spec m m0) as [->|]; exact Ks.
    + unfold upd. destruct (Nat.eqb_spec m m0) as [->|]; exact Kq.
  - injection H as <- <-. split; [|split; [reflexivity|constructor]]. split; cbn; auto.
Qed.

Lemma stuck_run test m l s s' es : bound s -> stuck m s -> Forall (quiet (skeys (g_clients (s_metas s m)))) l ->
  run test s l = Some (s', es) ->
  stuck m s' /\ g_clients (s_metas s' m) = g_clients (s_metas s m) /\ Forall (fun e => progress e = false) es.
Proof.
  revert s es. induction l as [|a l IH]; cbn; intros s es B K Hl H.
  - injection H as <- <-. auto.
  - destruct (step test s a) as [[s1 e1]|] eqn:E; [|discriminate].
    destruct (run test s1 l) as [[s2 e2]|] eqn:E2; [|discriminate]. injection H as <- <-. inv Hl.
    destruct (stuck_step test m s a s1 e1 B K H1 E) as (K1 & C1 & F1).
    destruct (IH s1 e2 (bound_step _ _ _ _ _ B E) K1) as (K2 & C2 & F2); [now rewrite C1|exact E2|].
    split; [exact K2|]. split; [congruence|]. apply Forall_app. auto.
Qed.

(** * A server that waits for a remote *)
Definition not_from (n : string) (a : action) : Prop :=
  forall q, a = ARequest q -> option_map clean (q_name q) <> Some n.

Definition waits (n : string) (old : nat) (s : state) : Prop :=
  (exists next k, s_server s = Stage3 old next k)
  /\ sget n (g_clients (s_metas s old)) <> None
  /\ (forall i c p, s_threads s i = Some (c, p) -> r_name (s_rcs s c) <> n).

Lemma waits_step test n old s a s' es : bound s -> waits n old s -> not_from n a -> step test s a = Some (s', es) ->
  waits n old s' /\ s_server s' = s_server s.
Proof.
  intros B ((next & k & Ev) & Hg & Ht) Hn H.
  assert (F2 : forall m, sget n (g_clients (s_metas s' m)) = sget n (g_clients (s_metas s m))).
  { intros m. clear Ev Hg. step_cases H; cbn; ups; auto; cbn; rewrite ?sget_sset, ?sget_sdel.
    all: try match goal with |- context [if String.eqb ?a ?b then _ else _] =>
           destruct (String.eqb_spec a b) as [E0|]; [exfalso; eapply Ht; [eassumption|now rewrite E0]|reflexivity] end.
    all: rewrite (b_meta s B) by lia; reflexivity. }
  assert (V : s_server s' = s_server s).
  { destruct a.
    - now apply (handler_kept test s (ARequest q) s' es).
    - now apply (handler_kept test s (AThread i body ok) s' es).
    - unfold step in H. rewrite Ev in H. discriminate.
    - unfold step, server_step in H. rewrite Ev in H. destruct (g_clients (s_metas s old)); [easy|].
      now injection H as <- _.
    - step_cases H; reflexivity.
    - step_cases H; reflexivity. }
  split; [|exact V]. split; [rewrite V; eauto|]. split; [now rewrite F2|].
  intros i c p Hi. destruct (other_thread test s a s' es i c p B H Hi) as [(body & ok & ->)|[Hi0|(q & -> & -> & -> & Hq & _)]].
  - unfold step in H. destruct (s_threads s i) as [[c0 p0]|] eqn:E; [|discriminate].
    assert (c = c0) as ->.
    { unfold thread_step in H. cbv zeta in H. repeat (dmh H; try discriminate H); try discriminate H; injection H as <- <-; cbn in Hi; rewrite ?upd_same in Hi; congruence. }
    intros En. apply (Ht _ _ _ E). rewrite <- En. symmetry.
    apply (step_name test s (AThread i body ok) s' es c0); [unfold step; now rewrite E|]. exact (b_tc s B _ _ _ E).
  - rewrite (proj1 (step_name test s a s' es c H (b_tc s B _ _ _ Hi0))). eauto.
  - intros En. destruct Hq as [(n1 & Ea & -> & Er)|(Ea & Er)].
    + destruct (api_client_new _ _ _ Ea) as (m1 & n0 & _ & Hqn & -> & _). rewrite Er, upd_same in En. cbn in En.
      apply (Hn q eq_refl). rewrite Hqn. cbn. congruence.
    + destruct (api_client_known _ _ _ Ea) as (m1 & n0 & _ & Hqn & Hg1 & _). rewrite Er in En.
      destruct (b_cl s B _ _ _ Hg1) as (_ & _ & E1). apply (Hn q eq_refl). rewrite Hqn. cbn. congruence.
Qed.

Lemma waits_run test n old l s s' es : bound s -> waits n old s -> Forall (not_from n) l ->
  run test s l = Some (s', es) -> s_server s' = s_server s /\ waits n old s'.
Proof.
  revert s es. induction l as [|a l IH]; cbn; intros s es B K Hl H.
  - injection H as <- <-. auto.
  - destruct (step test s a) as [[s1 e1]|] eqn:E; [|discriminate].
    destruct (run test s1 l) as [[s2 e2]|] eqn:E2; [|discriminate]. injection H as <- <-. inv Hl.
    destruct (waits_step test n old s a s1 e1 B K H1 E) as (K1 & V1).
    destruct (IH s1 e2 (bound_step _ _ _ _ _ B E) K1 H2 E2) as (V2 & K2). split; [congruence|exact K2].
Qed.
