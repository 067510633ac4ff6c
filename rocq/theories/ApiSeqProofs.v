(** What holds when every remote waits for an answer before its next request. *)
From Verif Require Import Prelude ConfigModel ConfigProofs TrxModel ApiModel ApiSpec ApiProofs ApiServerProofs.

Section seq.
  Context (test : bool).

  Definition oks (q : list ack) : list (option string) := map fst (filter (fun a => negb (snd a)) q).
  Definition cnt (s : state) (tr : list event) (m : nat) : list (option string) :=
    counted m tr ++ oks (g_bootq (s_metas s m)).
  Definition fin (s : state) (tr : list event) (m : nat) : list (option string) :=
    finished m tr ++ map fst (g_doneq (s_metas s m)).

  Lemma oks_app q q' : oks (q ++ q') = oks q ++ oks q'.
  Proof. unfold oks. now rewrite filter_app, map_app. Qed.

  Lemma oks_one w e : oks [(w, e)] = if e then [] else [w].
  Proof. now destruct e. Qed.

  Lemma cnt_step s tr a s' es m : step test s a = Some (s', es) -> (m < s_nmetas s)%nat ->
    cnt s' (tr ++ es) m = cnt s tr m
    \/ exists i body ok c, a = AThread i body ok /\ s_threads s i = Some (c, PostBootAck false)
         /\ (r_stage (s_rcs s c) = Some m \/ r_stage (s_rcs s c) = None)
         /\ cnt s' (tr ++ es) m = cnt s tr m ++ [Some (r_name (s_rcs s c))].
  Proof.
    intros H Hm. unfold cnt. rewrite counted_app.
    step_cases H; cbn -[app oks]; ups; cbn -[app oks]; rewrite ?app_nil_r; try lia; auto.
    all: rewrite ?oks_app, ?oks_one; rewrite ?app_assoc, ?app_nil_r; auto.
    all: try (match goal with E : g_bootq _ = _ |- _ => rewrite E end; cbn; rewrite <- ?app_assoc; now left).
    all: destruct err; rewrite ?app_nil_r; [now left|].
    all: right; exists i, body, ok; eexists; repeat split; eauto.
  Qed.

  Lemma fin_step s tr a s' es m : step test s a = Some (s', es) -> (m < s_nmetas s)%nat ->
    fin s' (tr ++ es) m = fin s tr m
    \/ (exists i body ok c err, a = AThread i body ok /\ s_threads s i = Some (c, PostRunAck err)
         /\ (r_stage (s_rcs s c) = Some m \/ r_stage (s_rcs s c) = None)
         /\ fin s' (tr ++ es) m = fin s tr m ++ [Some (r_name (s_rcs s c))])
    \/ (a = ALocalDone m /\ In m (s_locals s) /\ fin s' (tr ++ es) m = fin s tr m ++ [None]).
  Proof.
    intros H Hm. unfold fin. rewrite finished_app.
    step_cases H; cbn -[app]; ups; cbn -[app]; rewrite ?app_nil_r; try lia; auto.
    all: rewrite ?map_app; cbn -[app]; rewrite ?app_assoc, ?app_nil_r; auto.
    all: try (match goal with E : g_doneq _ = _ |- _ => rewrite E end; cbn; rewrite <- ?app_assoc; now left).
    all: try (right; left; exists i, body, ok; do 2 eexists; repeat split; eauto).
    all: try (right; right; repeat split; auto; match goal with E : existsb _ _ && _ = true |- _ =>
      apply andb_prop in E as [E _]; apply existsb_exists in E as (x & Hx & E); apply Nat.eqb_eq in E as <-; exact Hx end).
  Qed.

  (** ** What a handler relies on *)
  Definition mem (s : state) (c m : nat) : Prop :=
    r_stage (s_rcs s c) = Some m /\ sget (r_name (s_rcs s c)) (g_clients (s_metas s m)) = Some c.
  Definition fresh (s : state) (c : nat) : Prop :=
    r_stage (s_rcs s c) = None /\ r_state (s_rcs s c) = Ready
    /\ forall m, sget (r_name (s_rcs s c)) (g_clients (s_metas s m)) = None.
  Definition booted (s : state) (tr : list event) (c m : nat) : Prop :=
    r_stage (s_rcs s c) = Some m /\ In (EBooted m (r_name (s_rcs s c))) tr.
  Definition ran (s : state) (tr : list event) (c m : nat) : Prop :=
    booted s tr c m /\ g_run (s_metas s m) = true /\ In (ERun m (r_name (s_rcs s c))) tr.
  Definition gone (s : state) (c m : nat) : Prop :=
    sget (r_name (s_rcs s c)) (g_clients (s_metas s m)) = None.

  Definition tinv (s : state) (tr : list event) (c : nat) (p : pc) : Prop :=
    match p with
    | GetBootCheck => fresh s c \/ r_stage (s_rcs s c) <> None /\ r_state (s_rcs s c) <> Ready
    | GetBootWait => fresh s c
    | PostBootCheck => exists m, r_stage (s_rcs s c) = Some m /\ (r_state (s_rcs s c) = Booting -> mem s c m)
    | PostBootRead | PostBootSet _ | PostBootAck true =>
        exists m, mem s c m /\ r_state (s_rcs s c) = Booting
    | PostBootAck false => exists m, booted s tr c m /\ ~ In (Some (r_name (s_rcs s c))) (cnt s tr m)
    | FileCheck _ _ | StatsCheck | PingDone | GetRunCheck => r_stage (s_rcs s c) <> None
    | StatsRead => exists m, r_stage (s_rcs s c) = Some m /\ In (ERun m (r_name (s_rcs s c))) tr
    | GetRunWait => exists m, booted s tr c m
    | GetRunDone | GetRunWrite => exists m, booted s tr c m /\ g_run (s_metas s m) = true
    | GetRunSet => exists m, ran s tr c m
    | PostRunCheck => exists m, r_stage (s_rcs s c) = Some m /\ ~ In (Some (r_name (s_rcs s c))) (fin s tr m)
    | PostRunRead | PostRunDelete _ =>
        exists m, ran s tr c m /\ ~ In (Some (r_name (s_rcs s c))) (fin s tr m)
    | PostRunAck _ =>
        exists m, ran s tr c m /\ ~ In (Some (r_name (s_rcs s c))) (fin s tr m) /\ gone s c m
    | PostRunReady => exists m, ran s tr c m /\ gone s c m
    end.

  (** What happens to the clients named [n] when they do not step themselves, but for handlers of
      GET /run. *)
  Definition frame (n : string) (s : state) (tr : list event) (s' : state) (tr' : list event) : Prop :=
    (forall c, (c < s_nrcs s)%nat -> r_name (s_rcs s c) = n -> s_rcs s' c = s_rcs s c
       \/ s_rcs s' c = Rc n (r_stage (s_rcs s c)) Running /\ exists m, ran s tr c m)
    /\ (forall m, sget n (g_clients (s_metas s' m)) = sget n (g_clients (s_metas s m))
       \/ sget n (g_clients (s_metas s' m)) = None /\ g_done (s_metas s m) = true
          /\ exists c, (c < s_nrcs s)%nat /\ r_name (s_rcs s c) = n /\ booted s tr c m)
    /\ (forall m, (m < s_nmetas s)%nat -> g_run (s_metas s m) = true -> g_run (s_metas s' m) = true)
    /\ (forall m, (m < s_nmetas s)%nat -> In (Some n) (cnt s' tr' m) -> In (Some n) (cnt s tr m))
    /\ (forall m, (m < s_nmetas s)%nat -> In (Some n) (fin s' tr' m) -> In (Some n) (fin s tr m))
    /\ (forall e, In e tr -> In e tr').

  (** What is known of clients. *)
  Definition known (s : state) (tr : list event) : Prop :=
    (forall m n c, sget n (g_clients (s_metas s m)) = Some c ->
        r_stage (s_rcs s c) = Some m /\ r_state (s_rcs s c) <> Ready
        /\ (r_state (s_rcs s c) = Booting -> ~ In (EBooted m n) tr))
    /\ (forall c c' m, (c < s_nrcs s)%nat -> (c' < s_nrcs s)%nat -> r_name (s_rcs s c) = r_name (s_rcs s c') ->
        r_stage (s_rcs s c) = Some m -> r_stage (s_rcs s c') = Some m -> c = c').

  Lemma tinv_frame n s tr s' tr' c p : bound s -> known s tr -> (c < s_nrcs s)%nat -> r_name (s_rcs s c) = n ->
    frame n s tr s' tr' -> tinv s tr c p -> tinv s' tr' c p.
  Proof.
    intros B [K1 K2] Hc Hn (F1 & F2 & F3 & F4 & F5 & F6).
    assert (Nm : r_name (s_rcs s' c) = n /\ r_stage (s_rcs s' c) = r_stage (s_rcs s c)).
    { destruct (F1 c Hc Hn) as [->|[-> _]]; auto. }
    destruct Nm as [Nm Es]. pose proof (fun m => b_rc s B c m) as Hb.
    assert (M : forall m, mem s c m -> r_state (s_rcs s c) = Booting -> mem s' c m /\ r_state (s_rcs s' c) = Booting).
    { unfold mem. intros m [H1 H2] Hst. destruct (K1 _ _ _ H2) as (_ & _ & NB). specialize (NB Hst). rewrite Nm, Es, Hn in *. split.
      - split; [exact H1|]. destruct (F2 m) as [->|(_ & _ & c0 & Hc0 & N0 & B1 & B2)]; [exact H2|]. exfalso. rewrite N0 in B2. easy.
      - destruct (F1 c Hc Hn) as [->|[_ (m' & (B1 & B2) & _)]]; [exact Hst|]. exfalso. rewrite Hn in B2. congruence. }
    assert (Fr : fresh s c -> fresh s' c).
    { unfold fresh. rewrite Nm, Es, Hn. intros (H1 & H2 & H3). repeat split; auto.
      - destruct (F1 c Hc Hn) as [->|[_ (m' & (B1 & B2) & _)]]; [exact H2|congruence].
      - intros m. destruct (F2 m) as [->|[-> _]]; auto. }
    assert (Bo : forall m, booted s tr c m -> booted s' tr' c m).
    { unfold booted. rewrite Nm, Es, Hn. intros m [H1 H2]. auto. }
    assert (Ra : forall m, ran s tr c m -> ran s' tr' c m).
    { unfold ran. intros m (H1 & H2 & H3). split; [auto|]. rewrite Nm. rewrite Hn in H3. split; [|auto]. apply F3; [|exact H2]. apply Hb, H1. }
    assert (Go : forall m, gone s c m -> gone s' c m).
    { unfold gone. rewrite Nm, Hn. intros m H. destruct (F2 m) as [->|[-> _]]; auto. }
    assert (Hm : forall m, booted s tr c m -> (m < s_nmetas s)%nat) by (intros m [H _]; now apply Hb).
    destruct p; cbn -[cnt fin]; try (destruct err); rewrite ?Es; auto.
    all: try (intros [m H]; exists m; auto; fail).
    all: try (intros (m & H1 & H2); exists m; rewrite ?Nm, ?Hn in *; auto; fail).
    all: try (intros (m & H1 & H2); exists m; apply M; assumption).
    all: try (intros (m & H1 & H2); exists m; (split; [auto|]); apply F3; [apply Hm, H1|exact H2]).
    all: try (intros (m & H1 & H2); exists m; (split; [auto|]); rewrite Nm; rewrite Hn in H2;
      first [now auto|intros X; apply H2; first [apply F4|apply F5]; [|exact X]; first [apply Hb, H1|apply Hm, H1]]).
    all: try (intros (m & H1 & H2 & H3); exists m; (split; [auto|]); (split; [|auto]); rewrite Nm; rewrite Hn in H2; intros X; apply H2;
      apply F5; [|exact X]; apply Hm, H1).
    - intros [H|[H1 H2]]; [auto|]. right. split; [exact H1|]. destruct (F1 c Hc Hn) as [->|[-> _]]; [exact H2|easy].
    - intros (m & H1 & H2). exists m. split; [exact H1|]. destruct (F1 c Hc Hn) as [E|[E _]]; rewrite E; [|discriminate].
      intros Hst. apply M; auto.
  Qed.

  Lemma frame_step s tr a s' es n : bound s -> (forall i c p, s_threads s i = Some (c, p) -> tinv s tr c p) ->
    step test s a = Some (s', es) ->
    (forall i body ok c p, a = AThread i body ok -> s_threads s i = Some (c, p) -> main_pc p = true -> r_name (s_rcs s c) <> n) ->
    frame n s tr s' (tr ++ es).
  Proof.
    intros B T H Hn. split; [|split; [|split; [|split; [|split]]]].
    - intros c Hc En. step_cases H; cbn; ups; auto; try lia.
      all: try (exfalso; eapply Hn; [reflexivity|eassumption|reflexivity|reflexivity]).
      right. split; [reflexivity|]. eapply T in Heqo. exact Heqo.
    - intros m. step_cases H; cbn; ups; auto; cbn.
      all: rewrite ?sget_sset, ?sget_sdel.
      all: try match goal with |- context [if String.eqb ?a ?b then _ else _] =>
             destruct (String.eqb_spec a b) as [E0|]; [|now left] end.
      all: try (exfalso; eapply Hn; [reflexivity|eassumption|reflexivity|now rewrite E0]).
      all: try (left; rewrite (b_meta s B) by lia; reflexivity).
      all: right; split; [reflexivity|]; split; [assumption|]; exists n0; pose proof (b_tc s B _ _ _ Heqo); split; [assumption|];
        split; [auto|]; apply T in Heqo; cbn in Heqo; destruct Heqo as (m1 & Hb1 & _); destruct Hb1 as [B1 B2]; split; congruence.
    - intros m Hm. step_cases H; cbn; ups; try easy; lia.
    - intros m Hm Hi. destruct (cnt_step s tr a s' es m H Hm) as [E|(i & body & ok & c & -> & Hi' & _ & E)];
        rewrite E in Hi; [exact Hi|]. apply in_app_iff in Hi as [Hi|[[= Hi]|[]]]; [exact Hi|].
      exfalso. eapply Hn; [reflexivity|eassumption|reflexivity|auto].
    - intros m Hm Hi. destruct (fin_step s tr a s' es m H Hm) as [E|[(i & body & ok & c & err & -> & Hi' & _ & E)|(-> & _ & E)]];
        rewrite E in Hi; [exact Hi| |].
      + apply in_app_iff in Hi as [Hi|[[= Hi]|[]]]; [exact Hi|]. exfalso. eapply Hn; [reflexivity|eassumption|reflexivity|auto].
      + apply in_app_iff in Hi as [Hi|[[=]|[]]]; exact Hi.
    - intros e He. apply in_app_iff. now left.
  Qed.

  (** ** The effects of a step *)
  Definition boots (es : list event) (m : nat) (n : string) : Prop := In (EBooted m n) es.

  Lemma thread_effect s i c p body ok s' es :
    thread_step s i c p body ok = Some (s', es) -> booting_pc p = true \/ r_stage (s_rcs s c) <> None ->
    (forall m, kept (s_metas s m) (s_metas s' m)) /\ s_cur s' = s_cur s /\ s_nmetas s' = s_nmetas s /\
    ( ((forall m, g_clients (s_metas s' m) = g_clients (s_metas s m)) /\ s_rcs s' = s_rcs s /\ (forall m n, ~ boots es m n))
    \/ (exists m, p = GetBootWait /\ s_cur s = Some m /\ g_done (s_metas s m) = false /\ g_booted (s_metas s m) = false
         /\ (forall m', g_clients (s_metas s' m') = if Nat.eqb m' m then sset (r_name (s_rcs s c)) c (g_clients (s_metas s m)) else g_clients (s_metas s m'))
         /\ s_rcs s' = upd (s_rcs s) c (Rc (r_name (s_rcs s c)) (Some m) Booting) /\ (forall m n, ~ boots es m n))
    \/ (exists m, p = PostBootSet false /\ r_stage (s_rcs s c) = Some m
         /\ (forall m, g_clients (s_metas s' m) = g_clients (s_metas s m))
         /\ s_rcs s' = upd (s_rcs s) c (Rc (r_name (s_rcs s c)) (Some m) Runnable)
         /\ es = [EBooted m (r_name (s_rcs s c))])
    \/ (exists m, ((exists err, p = PostRunDelete err) \/ p = GetRunDone /\ g_done (s_metas s m) = true)
         /\ r_stage (s_rcs s c) = Some m
         /\ (forall m', g_clients (s_metas s' m') = if Nat.eqb m' m then sdel (r_name (s_rcs s c)) (g_clients (s_metas s m)) else g_clients (s_metas s m'))
         /\ s_rcs s' = s_rcs s /\ (forall m n, ~ boots es m n))
    \/ (exists st, ((p = GetRunSet /\ st = Running) \/ (p = PostRunReady /\ st = Ready))
         /\ (forall m, g_clients (s_metas s' m) = g_clients (s_metas s m))
         /\ s_rcs s' = upd (s_rcs s) c (Rc (r_name (s_rcs s c)) (r_stage (s_rcs s c)) st) /\ (forall m n, ~ boots es m n)) ).
  Proof.
    intros H Hst. split; [|split; [|split]].
    - intros m. unfold thread_step in H. cbv zeta in H.
      repeat (dmh H; try discriminate H); try discriminate H; injection H as <- <-; cbn; ups; cbn;
        try apply kept_refl; repeat split; try easy; try (now intros ? ->); cbn; intros D; rewrite D in *; discriminate.
    - unfold thread_step in H. cbv zeta in H.
      repeat (dmh H; try discriminate H); try discriminate H; injection H as <- <-; cbn; congruence.
    - unfold thread_step in H. cbv zeta in H.
      repeat (dmh H; try discriminate H); try discriminate H; injection H as <- <-; reflexivity.
    - unfold thread_step in H. cbv zeta in H.
      repeat (dmh H; try discriminate H); try discriminate H; injection H as <- <-; cbn; unfold boots; cbn.
      all: try (exfalso; destruct Hst as [Hst|Hst]; [discriminate Hst|now apply Hst]).
      all: try (left; repeat split; try reflexivity; try (intros ? ?; intuition discriminate); intros ?; ups; reflexivity).
      + right. left. apply orb_false_elim in Heqb as [Hd Hf]. apply orb_false_elim in Hd as [Hd Hb].
        exists n. repeat split; auto; try (intros; intuition discriminate). intros m'. ups; reflexivity.
      + right. right. left. exists n. repeat split; auto.
      + right. right. right. left. exists n. repeat split; eauto; try (intros; intuition discriminate). intros m'. ups; reflexivity.
      + right. right. right. right. exists Running. repeat split; auto.
      + right. right. right. left. exists n. repeat split; eauto; try (intros; intuition discriminate). intros m'. ups; reflexivity.
      + right. right. right. right. exists Ready. repeat split; auto. intros; intuition discriminate.
  Qed.
End seq.
