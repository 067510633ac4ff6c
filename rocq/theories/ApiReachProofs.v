(** The invariant of sequential remotes, concluded, and the properties that follow. *)
From Verif Require Import Prelude ConfigModel ConfigProofs TrxModel ApiModel ApiSpec ApiProofs ApiServerProofs ApiSeqProofs ApiInvProofs.

Section seq.
  Context (test : bool).

  (** A client leaves only when the stage has run or is done. *)
  Lemma gone_step s tr a s' es : bound s -> sane test s tr -> seqinv s tr -> step test s a = Some (s', es) ->
    forall m n, In (EBooted m n) (tr ++ es) ->
        sget n (g_clients (s_metas s' m)) <> None \/ g_booted (s_metas s' m) = true \/ g_done (s_metas s' m) = true.
  Proof.
    intros B N Q H m n Hin. apply in_app_iff in Hin as [Hin|Hin].
    - pose proof (q_new _ _ Q _ _ Hin) as Hm. destruct (step_booted test s a s' es m B H Hm) as (S1 & S2 & _).
      destruct (q_gone _ _ Q _ _ Hin) as [Hg|[X|X]]; [|auto|auto].
      destruct (sget n (g_clients (s_metas s m))) as [c|] eqn:Ec; [clear Hg|easy].
      destruct a as [q|i body ok|id inst dl trx lok|d|m0|].
      2: { pose proof H as H0. unfold step in H. destruct (s_threads s i) as [[c0 p]|] eqn:Ei; [|discriminate].
           pose proof (q_thr _ _ Q _ _ _ Ei) as T.
           destruct (thread_effect s i c0 p body ok s' es H) as (K & _ & _ & [E|[E|[E|[E|E]]]]).
           { destruct (booting_pc p) eqn:Eb; [now left|right]. eapply (b_ts s B); eassumption. }
           - destruct E as (E1 & _). left. rewrite E1, Ec. easy.
           - destruct E as (m1 & -> & Hcur & Hd & Hb & E1 & _). left. rewrite E1. destruct (Nat.eqb_spec m m1) as [->|].
             + rewrite sget_sset. destruct (String.eqb n _); [easy|]. now rewrite Ec.
             + now rewrite Ec.
           - destruct E as (m1 & -> & Hs1 & E1 & _). left. rewrite E1, Ec. easy.
           - destruct E as (m1 & Hp & Hs1 & E1 & _). rewrite E1. destruct (Nat.eqb_spec m m1) as [->|]; [|left; now rewrite Ec].
             rewrite sget_sdel. destruct (String.eqb_spec n (r_name (s_rcs s c0))) as [->|]; [|left; now rewrite Ec].
             right. destruct Hp as [[err ->]|[-> Hd]]; [left|right; now apply S2].
             cbn in T. destruct T as (m2 & ((T1 & _) & T2 & _) & _). assert (m2 = m1) as -> by congruence.
             apply S1. now apply (n_run _ _ _ N).
           - destruct E as (st & Hp & E1 & _). left. rewrite E1, Ec. easy. }
      all: assert (F : frame n s tr s' (tr ++ es)) by (eapply frame_step; [exact B|exact (q_thr _ _ Q)|exact H|discriminate]).
      all: destruct F as (_ & F2 & _); destruct (F2 m) as [F|(_ & F & _)]; [left; rewrite F, Ec; easy|right; right; now apply S2].
    - destruct (boots_step test s tr a s' es m n B Q H Hin) as (i & body & ok & c & -> & Ei & Hs & Hn).
      left. pose proof (q_thr _ _ Q _ _ _ Ei) as T. cbn in T. destruct T as (m1 & (T1 & T2) & _).
      assert (m1 = m) as -> by congruence. unfold step in H. rewrite Ei in H. unfold thread_step in H. cbv zeta in H.
      injection H as <- _. cbn. rewrite <- Hn, T2. easy.
  Qed.

  Lemma new_step s tr a s' es : bound s -> seqinv s tr -> step test s a = Some (s', es) ->
    forall m n, In (EBooted m n) (tr ++ es) -> (m < s_nmetas s')%nat.
  Proof.
    intros B Q H m n Hin. pose proof (step_nmetas test s a s' es H). apply in_app_iff in Hin as [Hin|Hin].
    - apply (q_new _ _ Q) in Hin. lia.
    - destruct (boots_step test s tr a s' es m n B Q H Hin) as (i & body & ok & c & -> & Ei & Hs & Hn).
      apply (b_rc s B) in Hs. lia.
  Qed.

  (** A stage made by the step, or none. *)
  Lemma new_meta s a s' es m : bound s -> step test s a = Some (s', es) -> (s_nmetas s <= m)%nat ->
    es = [] /\ m = s_nmetas s /\ g_clients (s_metas s' m) = [] /\ g_run (s_metas s' m) = false /\ g_doneq (s_metas s' m) = []
      /\ (g_bootq (s_metas s' m) = [] \/ g_bootq (s_metas s' m) = [(None, false)] /\ g_local (s_metas s' m) = true)
    \/ (s_nmetas s' <= m)%nat.
  Proof.
    intros B H Hm. destruct (Nat.lt_ge_cases m (s_nmetas s')) as [Hlt|Hge].
    - left. step_cases H; cbn in Hlt; try lia; (assert (m = s_nmetas s) as -> by lia); cbn; rewrite !upd_same; cbn; auto 9.
    - now right.
  Qed.

  Lemma nodup_snoc {A} (l : list A) x : NoDup l -> ~ In x l -> NoDup (l ++ [x]).
  Proof.
    intros Hl Hx. induction l as [|y l IH]; cbn; [repeat constructor; easy|]. inv Hl. constructor.
    - rewrite in_app_iff. intros [Hi|[->|[]]]; [easy|]. apply Hx. now left.
    - apply IH; [easy|]. intros Hi. apply Hx. now right.
  Qed.

  Lemma cnt_inv_step s tr a s' es : bound s -> sane test s tr -> sane test s' (tr ++ es) -> seqinv s tr -> step test s a = Some (s', es) ->
    forall m, NoDup (cnt s' (tr ++ es) m) /\ (forall n, In (Some n) (cnt s' (tr ++ es) m) -> In (EBooted m n) (tr ++ es))
              /\ (In None (cnt s' (tr ++ es) m) -> g_local (s_metas s' m) = true).
  Proof.
    intros B N N' Q H m. destruct (Nat.lt_ge_cases m (s_nmetas s)) as [Hm|Hm].
    - destruct (q_cnt _ _ Q m) as (Q1 & Q2 & Q3). destruct (step_booted test s a s' es m B H Hm) as (_ & _ & _ & -> & _).
      destruct (cnt_step test s tr a s' es m H Hm) as [->|(i & body & ok & c & -> & Ei & Hs & ->)].
      + split; [exact Q1|]. split; [|exact Q3]. intros n Hn. apply in_app_iff. left. auto.
      + pose proof (q_thr _ _ Q _ _ _ Ei) as T. cbn -[cnt] in T. destruct T as (m1 & (T1 & T2) & T4).
        assert (m1 = m) as -> by (destruct Hs; congruence). split; [now apply nodup_snoc|]. split.
        * intros n Hn. apply in_app_iff. left. apply in_app_iff in Hn as [Hn|[[= <-]|[]]]; auto.
        * intros Hn. apply in_app_iff in Hn as [Hn|[[=]|[]]]. auto.
    - destruct (new_meta s a s' es m B H Hm) as [(-> & -> & Hc & Hr & Hd & Hb)|E].
      + rewrite app_nil_r. unfold cnt. destruct (n_new _ _ _ N (s_nmetas s) (le_n _)) as [-> _].
        destruct Hb as [->|[-> ->]]; cbn.
        * split; [constructor|]. split; [intros n []|intros []].
        * split; [constructor; [intros []|constructor]|]. split; [intros n [[=]|[]]|reflexivity].
      + unfold cnt. rewrite (b_meta s' (bound_step _ _ _ _ _ B H)) by exact E. destruct (n_new _ _ _ N' m E) as [-> _].
        cbn. split; [constructor|easy].
  Qed.

  Lemma fin_inv_step s tr a s' es : bound s -> sane test s tr -> sane test s' (tr ++ es) -> seqinv s tr -> step test s a = Some (s', es) ->
    forall m, NoDup (fin s' (tr ++ es) m) /\ (forall n, In (Some n) (fin s' (tr ++ es) m) ->
        In (EDone m n) (tr ++ es) /\ In (EBooted m n) (tr ++ es) /\ sget n (g_clients (s_metas s' m)) = None /\ g_booted (s_metas s' m) = true).
  Proof.
    intros B N N' Q H m. destruct (Nat.lt_ge_cases m (s_nmetas s)) as [Hm|Hm].
    - destruct (q_fin _ _ Q m) as (Q1 & Q2). destruct (step_booted test s a s' es m B H Hm) as (S1 & _).
      assert (Out : forall n, sget n (g_clients (s_metas s m)) = None -> In (EBooted m n) tr -> g_booted (s_metas s m) = true ->
                    sget n (g_clients (s_metas s' m)) = None).
      { intros n Hn Hb Hbt. destruct a as [q|i body ok|id inst dl trx lok|d|m0|].
        2: { unfold step in H. destruct (s_threads s i) as [[c0 p]|] eqn:Ei; [|discriminate].
             destruct (thread_effect s i c0 p body ok s' es H) as (K & _ & _ & [E|[E|[E|[E|E]]]]).
             { destruct (booting_pc p) eqn:Eb; [now left|right]. eapply (b_ts s B); eassumption. }
             - destruct E as (E1 & _). now rewrite E1.
             - destruct E as (m1 & -> & Hcur & Hd & Hbo & E1 & _). rewrite E1. destruct (Nat.eqb_spec m m1) as [->|]; [congruence|exact Hn].
             - destruct E as (m1 & -> & Hs1 & E1 & _). now rewrite E1.
             - destruct E as (m1 & Hp & Hs1 & E1 & _). rewrite E1. destruct (Nat.eqb_spec m m1) as [->|]; [|exact Hn].
               rewrite sget_sdel. now destruct (String.eqb n _).
             - destruct E as (st & Hp & E1 & _). now rewrite E1. }
        all: assert (F : frame n s tr s' (tr ++ es)) by (eapply frame_step; [exact B|exact (q_thr _ _ Q)|exact H|discriminate]).
        all: destruct F as (_ & F2 & _); destruct (F2 m) as [F|[F _]]; congruence. }
      assert (Old : forall n, In (Some n) (fin s tr m) -> In (EDone m n) (tr ++ es) /\ In (EBooted m n) (tr ++ es)
                /\ sget n (g_clients (s_metas s' m)) = None /\ g_booted (s_metas s' m) = true).
      { intros n Hn. destruct (Q2 n Hn) as (X1 & X2 & X3 & X4). rewrite !in_app_iff. repeat split; auto. }
      destruct (fin_step test s tr a s' es m H Hm) as [->|[(i & body & ok & c & err & -> & Ei & Hs & ->)|(-> & Hl & ->)]].
      + split; [exact Q1|exact Old].
      + pose proof (q_thr _ _ Q _ _ _ Ei) as T. cbn -[fin] in T. destruct T as (m1 & ((T1 & Hb) & T4 & Hrun) & T5 & T2). unfold gone in T2.
        assert (m1 = m) as -> by (destruct Hs; congruence). split; [now apply nodup_snoc|].
        intros n Hn. apply in_app_iff in Hn as [Hn|[[= <-]|[]]]; [auto|].
        pose proof (proj1 (n_run _ _ _ N m T4)) as Hbt.
        rewrite !in_app_iff. repeat split; auto. right.
        unfold step in H. rewrite Ei in H. unfold thread_step in H. cbv zeta in H. dmh H; [|discriminate]. injection H as _ <-.
        rewrite T1. now left.
      + split; [apply nodup_snoc; [exact Q1|now apply (q_loc _ _ Q)]|].
        intros n Hn. apply in_app_iff in Hn as [Hn|[[=]|[]]]. auto.
    - assert (E : fin s' (tr ++ es) m = []).
      { unfold fin. destruct (new_meta s a s' es m B H Hm) as [(-> & -> & _ & _ & -> & _)|E].
        - cbn [map]. rewrite !app_nil_r. now destruct (n_new _ _ _ N (s_nmetas s) (le_n _)) as [_ ->].
        - rewrite (b_meta s' (bound_step _ _ _ _ _ B H)) by exact E. now destruct (n_new _ _ _ N' m E) as [_ ->]. }
      rewrite E. split; [constructor|easy].
  Qed.

  Lemma fin_new s tr a s' es m : bound s -> sane test s tr -> sane test s' (tr ++ es) -> step test s a = Some (s', es) ->
    (s_nmetas s <= m)%nat -> fin s' (tr ++ es) m = [].
  Proof.
    intros B N N' H Hm. unfold fin. destruct (new_meta s a s' es m B H Hm) as [(-> & -> & _ & _ & -> & _)|E].
    - cbn [map]. rewrite !app_nil_r. now destruct (n_new _ _ _ N (s_nmetas s) (le_n _)) as [_ ->].
    - rewrite (b_meta s' (bound_step _ _ _ _ _ B H)) by exact E. now destruct (n_new _ _ _ N' m E) as [_ ->].
  Qed.

  Lemma finl_step s tr a s' es : bound s -> sane test s tr -> sane test s' (tr ++ es) -> seqinv s tr -> step test s a = Some (s', es) ->
    forall m, In None (fin s' (tr ++ es) m) -> In (ELocalDone m) (tr ++ es).
  Proof.
    intros B N N' Q H m Hin. destruct (Nat.lt_ge_cases m (s_nmetas s)) as [Hm|Hm].
    2: { now rewrite (fin_new s tr a s' es m B N N' H Hm) in Hin. }
    apply in_app_iff.
    destruct (fin_step test s tr a s' es m H Hm) as [E|[(i & body & ok & c & err & -> & Ei & Hs & E)|(-> & Hl & E)]]; rewrite E in Hin.
    - left. now apply (q_finl _ _ Q).
    - left. apply in_app_iff in Hin as [Hin|[[=]|[]]]. now apply (q_finl _ _ Q).
    - right. step_cases H. now left.
  Qed.

  Lemma remove_one_nodup m l : NoDup l -> NoDup (remove_one m l) /\ (forall x, In x (remove_one m l) <-> In x l /\ x <> m).
  Proof.
    induction 1 as [|y l Hy Hl IH]; cbn; [split; [constructor|firstorder]|]. destruct IH as [I1 I2].
    destruct (Nat.eqb_spec y m) as [->|Hn].
    - split; [exact Hl|]. intros x. split; [|intros [[->|Hx] Hne]; easy]. intros Hx. split; [now right|]. intros ->. easy.
    - split; [constructor; [rewrite I2; tauto|exact I1]|]. intros x. cbn. rewrite I2. split.
      + intros [->|[Hx Hne]]; auto.
      + intros [[->|Hx] Hne]; auto.
  Qed.

  Lemma loc_step s tr a s' es : bound s -> sane test s tr -> sane test s' (tr ++ es) -> seqinv s tr -> step test s a = Some (s', es) ->
    NoDup (s_locals s') /\ (forall m, In m (s_locals s') -> g_run (s_metas s' m) = true /\ ~ In None (fin s' (tr ++ es) m)).
  Proof.
    intros B N N' Q H. destruct (q_loc _ _ Q) as [L1 L2].
    assert (L : s_locals s' = s_locals s /\ (forall m, a <> ALocalDone m)
              \/ (exists m n d, a = AServer d /\ s_server s = RunStart m n /\ s_locals s' = m :: s_locals s /\ g_run (s_metas s' m) = true
                  /\ g_run (s_metas s m) = false)
              \/ (exists m, a = ALocalDone m /\ s_locals s' = remove_one m (s_locals s))).
    { pose proof (n_srv _ _ _ N) as V. destruct a.
      - left. split; [|easy]. step_cases H; reflexivity.
      - left. split; [|easy]. step_cases H; reflexivity.
      - left. split; [|easy]. step_cases H; reflexivity.
      - unfold step, server_step in H. destruct (s_server s) eqn:Ev; try discriminate; cbn in V.
        all: try (left; split; [|easy]; cbv zeta in H; repeat (dmh H; try discriminate H); try discriminate H; injection H as <- <-; reflexivity).
        cbv zeta in H. destruct (g_local (s_metas s m)) eqn:El; injection H as <- <-; [|left; split; [reflexivity|easy]].
        right. left. exists m, n, done. cbn. rewrite upd_same. repeat split; try easy; try tauto.
      - right. right. exists m. step_cases H. split; reflexivity.
      - left. split; [|easy]. step_cases H; reflexivity. }
    assert (X : forall m, In m (s_locals s) -> a <> ALocalDone m -> g_run (s_metas s' m) = true /\ ~ In None (fin s' (tr ++ es) m)).
    { intros m Hm Ha. destruct (L2 m Hm) as [R F]. pose proof (b_loc s B m Hm) as Hlt.
      split; [now apply (step_booted test s a s' es m B H Hlt)|].
      destruct (fin_step test s tr a s' es m H Hlt) as [->|[(i & body & ok & c & err & -> & Ei & Hs & ->)|(-> & _ & _)]]; [exact F| |easy].
      rewrite in_app_iff. intros [Hx|[[=]|[]]]. easy. }
    destruct L as [[-> Ha]|[(m & n & d & -> & Ev & -> & Hr & Hr0)|(m & -> & ->)]].
    - split; [exact L1|]. intros m Hm. now apply X.
    - split.
      + constructor; [|exact L1]. intros Hm. apply L2 in Hm as [Hm _]. congruence.
      + intros m' [<-|Hm']; [|now apply X]. split; [exact Hr|].
        pose proof (b_srv s B) as Hlt. rewrite Ev in Hlt. cbn in Hlt.
        destruct (fin_step test s tr (AServer d) s' es m H Hlt) as [->|[(i & body & ok & c & err & [=] & _)|([=] & _ & _)]].
        now rewrite (q_run _ _ Q m Hr0).
    - destruct (remove_one_nodup m (s_locals s) L1) as [R1 R2]. split; [exact R1|].
      intros m' Hm'. apply R2 in Hm' as [Hm' Hne]. apply X; congruence.
  Qed.

  Lemma run_step s tr a s' es : bound s -> sane test s tr -> sane test s' (tr ++ es) -> seqinv s tr -> step test s a = Some (s', es) ->
    forall m, g_run (s_metas s' m) = false -> fin s' (tr ++ es) m = [].
  Proof.
    intros B N N' Q H m Hr. destruct (Nat.lt_ge_cases m (s_nmetas s)) as [Hm|Hm].
    2: { exact (fin_new s tr a s' es m B N N' H Hm). }
    assert (Hr0 : g_run (s_metas s m) = false).
    { destruct (g_run (s_metas s m)) eqn:E; [|reflexivity]. apply (step_booted test s a s' es m B H Hm) in E. congruence. }
    destruct (fin_step test s tr a s' es m H Hm) as [->|[(i & body & ok & c & err & -> & Ei & Hs & E)|(-> & Hl & E)]].
    - now apply (q_run _ _ Q).
    - pose proof (q_thr _ _ Q _ _ _ Ei) as T. cbn -[fin] in T. destruct T as (m1 & ((T1 & _) & T4 & _) & _).
      assert (m1 = m) as -> by (destruct Hs; congruence). congruence.
    - apply (q_loc _ _ Q) in Hl as [Hl _]. congruence.
  Qed.

  Lemma seqinv_step s tr a s' es : bound s -> sane test s tr -> sane test s' (tr ++ es) -> seqinv s tr ->
    sequential s a -> step test s a = Some (s', es) -> seqinv s' (tr ++ es).
  Proof.
    intros B N N' Q Hs H. split.
    - eapply names_step; eassumption.
    - eapply st_step; eassumption.
    - eapply thr_step; eassumption.
    - split; [eapply cl_step; eassumption|eapply one_step; eassumption].
    - eapply kept_step; eassumption.
    - eapply gone_step; eassumption.
    - eapply new_step; eassumption.
    - eapply cnt_inv_step; eassumption.
    - eapply fin_inv_step; eassumption.
    - eapply finl_step; eassumption.
    - eapply loc_step; eassumption.
    - eapply run_step; eassumption.
  Qed.

  Lemma reach_seq s tr : reach test sequential s tr -> bound s /\ sane test s tr /\ seqinv s tr.
  Proof.
    induction 1 as [|s tr a s' es R (B & N & Q) Hok H].
    - split; [apply bound_init|]. split; [apply sane_init|apply seqinv_init].
    - assert (R' : reach test sequential s' (tr ++ es)) by (econstructor; eassumption).
      destruct (reach_sane _ _ _ _ R') as (B' & _ & N'). split; [exact B'|]. split; [exact N'|].
      exact (seqinv_step s tr a s' es B N N' Q Hok H).
  Qed.
End seq.
