(** The invariant of sequential remotes. *)
From Verif Require Import Prelude ConfigModel ConfigProofs TrxModel ApiModel ApiSpec ApiProofs ApiServerProofs ApiSeqProofs.

Section seq.
  Context (test : bool).

  Record seqinv (s : state) (tr : list event) : Prop := {
    q_names : forall i j c c' p p', s_threads s i = Some (c, p) -> s_threads s j = Some (c', p') ->
        main_pc p = true -> main_pc p' = true -> r_name (s_rcs s c) = r_name (s_rcs s c') -> i = j;
    q_st : forall c m, (c < s_nrcs s)%nat -> r_stage (s_rcs s c) = Some m ->
        match r_state (s_rcs s c) with
        | Ready | Booting => True
        | Runnable => booted s tr c m
        | Running => ran s tr c m
        end;
    q_thr : forall i c p, s_threads s i = Some (c, p) -> tinv s tr c p;
    q_known : known s tr;
    q_kept : forall c m, (c < s_nrcs s)%nat -> r_stage (s_rcs s c) = Some m ->
        mem s c m \/ g_booted (s_metas s m) = true \/ g_done (s_metas s m) = true;
    q_gone : forall m n, In (EBooted m n) tr ->
        sget n (g_clients (s_metas s m)) <> None \/ g_booted (s_metas s m) = true \/ g_done (s_metas s m) = true;
    q_new : forall m n, In (EBooted m n) tr -> (m < s_nmetas s)%nat;
    q_cnt : forall m, NoDup (cnt s tr m) /\ (forall n, In (Some n) (cnt s tr m) -> In (EBooted m n) tr)
              /\ (In None (cnt s tr m) -> g_local (s_metas s m) = true);
    q_fin : forall m, NoDup (fin s tr m) /\ (forall n, In (Some n) (fin s tr m) ->
        In (EDone m n) tr /\ In (EBooted m n) tr /\ sget n (g_clients (s_metas s m)) = None /\ g_booted (s_metas s m) = true);
    q_finl : forall m, In None (fin s tr m) -> In (ELocalDone m) tr;
    q_loc : NoDup (s_locals s) /\ (forall m, In m (s_locals s) -> g_run (s_metas s m) = true /\ ~ In None (fin s tr m));
    q_run : forall m, g_run (s_metas s m) = false -> fin s tr m = [] }.

  Lemma seqinv_init : seqinv init [].
  Proof. split; cbn; try easy; try (intros m; repeat constructor; easy). split; [constructor|easy]. Qed.

  Lemma fresh_meta s tr m : bound s -> sane test s tr -> (s_nmetas s <= m)%nat ->
    cnt s tr m = [] /\ fin s tr m = [] /\ s_metas s m = no_meta.
  Proof.
    intros B N Hm. unfold cnt, fin. rewrite (b_meta s B) by easy. destruct (n_new _ _ _ N m Hm) as [-> ->]. easy.
  Qed.

  Lemma in_cold s tr n m : sane test s tr -> s_cur s <> Some m -> sget n (g_clients (s_metas s m)) = None.
  Proof.
    intros N Hc. destruct (g_clients (s_metas s m)) as [|x l] eqn:E; [reflexivity|].
    exfalso. apply Hc. apply (n_cold _ _ _ N). now rewrite E.
  Qed.

  Lemma rstate_eqb_spec a b : rstate_eqb a b = true -> a = b.
  Proof. now destruct a, b. Qed.

  Lemma cl_booting s tr c m : seqinv s tr -> mem s c m -> r_state (s_rcs s c) = Booting ->
    ~ In (EBooted m (r_name (s_rcs s c))) tr.
  Proof. intros Q [_ H] Hst. destruct (q_known _ _ Q) as [K _]. destruct (K _ _ _ H) as (_ & _ & X). auto. Qed.

  (** The handler's own next step. *)
  Lemma own_step s tr i c p body ok s' es : bound s -> sane test s tr -> seqinv s tr ->
    s_threads s i = Some (c, p) -> thread_step s i c p body ok = Some (s', es) ->
    forall c' p', s_threads s' i = Some (c', p') -> c' = c /\ tinv s' (tr ++ es) c p'.
  Proof.
    intros B N Q Hi H c' p' Hi'. pose proof (q_thr _ _ Q _ _ _ Hi) as T.
    pose proof (b_tc s B _ _ _ Hi) as Hc. pose proof (q_st _ _ Q c) as St.
    unfold thread_step in H. cbv zeta in H.
    destruct p; cbn -[cnt fin] in T;
    repeat (dmh H; try discriminate H); try discriminate H; injection H as <- <-; cbn -[cnt fin] in Hi'; rewrite ?upd_same in Hi'; try discriminate;
      try (rewrite Hi in Hi'); try (injection Hi' as <- <-); (split; [reflexivity|]); rewrite ?app_nil_r;
      try exact T;
      try (match goal with E : rstate_eqb _ _ = true |- _ => apply rstate_eqb_spec in E end).
    - destruct T as [T|[_ T]]; [exact T|contradiction].
    - destruct T as (m & T1 & T2). exists m. auto.
    - destruct T as (m & T & Ts). pose proof (cl_booting _ _ _ _ Q T Ts) as NB. assert (n = m) as -> by (destruct T; congruence).
      destruct T as [T1 T2]. exists m. unfold booted. cbn -[cnt]. rewrite !upd_same. cbn -[cnt]. split; [split; [auto|]|].
      + apply in_app_iff. right. now left.
      + unfold cnt. rewrite counted_app. cbn -[oks]. rewrite app_nil_r. fold (cnt s tr m). intros Hin.
        now apply (q_cnt _ _ Q) in Hin.
    - exfalso. destruct T as (m & (T1 & T2) & _). congruence.
    - destruct (r_stage (s_rcs s c)) as [m|] eqn:Es; [|easy]. specialize (St m Hc eq_refl). rewrite Heqb in St. exists m. exact St.
    - destruct T as (m & T). exists m. split; [exact T|]. destruct T as [T _]. now rewrite T in Heqb.
    - destruct T as (m & T & Tr). exists m. destruct T as [T1 T2]. unfold ran, booted. cbn. rewrite !in_app_iff. repeat split; auto.
      right. left. congruence.
    - exfalso. destruct T as (m & (T1 & T2) & _). congruence.
    - destruct T as (m & T1 & T2). specialize (St m Hc T1). rewrite Heqb in St. exists m. split; [exact St|exact T2].
    - destruct T as (m & T & Tf). assert (n = m) as -> by (destruct T as [[T _] _]; congruence). exists m.
      destruct T as [[T1 T2] [T3 T4]]. unfold ran, booted, gone. cbn -[fin]. rewrite !upd_same. cbn -[fin]. repeat split; auto.
      + unfold fin. cbn. rewrite upd_same. exact Tf.
      + now rewrite sget_sdel, String.eqb_refl.
    - exfalso. destruct T as (m & ((T1 & T2) & _) & _). congruence.
    - destruct T as (m & T & Tf & Tg). assert (n = m) as -> by (destruct T as [[T _] _]; congruence). exists m.
      destruct T as [[T1 T2] [T3 T4]]. unfold ran, booted, gone. cbn -[fin]. rewrite !upd_same. cbn -[fin]. rewrite !in_app_iff.
      repeat split; auto.
    - exfalso. destruct T as (m & ((T1 & T2) & _) & _). congruence.
    - destruct (r_stage (s_rcs s c)) as [m|] eqn:Es; [|easy]. specialize (St m Hc eq_refl). rewrite Heqb in St. exists m.
      split; [exact Es|]. apply St.
  Qed.

  Lemma step_nmetas s a s' es : step test s a = Some (s', es) -> (s_nmetas s <= s_nmetas s')%nat.
  Proof. intros H. step_cases H; cbn; lia. Qed.

  (** Booted only goes up; so does [done]. *)
  Lemma step_booted s a s' es m : bound s -> step test s a = Some (s', es) -> (m < s_nmetas s)%nat ->
    (g_booted (s_metas s m) = true -> g_booted (s_metas s' m) = true)
    /\ (g_done (s_metas s m) = true -> g_done (s_metas s' m) = true)
    /\ (g_run (s_metas s m) = true -> g_run (s_metas s' m) = true)
    /\ g_local (s_metas s' m) = g_local (s_metas s m)
    /\ g_inst (s_metas s' m) = g_inst (s_metas s m)
    /\ g_id (s_metas s' m) = g_id (s_metas s m).
  Proof. intros B H Hm. step_cases H; cbn; ups; cbn; auto 6; try lia. Qed.

  (** Names of threads. *)
  Lemma names_step s tr a s' es : bound s -> seqinv s tr -> sequential s a -> step test s a = Some (s', es) ->
    forall i j c c' p p', s_threads s' i = Some (c, p) -> s_threads s' j = Some (c', p') ->
        main_pc p = true -> main_pc p' = true -> r_name (s_rcs s' c) = r_name (s_rcs s' c') -> i = j.
  Proof.
    intros B Q Hs H.
    assert (Old : forall i c p, s_threads s' i = Some (c, p) -> main_pc p = true ->
      (exists p0, s_threads s i = Some (c, p0) /\ main_pc p0 = true) \/ (exists q, a = ARequest q /\ main_request q = true /\ s_threads s i = None
           /\ option_map clean (q_name q) = Some (r_name (s_rcs s' c)) /\ i = s_nthreads s)).
    { intros i c p Hi Hp. destruct a.
      - unfold step, request_step in H.
        destruct (api_client s q) eqn:Ea; injection H as <- <-; [left; eauto| |].
        + destruct (api_client_new _ _ _ Ea) as (m & n0 & Hc & Hq & -> & _). cbn in Hi. unfold upd in Hi.
          destruct (Nat.eqb_spec i (s_nthreads s)) as [->|]; [|left; eauto]. injection Hi as <- <-. right. exists q.
          split; [reflexivity|]. split; [revert Hp; unfold first_pc, main_request; now destruct (q_path q), (is_get q)|].
          repeat split; auto; [apply (b_thr s B); lia|]. cbn. rewrite upd_same, Hq. reflexivity.
        + destruct (api_client_known _ _ _ Ea) as (m & n0 & Hc & Hq & Hg & _). cbn in Hi. unfold upd in Hi.
          destruct (Nat.eqb_spec i (s_nthreads s)) as [->|]; [|left; eauto]. injection Hi as <- <-. right. exists q.
          split; [reflexivity|]. split; [revert Hp; unfold first_pc, main_request; now destruct (q_path q), (is_get q)|].
          repeat split; auto; [apply (b_thr s B); lia|]. cbn. rewrite Hq. cbn. apply (b_cl s B) in Hg as (_ & _ & ->). reflexivity.
      - left. step_cases H; cbn in Hi; ups; eauto; try discriminate; try (injection Hi as <- <-); eauto; discriminate.
      - left. step_cases H; cbn in Hi; eauto.
      - left. step_cases H; cbn in Hi; eauto.
      - left. step_cases H; cbn in Hi; eauto.
      - left. step_cases H; cbn in Hi; eauto. }
    assert (Nm : forall c, (c < s_nrcs s)%nat -> r_name (s_rcs s' c) = r_name (s_rcs s c)).
    { intros c Hc. now apply (step_name _ _ _ _ _ c H). }
    intros i j c c' p p' Hi Hj Hp Hp' En.
    destruct (Old _ _ _ Hi Hp) as [(p0 & Hi0 & M0)|(q & -> & Hm & Hi0 & Hq & ->)], (Old _ _ _ Hj Hp') as [(p1 & Hj0 & M1)|(q' & E' & Hm' & Hj0 & Hq' & ->)].
    - eapply (q_names _ _ Q); [exact Hi0|exact Hj0|exact M0|exact M1|]. rewrite <- !Nm; eauto using (b_tc s B).
    - exfalso. subst a. apply (Hs Hm' _ _ _ Hi0 M0). rewrite Hq'. rewrite <- En. f_equal. symmetry. apply Nm. eauto using (b_tc s B).
    - exfalso. apply (Hs Hm _ _ _ Hj0 M1). rewrite Hq. rewrite En. f_equal. symmetry. apply Nm. eauto using (b_tc s B).
    - reflexivity.
  Qed.

  Lemma boots_step s tr a s' es m n : bound s -> seqinv s tr -> step test s a = Some (s', es) -> In (EBooted m n) es ->
    exists i body ok c, a = AThread i body ok /\ s_threads s i = Some (c, PostBootSet false)
      /\ r_stage (s_rcs s c) = Some m /\ r_name (s_rcs s c) = n.
  Proof.
    intros B Q H Hin. step_cases H; cbn in Hin; try (intuition discriminate).
    - destruct Hin as [[= <- <-]|[]]. do 4 eexists. repeat split; eauto.
    - exfalso. now apply (b_ts s B _ _ _ Heqo).
  Qed.

  (** A client keeps its stage. *)
  Lemma stage_stays s tr a s' es c m : seqinv s tr -> step test s a = Some (s', es) -> (c < s_nrcs s)%nat ->
    r_stage (s_rcs s c) = Some m -> r_stage (s_rcs s' c) = Some m.
  Proof.
    intros Q H Hc Hs. destruct (main_pc PingDone) eqn:X; [discriminate X|clear X].
    step_cases H; cbn; ups; cbn; auto; try congruence; try lia.
    match goal with E : s_threads _ _ = Some (_, GetBootWait) |- _ => apply (q_thr _ _ Q) in E; cbn in E; destruct E as (E & _) end.
    congruence.
  Qed.

  Lemma booted_stays s tr a s' es c m : seqinv s tr -> step test s a = Some (s', es) -> (c < s_nrcs s)%nat ->
    booted s tr c m -> booted s' (tr ++ es) c m.
  Proof.
    intros Q H Hc [B1 B2]. destruct (step_name _ _ _ _ _ c H Hc) as [Nm _]. unfold booted. rewrite Nm, in_app_iff.
    split; [|now left]. eapply stage_stays; eauto.
  Qed.
  Lemma ran_stays s tr a s' es c m : bound s -> seqinv s tr -> step test s a = Some (s', es) -> (c < s_nrcs s)%nat ->
    ran s tr c m -> ran s' (tr ++ es) c m.
  Proof.
    intros B Q H Hc (B1 & B2 & B3). destruct (step_name _ _ _ _ _ c H Hc) as [Nm _]. unfold ran. rewrite Nm, in_app_iff.
    split; [eapply booted_stays; eauto|]. split; [|now left]. destruct B1 as [B1 _].
    now apply (step_booted s a s' es m B H (b_rc s B _ _ B1)).
  Qed.

  (** Where a client's state and stage come from. *)
  Lemma rc_step s a s' es c : step test s a = Some (s', es) -> (c < s_nrcs s')%nat ->
    (c < s_nrcs s)%nat /\ s_rcs s' c = s_rcs s c
    \/ r_stage (s_rcs s' c) = None
    \/ (c < s_nrcs s)%nat /\ exists i p body ok, a = AThread i body ok /\ s_threads s i = Some (c, p)
         /\ match p with
            | GetBootWait => exists m, s_cur s = Some m /\ g_done (s_metas s m) = false /\ g_booted (s_metas s m) = false
                /\ s_rcs s' c = Rc (r_name (s_rcs s c)) (Some m) Booting
                /\ s_metas s' = upd (s_metas s) m (set_clients (s_metas s m) (sset (r_name (s_rcs s c)) c (g_clients (s_metas s m))))
            | PostBootSet false => s_rcs s' c = Rc (r_name (s_rcs s c)) (r_stage (s_rcs s c)) Runnable
            | GetRunSet => s_rcs s' c = Rc (r_name (s_rcs s c)) (r_stage (s_rcs s c)) Running
            | PostRunReady => s_rcs s' c = Rc (r_name (s_rcs s c)) (r_stage (s_rcs s c)) Ready
            | _ => False
            end.
  Proof.
    intros H Hc. step_cases H; cbn in *; ups; cbn in *; auto; try (left; split; [lia|reflexivity]).
    all: try (right; right; split; [exact Hc|]; do 4 eexists; split; [reflexivity|]; split; [eassumption|]; cbn; congruence).
    right. right. split; [exact Hc|]. do 4 eexists. split; [reflexivity|]. split; [eassumption|]. cbn.
    apply orb_false_elim in Heqb as [Hd _]. apply orb_false_elim in Hd as [Hd Hb]. eauto 9.
  Qed.

  Lemma st_step s tr a s' es : bound s -> seqinv s tr -> step test s a = Some (s', es) ->
    forall c m, (c < s_nrcs s')%nat -> r_stage (s_rcs s' c) = Some m ->
        match r_state (s_rcs s' c) with
        | Ready | Booting => True
        | Runnable => booted s' (tr ++ es) c m
        | Running => ran s' (tr ++ es) c m
        end.
  Proof.
    intros B Q H c m Hc Hs. destruct (rc_step s a s' es c H Hc) as [[Hlt E]|[E|[Hlt (i & p & body & ok & -> & Hi & E)]]].
    - pose proof (q_st _ _ Q c m Hlt) as X. rewrite E in Hs. specialize (X Hs). rewrite E.
      destruct (r_state (s_rcs s c)); auto; [eapply booted_stays; eauto|eapply ran_stays; eauto].
    - congruence.
    - pose proof (q_thr _ _ Q _ _ _ Hi) as T. destruct p; try contradiction; cbn in T.
      + destruct E as (m1 & _ & _ & _ & E & _). rewrite E. exact I.
      + destruct err; [contradiction|]. rewrite E in *. cbn in *. destruct T as (m1 & (T1 & T2) & _).
        unfold booted. rewrite E. cbn. split; [exact Hs|]. apply in_app_iff. right. unfold step in H. rewrite Hi in H.
        unfold thread_step in H. cbv zeta in H. injection H as _ <-. rewrite Hs. now left.
      + rewrite E in Hs. rewrite E. cbn in Hs |- *. destruct T as (m1 & T). pose proof T as [[T1 _] _]. assert (m1 = m) as -> by congruence.
        eapply ran_stays; eauto.
      + rewrite E. exact I.
  Qed.

  Lemma kept_step s tr a s' es : bound s -> sane test s tr -> seqinv s tr -> step test s a = Some (s', es) ->
    forall c m, (c < s_nrcs s')%nat -> r_stage (s_rcs s' c) = Some m ->
        mem s' c m \/ g_booted (s_metas s' m) = true \/ g_done (s_metas s' m) = true.
  Proof.
    intros B N Q H c m Hc Hs.
    assert (Old : (c < s_nrcs s)%nat -> r_stage (s_rcs s c) = Some m -> mem s' c m \/ g_booted (s_metas s' m) = true \/ g_done (s_metas s' m) = true).
    { intros Hlt Hs0. pose proof (b_rc s B _ _ Hs0) as Hm. destruct (step_booted s a s' es m B H Hm) as (S1 & S2 & _).
      destruct (step_name _ _ _ _ _ c H Hlt) as [Nm _].
      destruct (q_kept _ _ Q c m Hlt Hs0) as [[_ M]|[X|X]]; [|auto|auto]. unfold mem. rewrite Hs, Nm.
      destruct a as [q|i body ok|id inst dl trx lok|d|m0|].
      2: { pose proof H as H0. unfold step in H. destruct (s_threads s i) as [[c0 p]|] eqn:Ei; [|discriminate].
           pose proof (q_thr _ _ Q _ _ _ Ei) as T.
           destruct (thread_effect s i c0 p body ok s' es H) as (K & _ & _ & [E|[E|[E|[E|E]]]]).
           { destruct (booting_pc p) eqn:Eb; [now left|right]. eapply (b_ts s B); eassumption. }
           - destruct E as (E1 & _). left. now rewrite E1.
           - destruct E as (m1 & -> & Hcur & Hd & Hb & E1 & _). left. split; [reflexivity|]. rewrite E1.
             destruct (Nat.eqb_spec m m1) as [->|]; [|exact M]. rewrite sget_sset. destruct (String.eqb_spec (r_name (s_rcs s c)) (r_name (s_rcs s c0))) as [En|]; [|exact M].
             exfalso. cbn in T. destruct T as (_ & _ & T). specialize (T m1). rewrite <- En in T. congruence.
           - destruct E as (m1 & -> & Hs1 & E1 & _). left. now rewrite E1.
           - destruct E as (m1 & Hp & Hs1 & E1 & _). rewrite E1. destruct (Nat.eqb_spec m m1) as [->|]; [|left; now split].
             right. destruct Hp as [[err ->]|[-> Hd]]; [left|right; now apply S2].
             cbn in T. destruct T as (m2 & ((T1 & _) & T2 & _) & _). assert (m2 = m1) as -> by congruence. apply S1. now apply (n_run _ _ _ N).
           - destruct E as (st & Hp & E1 & _). left. now rewrite E1. }
      all: left; split; [reflexivity|].
      all: assert (F : frame (r_name (s_rcs s c)) s tr s' (tr ++ es)) by (eapply frame_step; [exact B|apply (q_thr _ _ Q)|exact H|discriminate]).
      all: step_cases H; cbn in *; ups; cbn in *; auto; try lia. }
    destruct (rc_step s a s' es c H Hc) as [[Hlt E]|[E|[Hlt (i & p & body & ok & -> & Hi & E)]]].
    - apply Old; congruence.
    - congruence.
    - destruct p; try contradiction.
      + destruct E as (m1 & _ & _ & _ & E & Em). left. unfold mem. rewrite E, Em in *. cbn in *. injection Hs as ->.
        rewrite upd_same. cbn. now rewrite sget_sset, String.eqb_refl.
      + destruct err; [contradiction|]. apply Old; [exact Hlt|]. rewrite E in Hs. exact Hs.
      + apply Old; [exact Hlt|]. rewrite E in Hs. exact Hs.
      + apply Old; [exact Hlt|]. rewrite E in Hs. exact Hs.
  Qed.

  (** Only one client of a name in a stage. *)
  Lemma one_step s tr a s' es : bound s -> seqinv s tr -> step test s a = Some (s', es) ->
    forall c c' m, (c < s_nrcs s')%nat -> (c' < s_nrcs s')%nat -> r_name (s_rcs s' c) = r_name (s_rcs s' c') ->
        r_stage (s_rcs s' c) = Some m -> r_stage (s_rcs s' c') = Some m -> c = c'.
  Proof.
    intros B Q H.
    assert (X : forall c m, (c < s_nrcs s')%nat -> r_stage (s_rcs s' c) = Some m ->
      (c < s_nrcs s)%nat /\ r_name (s_rcs s' c) = r_name (s_rcs s c) /\
      (r_stage (s_rcs s c) = Some m \/ exists i body ok, a = AThread i body ok /\ s_threads s i = Some (c, GetBootWait)
         /\ fresh s c /\ g_done (s_metas s m) = false /\ g_booted (s_metas s m) = false)).
    { intros c m Hc Hs. destruct (rc_step s a s' es c H Hc) as [[Hlt E]|[E|[Hlt (i & p & body & ok & -> & Hi & E)]]].
      - rewrite E in *. auto.
      - congruence.
      - split; [exact Hlt|]. destruct p; try contradiction.
        + pose proof (q_thr _ _ Q _ _ _ Hi) as T. destruct E as (m1 & Hcur & Hd & Hb & E & Em). rewrite E in *. cbn in *.
          injection Hs as ->. split; [reflexivity|]. right. eauto 9.
        + destruct err; [contradiction|]. rewrite E in *. auto.
        + rewrite E in *. auto.
        + rewrite E in *. auto. }
    assert (Y : forall c c' m i body ok, (c < s_nrcs s)%nat -> (c' < s_nrcs s)%nat -> r_name (s_rcs s c) = r_name (s_rcs s c') ->
       r_stage (s_rcs s c) = Some m -> a = AThread i body ok -> s_threads s i = Some (c', GetBootWait) -> fresh s c' ->
       g_done (s_metas s m) = false -> g_booted (s_metas s m) = false -> False).
    { intros c c' m i body ok Hc Hc' En Hs _ _ (F1 & F2 & F3) Hd Hb.
      destruct (q_kept _ _ Q c m Hc Hs) as [[_ M]|[Z|Z]]; congruence. }
    intros c c' m Hc Hc' En Hs Hs'. destruct (X c m Hc Hs) as (L & N1 & D), (X c' m Hc' Hs') as (L' & N1' & D').
    rewrite N1, N1' in En.
    destruct D as [D|(i & body & ok & Ea & Hi & F & Hd & Hb)], D' as [D'|(i' & body' & ok' & Ea' & Hi' & F' & Hd' & Hb')].
    - destruct (q_known _ _ Q) as [_ K]. exact (K c c' m L L' En D D').
    - exfalso. exact (Y c c' m i' body' ok' L L' En D Ea' Hi' F' Hd' Hb').
    - exfalso. exact (Y c' c m i body ok L' L (eq_sym En) D' Ea Hi F Hd Hb).
    - congruence.
  Qed.

  (** Handlers of pings, statistics, files and GET /run rely on nothing other handlers change. *)
  Lemma noise_step s tr a s' es c p : bound s -> seqinv s tr -> step test s a = Some (s', es) -> (c < s_nrcs s)%nat ->
    main_pc p = false -> tinv s tr c p -> tinv s' (tr ++ es) c p.
  Proof.
    intros B Q H Hc Hp T. destruct (step_name _ _ _ _ _ c H Hc) as [Nm _].
    assert (S : r_stage (s_rcs s c) <> None -> r_stage (s_rcs s' c) <> None).
    { destruct (r_stage (s_rcs s c)) as [m|] eqn:E; [|easy]. intros _. rewrite (stage_stays _ _ _ _ _ _ _ Q H Hc E). easy. }
    destruct p; try discriminate; cbn in *; auto; destruct T as (m & T); exists m.
    - eapply booted_stays; eauto.
    - destruct T as [T1 T2]. split; [eapply booted_stays; eauto|]. destruct T1 as [T1 _].
      now apply (step_booted s a s' es m B H (b_rc s B _ _ T1)).
    - destruct T as [T1 T2]. split; [eapply booted_stays; eauto|]. destruct T1 as [T1 _].
      now apply (step_booted s a s' es m B H (b_rc s B _ _ T1)).
    - eapply ran_stays; eauto.
    - destruct T as (T1 & T2). rewrite Nm, in_app_iff. split; [|now left]. eapply stage_stays; eauto.
  Qed.

  (** A thread that does not step stays where it is. *)
  Lemma other_thread s a s' es i c p : bound s -> step test s a = Some (s', es) -> s_threads s' i = Some (c, p) ->
    (exists body ok, a = AThread i body ok) \/ s_threads s i = Some (c, p)
    \/ (exists q, a = ARequest q /\ i = s_nthreads s /\ p = first_pc q
          /\ ((exists n, api_client s q = New n /\ c = s_nrcs s /\ s_rcs s' = upd (s_rcs s) c (Rc n None Ready))
              \/ (api_client s q = Known c /\ s_rcs s' = s_rcs s)) /\ s_metas s' = s_metas s /\ es = []).
  Proof.
    intros B H Hi. destruct a; try (right; left; step_cases H; cbn in Hi; eauto; fail).
    - right. unfold step, request_step in H. destruct (api_client s q) eqn:Ea; injection H as <- <-; [left; eauto| |].
      + cbn in Hi. unfold upd in Hi. destruct (Nat.eqb_spec i (s_nthreads s)) as [->|]; [|left; eauto].
        injection Hi as <- <-. right. exists q. repeat split; auto. left. eauto.
      + cbn in Hi. unfold upd in Hi. destruct (Nat.eqb_spec i (s_nthreads s)) as [->|]; [|left; eauto].
        injection Hi as <- <-. right. exists q. repeat split; auto.
    - destruct (Nat.eq_dec i i0) as [->|Hne]; [left; eauto|]. right. left.
      step_cases H; cbn in Hi; unfold upd in Hi; try (destruct (Nat.eqb_spec i i0); [congruence|]); exact Hi.
  Qed.

  Lemma thr_step s tr a s' es : bound s -> sane test s tr -> seqinv s tr -> step test s a = Some (s', es) ->
    forall i c p, s_threads s' i = Some (c, p) -> tinv s' (tr ++ es) c p.
  Proof.
    intros B N Q H i c p Hi.
    destruct (other_thread s a s' es i c p B H Hi) as [(body & ok & ->)|[Hi0|(q & -> & -> & -> & Hq & Hm & ->)]].
    - unfold step in H. destruct (s_threads s i) as [[c0 p0]|] eqn:E; [|discriminate].
      destruct (own_step s tr i c0 p0 body ok s' es B N Q E H c p Hi) as [-> T]. exact T.
    - destruct a as [q|j body ok|id inst dl trx lok|d|m|].
      2: destruct (Nat.eq_dec i j) as [->|Hne].
      2: { pose proof H as H'. unfold step in H'. rewrite Hi0 in H'.
           now destruct (own_step s tr j c p body ok s' es B N Q Hi0 H' c p Hi). }
      2: { destruct (main_pc p) eqn:Hmp.
           2: { eapply noise_step; eauto; [exact (b_tc s B _ _ _ Hi0)|exact (q_thr _ _ Q _ _ _ Hi0)]. }
           eapply tinv_frame; [exact B|exact (q_known _ _ Q)|exact (b_tc s B _ _ _ Hi0)|reflexivity| |exact (q_thr _ _ Q _ _ _ Hi0)].
           eapply frame_step; [exact B|exact (q_thr _ _ Q)|exact H|]. intros i0 body0 ok0 c0 p0 [= <- <- <-] Hj Hmp0 E.
           apply Hne. symmetry. eapply (q_names _ _ Q); eauto. }
      all: (eapply tinv_frame; [exact B|exact (q_known _ _ Q)|exact (b_tc s B _ _ _ Hi0)|reflexivity| |exact (q_thr _ _ Q _ _ _ Hi0)]);
        (eapply frame_step; [exact B|exact (q_thr _ _ Q)|exact H|]); discriminate.
    - rewrite app_nil_r. destruct Hq as [(n & Ea & -> & Hr)|(Ea & Hr)].
      + destruct (api_client_new _ _ _ Ea) as (m & n0 & Hc & Hq & -> & Hg & Hmeth & Hpath).
        unfold first_pc, is_get. rewrite Hpath, Hmeth. cbn. left. unfold fresh. rewrite Hr, upd_same, Hm. cbn.
        repeat split; auto. intros m'. destruct (Nat.eq_dec m' m) as [->|Hne]; [exact Hg|].
        apply (in_cold s tr); [exact N|congruence].
      + destruct (api_client_known _ _ _ Ea) as (m & n0 & Hc & Hq & Hg & Hmeth).
        destruct (b_cl s B _ _ _ Hg) as (_ & _ & En). destruct (q_known _ _ Q) as [K _].
        destruct (K _ _ _ Hg) as (K1 & K2 & _).
        unfold first_pc. destruct (q_path q); try destruct (is_get q); cbn -[fin]; unfold mem; rewrite ?Hr, ?Hm; try congruence.
        * right. split; [congruence|exact K2].
        * exists m. split; [exact K1|]. intros _. rewrite En. auto.
        * exists m. split; [exact K1|]. unfold fin. rewrite Hm. fold (fin s tr m). rewrite En. intros X.
          apply (q_fin _ _ Q) in X as (_ & _ & X & _). congruence.
  Qed.

  Lemma known_meta s n m c : bound s -> sget n (g_clients (s_metas s m)) = Some c -> (m < s_nmetas s)%nat.
  Proof.
    intros B H. destruct (Nat.lt_ge_cases m (s_nmetas s)) as [|Hge]; [easy|]. rewrite (b_meta s B) in H by easy. easy.
  Qed.

  Lemma cl_step s tr a s' es : bound s -> sane test s tr -> seqinv s tr -> step test s a = Some (s', es) ->
    forall m n c, sget n (g_clients (s_metas s' m)) = Some c ->
        r_stage (s_rcs s' c) = Some m /\ r_state (s_rcs s' c) <> Ready
        /\ (r_state (s_rcs s' c) = Booting -> ~ In (EBooted m n) (tr ++ es)).
  Proof.
    intros B N Q H m n c Hg. destruct (q_known _ _ Q) as [K1 K2].
    assert (F : frame n s tr s' (tr ++ es) -> ~ In (EBooted m n) es ->
        r_stage (s_rcs s' c) = Some m /\ r_state (s_rcs s' c) <> Ready
        /\ (r_state (s_rcs s' c) = Booting -> ~ In (EBooted m n) (tr ++ es))).
    { intros (F1 & F2 & F3 & _) He. destruct (F2 m) as [E|[E _]]; [|congruence]. rewrite E in Hg.
      destruct (b_cl s B _ _ _ Hg) as (Hc & _ & Hn). destruct (K1 _ _ _ Hg) as (Hs & Hr & Hb). rewrite in_app_iff.
      destruct (F1 c Hc Hn) as [->|[-> _]]; cbn; (split; [exact Hs|]); (split; [easy|]); [tauto|discriminate]. }
    destruct a as [q|i body ok|id inst dl trx lok|d|m0|].
    2: { pose proof H as H0. unfold step in H. destruct (s_threads s i) as [[c0 p]|] eqn:Ei; [|discriminate].
         destruct (String.eqb_spec (r_name (s_rcs s c0)) n) as [En|Hne].
         2: { apply F.
              - eapply frame_step; [exact B|exact (q_thr _ _ Q)|exact H0|]. intros i0 b0 k0 c1 p1 [= <- <- <-] E _. congruence.
              - intros Hin. destruct (boots_step s tr (AThread i body ok) s' es m n B Q) as (i0 & b0 & k0 & c1 & [= <- <- <-] & E & _ & En);
                  [exact H0|exact Hin|]. congruence. }
         pose proof (q_thr _ _ Q _ _ _ Ei) as T. pose proof (b_tc s B _ _ _ Ei) as Hc0.
         destruct (thread_effect s i c0 p body ok s' es H) as (K & _ & _ & [E|[E|[E|[E|E]]]]).
         { destruct (booting_pc p) eqn:Eb; [now left|right]. eapply (b_ts s B); eassumption. }
         - destruct E as (E1 & E2 & E3). rewrite E1 in Hg. rewrite E2. destruct (K1 _ _ _ Hg) as (Hs & Hr & Hb).
           split; [exact Hs|]. split; [exact Hr|]. rewrite in_app_iff. specialize (E3 m n). unfold boots in E3. tauto.
         - destruct E as (m1 & -> & Hcur & Hd & Hb & E1 & E2 & E3). cbn in T. destruct T as (T1 & T2 & T3).
           rewrite En in *. rewrite E1 in Hg. destruct (Nat.eqb_spec m m1) as [->|Hm1].
           + rewrite sget_sset, String.eqb_refl in Hg. injection Hg as <-. rewrite E2, upd_same. cbn. split; [reflexivity|].
             split; [discriminate|]. intros _. rewrite in_app_iff. intros [Hin|Hin]; [|now apply (E3 m1 n)].
             destruct (q_gone _ _ Q _ _ Hin) as [X|[X|X]]; [|congruence|congruence]. now apply X.
           + rewrite T3 in Hg. discriminate.
         - destruct E as (m1 & -> & Hs1 & E1 & E2 & ->). rewrite E1 in Hg. destruct (K1 _ _ _ Hg) as (Hs & Hr & Hb). rewrite E2.
           unfold upd. destruct (Nat.eqb_spec c c0) as [->|Hc].
           + cbn. split; [congruence|]. split; discriminate.
           + split; [exact Hs|]. split; [exact Hr|]. rewrite in_app_iff. intros Hb0 [Hin|[[= Em En0]|[]]]; [now apply Hb|].
             subst m1. destruct (b_cl s B _ _ _ Hg) as (Hcl & _ & Hnm). apply Hc. apply (K2 c c0 m); auto; congruence.
         - destruct E as (m1 & Hp & Hs1 & E1 & E2 & E3). rewrite En in *. rewrite E1 in Hg. destruct (Nat.eqb_spec m m1) as [->|Hm].
           + rewrite sget_sdel, String.eqb_refl in Hg. discriminate.
           + rewrite E2. destruct (K1 _ _ _ Hg) as (Hs & Hr & Hb). split; [exact Hs|]. split; [exact Hr|]. rewrite in_app_iff.
             specialize (E3 m n). unfold boots in E3. tauto.
         - destruct E as (st & Hp & E1 & E2 & E3). rewrite En in *. rewrite E1 in Hg. rewrite E2. unfold upd.
           destruct (K1 _ _ _ Hg) as (Hs & Hr & Hb). specialize (E3 m n). unfold boots in E3.
           destruct (Nat.eqb_spec c c0) as [->|Hc]; [|split; [exact Hs|]; split; [exact Hr|]; rewrite in_app_iff; tauto].
           cbn. split; [exact Hs|]. destruct Hp as [[-> ->]|[-> ->]]; [split; discriminate|].
           exfalso. cbn in T. destruct T as (m1 & ((T1 & _) & _) & T2). unfold gone in T2. rewrite En in T2. congruence. }
    all: apply F; [eapply frame_step; [exact B|exact (q_thr _ _ Q)|exact H|discriminate]|].
    all: intros Hin; destruct (boots_step _ _ _ _ _ _ _ B Q H Hin) as (? & ? & ? & ? & ? & _); discriminate.
  Qed.
End seq.
