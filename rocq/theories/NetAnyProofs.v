(** What holds of remote instances however late their requests and the answers are. *)
From Verif Require Import Prelude ConfigModel NetModel NetSpec NetServerProofs NetProofs.
From Verif Require ApiSpec ApiProofs ApiServerProofs ApiInvProofs.

Section Net.
  Context (test : bool) (name : nat -> string) (cfg : nat -> stage) (addr msg : string).
  Notation step := (step test name cfg addr msg).

  Definition assigned (tr : list event) (r m : nat) : Prop := In (ES (A.EAssigned m (A.clean (name r)) true)) tr.

  Definition ph_ok (tr : list event) (r : nat) (m : remote) : Prop :=
    match R.m_phase (m_st m) with
    | R.Files _ c | R.Collector _ c | R.Prepare _ c => exists g, m_stage m = Some g /\ c = cfg g
    | R.SendOK _ | R.WaitRun _ | R.Running _ | R.SendDone _ => exists g, m_stage m = Some g /\ prepared cfg tr r g
    | _ => True
    end.
  Definition cn_ok (w : state) (tr : list event) (r i : nat) : Prop :=
    (i < A.s_nthreads (w_srv w))%nat
    /\ (forall c p, A.s_threads (w_srv w) i = Some (c, p) -> A.r_name (A.s_rcs (w_srv w) c) = A.clean (name r))
    /\ (forall code g, w_ans w i = Some (code, Some g) -> assigned tr r g).

  Record ainv (w : state) (tr : list event) : Prop := {
    a_reach : ApiSpec.reach test ApiSpec.any (w_srv w) (server tr);
    a_ph : forall r, ph_ok tr r (w_rem w r);
    a_cn : forall r f i, m_fl (w_rem w r) = Some f -> f_conn f = Some i -> cn_ok w tr r i;
    a_st : forall r g, m_stage (w_rem w r) = Some g -> assigned tr r g }.

  Lemma ainv_init : ainv init [].
  Proof. split; cbn; try easy. constructor. Qed.

  Lemma ph_mono tr es r m : ph_ok tr r m -> ph_ok (tr ++ es) r m.
  Proof.
    unfold ph_ok, prepared. destruct (R.m_phase (m_st m)); auto; intros (g & H & H'); exists g; rewrite ?in_app_iff; tauto.
  Qed.
  Lemma as_mono tr es r g : assigned tr r g -> assigned (tr ++ es) r g.
  Proof. unfold assigned. rewrite in_app_iff. tauto. Qed.

  Lemma own_assigned s i c p body ok s' es code g : A.thread_step s i c p body ok = Some (s', es) ->
    answered es = Some (code, Some g) -> In (A.EAssigned g (A.r_name (A.s_rcs s c)) true) es.
  Proof.
    intros H Ha. unfold A.thread_step in H. cbv zeta in H.
    destruct p; repeat (dmh H; try discriminate H); try discriminate H; injection H as <- <-; cbn in Ha; try discriminate Ha.
    destruct ok; [|discriminate]. injection Ha as <- <-. cbn. auto.
  Qed.

  Lemma arrive_parts w q b w' es : arrive w q b = (w', es) ->
    A.step test (w_srv w) (A.ARequest q) = Some (w_srv w', es) /\ w_rem w' = w_rem w /\ w_stray w' = w_stray w
    /\ w_ans w' = A.upd (w_ans w) (A.s_nthreads (w_srv w)) None.
  Proof.
    unfold arrive. cbn. destruct (A.request_step (w_srv w) q) as [s ses]. intros [= <- <-]. auto.
  Qed.

  (** A step of the server. *)
  Lemma ainv_server w tr a s' es w' : ainv w tr -> A.step test (w_srv w) a = Some (s', es) -> w_srv w' = s' -> w_rem w' = w_rem w ->
    (forall i code g, (i < A.s_nthreads (w_srv w))%nat -> w_ans w' i = Some (code, Some g) ->
       w_ans w i = Some (code, Some g)
       \/ exists c p, A.s_threads (w_srv w) i = Some (c, p) /\ In (A.EAssigned g (A.r_name (A.s_rcs (w_srv w) c)) true) es) ->
    ainv w' (tr ++ map ES es).
  Proof.
    intros I H <- Er Ha. destruct (ApiServerProofs.reach_sane _ _ _ _ (a_reach _ _ I)) as (B & _).
    split.
    - rewrite server_app, server_map. econstructor; [exact (a_reach _ _ I)|exact Logic.I|exact H].
    - intros r. rewrite Er. apply ph_mono. exact (a_ph _ _ I r).
    - intros r f i. rewrite Er. intros Hf Hc. destruct (a_cn _ _ I r f i Hf Hc) as (K1 & K2 & K3). split; [|split].
      + apply (srv_nthreads test) in H as [H _]. lia.
      + intros c p Hi. destruct (ApiInvProofs.other_thread test _ _ _ _ i c p B H Hi) as [(body & ok & ->)|[Hi0|(q & _ & E & _)]].
        * cbn in H. destruct (A.s_threads (w_srv w) i) as [[c0 p0]|] eqn:E; [|discriminate].
          destruct (own_pc _ _ _ _ _ _ _ _ _ _ E H Hi) as (-> & _). rewrite <- (K2 c0 p0 eq_refl).
          refine (proj1 (ApiProofs.step_name test _ (A.AThread i body ok) _ es c0 _ (ApiProofs.b_tc _ B _ _ _ E))). cbn. now rewrite E.
        * rewrite <- (K2 c p Hi0). exact (proj1 (ApiProofs.step_name test _ _ _ _ c H (ApiProofs.b_tc _ B _ _ _ Hi0))).
        * lia.
      + intros code g Hg. destruct (Ha i code g K1 Hg) as [X|(c & p & Hi & X)]; [apply as_mono; eauto|].
        unfold assigned. apply in_app_iff. right. apply in_map. rewrite <- (K2 c p Hi). exact X.
    - intros r g. rewrite Er. intros Hg. apply as_mono. exact (a_st _ _ I r g Hg).
  Qed.

  (** A step of a remote. *)
  Lemma ainv_remote w tr r m stray es : ainv w tr -> ph_ok (tr ++ map (ER r (m_stage m)) es) r m ->
    (forall f i, m_fl m = Some f -> f_conn f = Some i -> m_fl (w_rem w r) = Some f) ->
    (forall g, m_stage m = Some g -> assigned tr r g) ->
    ainv (St (w_srv w) (A.upd (w_rem w) r m) (w_body w) (w_ans w) stray) (tr ++ map (ER r (m_stage m)) es).
  Proof.
    intros I P F S. split; cbn.
    - rewrite server_app, server_remote, app_nil_r. exact (a_reach _ _ I).
    - intros r'. destruct (Nat.eq_dec r' r) as [->|Hn]; [now rewrite ApiProofs.upd_same|].
      rewrite ApiProofs.upd_other by exact Hn. apply ph_mono. exact (a_ph _ _ I r').
    - intros r' f i Hf Hc. assert (X : m_fl (w_rem w r') = Some f).
      { destruct (Nat.eq_dec r' r) as [->|Hn]; [rewrite ApiProofs.upd_same in Hf; eauto|now rewrite ApiProofs.upd_other in Hf]. }
      destruct (a_cn _ _ I r' f i X Hc) as (K1 & K2 & K3). split; [exact K1|]. split; [exact K2|].
      intros code g Hg. apply as_mono. eauto.
    - intros r' g Hg. apply as_mono. destruct (Nat.eq_dec r' r) as [->|Hn]; [rewrite ApiProofs.upd_same in Hg; auto|].
      rewrite ApiProofs.upd_other in Hg by exact Hn. exact (a_st _ _ I r' g Hg).
  Qed.

  Lemma sends_none qs f : sends msg qs = Some f -> f_conn f = None.
  Proof. induction qs as [|q qs IH]; cbn; [discriminate|]. destruct q; auto. destruct q; auto; intros [= <-]; reflexivity. Qed.

  Definition allowed (p : R.phase) (a : R.action) (stage old : option nat) : Prop :=
    match a with
    | R.ABoot _ (Some (_, c)) => exists g, stage = Some g /\ c = cfg g
    | R.ABoot _ None => True
    | _ => stage = old
    end.

  Lemma ainv_advance w tr r a fl stage stray w' es : ainv w tr ->
    allowed (R.m_phase (m_st (w_rem w r))) a stage (m_stage (w_rem w r)) ->
    (forall f i, fl = Some f -> f_conn f = Some i -> m_fl (w_rem w r) = Some f) ->
    (forall g, stage = Some g -> assigned tr r g) ->
    advance name addr msg (St (w_srv w) (w_rem w) (w_body w) (w_ans w) stray) r a fl stage = Some (w', es) -> ainv w' (tr ++ es).
  Proof.
    intros I Al F S H. unfold advance in H. cbn in H.
    destruct (R.step addr (name r) (m_st (w_rem w r)) a) as [[st qs]|] eqn:E; [|discriminate]. injection H as <- <-.
    refine (ainv_remote w tr r (Rem _ _ _) stray qs I _ _ S); cbn.
    - pose proof (a_ph _ _ I r) as P. unfold ph_ok in *. destruct (m_st (w_rem w r)) as [ph pg sid rn cc] eqn:Em. cbn in *.
      destruct a, ph; cbn in E; try easy; repeat match type of E with context [match ?x with _ => _ end] => destruct x; try discriminate E end; injection E as <- <-; cbn; try easy.
      all: cbn in Al; try (rewrite Al).
      all: try (destruct Al as (g & G1 & G2); eauto; fail).
      all: destruct P as (g & P1 & P2); exists g; (split; [exact P1|]); try exact P2; unfold prepared in *; apply in_app_iff.
      all: try (now left). right. cbn. left. congruence.
    - intros f i Hf Hc. destruct (sends msg qs) as [f'|] eqn:Es; [|eauto]. injection Hf as ->. apply sends_none in Es. congruence.
  Qed.

  Lemma ainv_answer w tr r a sent stray w' es : ainv w tr -> (forall g, sent = Some g -> assigned tr r g) ->
    answer name cfg addr msg (St (w_srv w) (w_rem w) (w_body w) (w_ans w) stray) r a sent = Some (w', es) -> ainv w' (tr ++ es).
  Proof.
    intros I Hs H. unfold answer in H. cbn [w_rem w_srv] in H. pose proof (a_st _ _ I r) as S.
    destruct (R.m_phase (m_st (w_rem w r))) eqn:Ep; [destruct sent as [g|]|..];
      (eapply ainv_advance; [exact I| | | |exact H]); rewrite ?Ep; try discriminate; try exact S; cbn; eauto.
  Qed.
  Lemma ainv_retry w tr r f read stray w' es : ainv w tr ->
    retry name cfg addr msg (St (w_srv w) (w_rem w) (w_body w) (w_ans w) stray) r f read = Some (w', es) -> ainv w' (tr ++ es).
  Proof.
    intros I H. unfold retry in H.
    destruct (match tries (f_req f) with Some n => Nat.leb n (f_try f) | None => false end).
    - eapply ainv_answer; eauto. discriminate.
    - injection H as <- <-. refine (ainv_remote w tr r (Rem _ (Some _) _) stray [] I _ _ _); cbn.
      + rewrite app_nil_r. exact (a_ph _ _ I r).
      + intros f' i [= <-]. discriminate.
      + exact (a_st _ _ I r).
  Qed.

  Lemma ainv_arrive w tr q b w' es : ainv w tr -> arrive w q b = (w', es) -> ainv w' (tr ++ map ES es).
  Proof.
    intros I H. destruct (arrive_parts _ _ _ _ _ H) as (H1 & H2 & H3 & H4).
    eapply ainv_server; [exact I|exact H1|reflexivity|exact H2|]. rewrite H4. intros i code g Hi Hg. left.
    rewrite ApiProofs.upd_other in Hg; [exact Hg|lia].
  Qed.

  Lemma ainv_step w tr a w' es : ainv w tr -> step w a = Some (w', es) -> ainv w' (tr ++ es).
  Proof.
    intros I H. destruct a; cbn in H.
    - destruct (A.step test (w_srv w) a) as [[s ses]|] eqn:E; [|destruct a; discriminate].
      assert (Y : Some (with_srv w s, map ES ses) = Some (w', es)) by (destruct a; easy). injection Y as <- <-.
      eapply ainv_server; eauto; reflexivity.
    - destruct (main_path (A.q_path q)); [discriminate|]. destruct (arrive w q body) as [w1 ses] eqn:E. injection H as <- <-.
      eapply ainv_arrive; eauto.
    - destruct (R.m_phase (m_st (w_rem w r))); try discriminate. injection H as <- <-.
      refine (ainv_remote w tr r (Rem _ _ _) (w_stray w) R.first I _ _ _); cbn; try easy. intros f i [= <-]. discriminate.
    - assert (H' : advance name addr msg w r a (m_fl (w_rem w r)) (m_stage (w_rem w r)) = Some (w', es)) by (now destruct a).
      destruct w as [sv rm bd an sr]. eapply (ainv_advance (St sv rm bd an sr)); [exact I| | | |exact H'].
      + now destruct a.
      + auto.
      + exact (a_st _ _ I r).
    - destruct (m_fl (w_rem w r)) as [f|] eqn:Hf; [|discriminate]. destruct (f_conn f) eqn:Hc; [discriminate|].
      destruct (arrive w (http name r f) (f_buf f)) as [w1 ses] eqn:E. pose proof (ainv_arrive _ _ _ _ _ _ I E) as I1.
      destruct (arrive_parts _ _ _ _ _ E) as (H1 & H2 & H3 & H4).
      assert (Ok : (forall code, A.api_client (w_srv w) (http name r f) <> A.Refused code) ->
        ainv (with_rem w1 r (Rem (m_st (w_rem w r)) (Some (Fl (f_req f) (f_sid f) (f_buf f) (f_try f) (Some (A.s_nthreads (w_srv w)))))
           (m_stage (w_rem w r)))) (tr ++ map ES ses)).
      { intros Hr. split; cbn.
        - exact (a_reach _ _ I1).
        - intros r'. destruct (Nat.eq_dec r' r) as [->|Hn]; [|rewrite ApiProofs.upd_other by exact Hn; exact (a_ph _ _ I1 r')].
          rewrite ApiProofs.upd_same. apply ph_mono. exact (a_ph _ _ I r).
        - intros r' f' i Hf' Hc'. destruct (Nat.eq_dec r' r) as [->|Hn].
          + rewrite ApiProofs.upd_same in Hf'. injection Hf' as <-. injection Hc' as <-.
            cbn in H1. destruct (A.request_step (w_srv w) (http name r f)) as [s0 ses0] eqn:Eq.
            assert (X : A.s_nthreads (w_srv w1) = S (A.s_nthreads (w_srv w)) /\ forall c p, A.s_threads (w_srv w1) (A.s_nthreads (w_srv w)) = Some (c, p) ->
                     A.r_name (A.s_rcs (w_srv w1) c) = A.clean (name r)).
            { injection H1 as <- <-. assert (Hq : A.q_name (http name r f) = Some (name r)) by (unfold http; now destruct (f_req f)).
              unfold A.request_step in Eq. destruct (A.api_client (w_srv w) (http name r f)) as [code|n|c0] eqn:Ea; [now destruct (Hr code)|..]; injection Eq as <- <-; cbn; (split; [reflexivity|]);
                rewrite ApiProofs.upd_same; intros c p [= <- <-].
              - rewrite ApiProofs.upd_same. cbn. destruct (ApiProofs.api_client_new _ _ _ Ea) as (m & n0 & _ & Hq0 & -> & _). congruence.
              - destruct (ApiProofs.api_client_known _ _ _ Ea) as (m & n0 & _ & Hq0 & Hg & _).
                destruct (ApiServerProofs.reach_sane _ _ _ _ (a_reach _ _ I)) as (B & _). destruct (ApiProofs.b_cl _ B _ _ _ Hg) as (_ & _ & En). congruence. }
            destruct X as [X1 X2]. split; [cbn; lia|]. split; [exact X2|]. cbn. rewrite H4, ApiProofs.upd_same. discriminate.
          + rewrite ApiProofs.upd_other in Hf' by exact Hn. exact (a_cn _ _ I1 r' f' i Hf' Hc').
        - intros r' g Hg. destruct (Nat.eq_dec r' r) as [->|Hn]; [|rewrite ApiProofs.upd_other in Hg by exact Hn; exact (a_st _ _ I1 r' g Hg)].
          rewrite ApiProofs.upd_same in Hg. apply as_mono. exact (a_st _ _ I r g Hg). }
      destruct (A.api_client (w_srv w) (http name r f)) as [code| |] eqn:Ea.
      + destruct (retry name cfg addr msg w1 r f read) as [[w2 es2]|] eqn:Er; [|discriminate]. injection H as <- <-.
        rewrite app_assoc. destruct w1 as [sv rm bd an sr]. exact (ainv_retry (St sv rm bd an sr) _ r f read sr w2 es2 I1 Er).
      + injection H as <- <-. apply Ok. discriminate.
      + injection H as <- <-. apply Ok. discriminate.
    - destruct (nth_error (w_stray w) k) as [[q b]|]; [|discriminate].
      destruct (arrive w q b) as [w1 ses] eqn:E. injection H as <- <-. destruct (ainv_arrive _ _ _ _ _ _ I E) as [J1 J2 J3 J4].
      split; auto.
    - match type of H with match ?x with _ => _ end = _ =>
        change x with (A.step test (w_srv w) (A.AThread i (if readok then Some (w_body w i) else None) ok)) in H end.
      destruct (A.step test (w_srv w) (A.AThread i _ ok)) as [[s ses]|] eqn:E in H; [|discriminate]. injection H as <- <-.
      eapply ainv_server; [exact I|exact E|reflexivity|reflexivity|]. cbn. intros j code g Hj Hg.
      destruct (answered ses) as [x|] eqn:Ea; [|now left]. destruct (Nat.eq_dec j i) as [->|Hn].
      + rewrite ApiProofs.upd_same in Hg. injection Hg as ->. right. cbn in E.
        destruct (A.s_threads (w_srv w) i) as [[c p]|]; [|discriminate]. exists c, p. split; [reflexivity|]. exact (own_assigned _ _ _ _ _ _ _ _ _ _ E Ea).
      + rewrite ApiProofs.upd_other in Hg by exact Hn. now left.
    - destruct (m_fl (w_rem w r)) as [f|] eqn:Hf; [|discriminate]. destruct (f_conn f) as [i|] eqn:Hc; [|discriminate].
      destruct (A.s_threads (w_srv w) i) eqn:Hi; [discriminate|]. destruct (w_ans w i) as [[code sent]|] eqn:Ha; [|discriminate].
      assert (Sn : forall g, sent = Some g -> assigned tr r g).
      { intros g ->. destruct (a_cn _ _ I r f i Hf Hc) as (_ & _ & K3). eauto. }
      destruct w as [sv rm bd an sr].
      destruct (Nat.eqb code 200); [|destruct (Nat.eqb code 205)].
      + eapply (ainv_answer (St sv rm bd an sr)); eauto.
      + eapply (ainv_answer (St sv rm bd an sr)); eauto.
      + eapply (ainv_retry (St sv rm bd an sr)); eauto.
    - destruct (m_fl (w_rem w r)) as [f|] eqn:Hf; [|discriminate]. destruct w as [sv rm bd an sr].
      assert (X : exists sr', retry name cfg addr msg (St sv rm bd an sr') r f read = Some (w', es)).
      { destruct (f_conn f), late; eexists; exact H. }
      destruct X as [sr' X]. exact (ainv_retry (St sv rm bd an sr) _ r f read sr' w' es I X).
    - destruct (m_fl (w_rem w r)) as [f|] eqn:Hf; [|discriminate]. destruct w as [sv rm bd an sr].
      eapply (ainv_answer (St sv rm bd an sr)); eauto. discriminate.
  Qed.

  Lemma reach_ainv ok w tr : reach test name cfg addr msg ok w tr -> ainv w tr.
  Proof. induction 1 as [|w tr a w' es R IH Hok H]; [exact ainv_init|exact (ainv_step _ _ _ _ _ IH H)]. Qed.

  (** ** Events *)
  (** A remote prepares the configuration of its stage, and runs when it has prepared it. *)
  Lemma advance_event w tr r a fl stage w' es r' st e : ainv w tr ->
    allowed (R.m_phase (m_st (w_rem w r))) a stage (m_stage (w_rem w r)) ->
    advance name addr msg w r a fl stage = Some (w', es) -> In (ER r' st e) es ->
    r' = r /\ match e with
              | R.QPrepare c _ => exists g, st = Some g /\ c = cfg g /\ assigned tr r g
              | R.QRun | R.QRunEnd => exists g, st = Some g /\ prepared cfg tr r g /\ assigned tr r g
              | _ => True
              end.
  Proof.
    intros I Al H Hin. unfold advance in H. destruct (R.step addr (name r) (m_st (w_rem w r)) a) as [[s qs]|] eqn:E; [|discriminate].
    injection H as <- <-. apply in_map_iff in Hin as (e' & [= <- <- ->] & Hin). split; [reflexivity|].
    pose proof (a_ph _ _ I r) as P. pose proof (a_st _ _ I r) as S. unfold ph_ok in P.
    destruct (m_st (w_rem w r)) as [ph pg sid rn cc] eqn:Em. cbn in P, E, Al.
    destruct a, ph; cbn in E, Al; try discriminate E; repeat match type of E with context [match ?x with _ => _ end] => destruct x; try discriminate E end; injection E as <- <-; cbn in Hin.
    all: repeat (destruct Hin as [<-|Hin]; [try exact Logic.I|]); try (now destruct Hin).
    all: destruct P as (g & P1 & P2); exists g; rewrite Al; auto.
  Qed.

  Definition own (tr : list event) (r : nat) (st : option nat) (e : R.event) : Prop :=
    match e with
    | R.QPrepare c _ => exists g, st = Some g /\ c = cfg g /\ assigned tr r g
    | R.QRun | R.QRunEnd => exists g, st = Some g /\ prepared cfg tr r g /\ assigned tr r g
    | _ => True
    end.
  Lemma answer_event w tr r a sent w' es r' st e : ainv w tr -> answer name cfg addr msg w r a sent = Some (w', es) ->
    In (ER r' st e) es -> own tr r' st e.
  Proof.
    intros I H Hin. unfold answer in H.
    destruct (R.m_phase (m_st (w_rem w r))) eqn:Ep; [destruct sent as [g|]|..];
      (eapply advance_event with (tr := tr) (r' := r') (st := st) (e := e) in H; [destruct H as [-> H]; exact H|exact I| |exact Hin]); cbn; eauto.
  Qed.
  Lemma retry_event w tr r f read w' es r' st e : ainv w tr -> retry name cfg addr msg w r f read = Some (w', es) ->
    In (ER r' st e) es -> own tr r' st e.
  Proof.
    intros I H Hin. unfold retry in H.
    destruct (match tries (f_req f) with Some n => Nat.leb n (f_try f) | None => false end).
    - eapply answer_event; eauto.
    - injection H as <- <-. easy.
  Qed.
  Lemma own_mono tr es r st e : own tr r st e -> own (tr ++ es) r st e.
  Proof.
    unfold own, prepared. destruct e; auto; intros (g & H1 & H2 & H3); exists g; (split; [exact H1|]); rewrite ?in_app_iff;
      (split; [tauto|now apply as_mono]).
  Qed.

  Lemma remote_event w tr a w' es r st e : ainv w tr -> step w a = Some (w', es) -> In (ER r st e) es -> own (tr ++ es) r st e.
  Proof.
    intros I H Hin. destruct a; cbn in H.
    - exfalso. destruct (A.step test (w_srv w) a) as [[s ses]|] eqn:E; [|destruct a; discriminate].
      assert (Y : Some (with_srv w s, map ES ses) = Some (w', es)) by (destruct a; easy). injection Y as <- <-. exact (server_qrun _ _ _ _ Hin).
    - exfalso. destruct (main_path (A.q_path q)); [discriminate|]. destruct (arrive w q body) as [w1 ses]. injection H as <- <-. exact (server_qrun _ _ _ _ Hin).
    - destruct (R.m_phase (m_st (w_rem w r0))); try discriminate. injection H as <- <-. destruct Hin as [[= <- <- <-]|[]]. exact Logic.I.
    - assert (H' : advance name addr msg w r0 a (m_fl (w_rem w r0)) (m_stage (w_rem w r0)) = Some (w', es)) by (now destruct a).
      apply own_mono. eapply advance_event in H'; [|exact I|now destruct a|exact Hin]. destruct H' as [-> H']. exact H'.
    - destruct (m_fl (w_rem w r0)) as [f|] eqn:Hf; [|discriminate]. destruct (f_conn f) eqn:Hc; [discriminate|].
      destruct (arrive w (http name r0 f) (f_buf f)) as [w1 ses] eqn:E.
      destruct (A.api_client (w_srv w) (http name r0 f)) as [code| |] eqn:Ea.
      + destruct (retry name cfg addr msg w1 r0 f read) as [[w2 es2]|] eqn:Er; [|discriminate]. injection H as <- <-.
        apply in_app_iff in Hin as [Hin|Hin]; [exfalso; exact (server_qrun _ _ _ _ Hin)|].
        rewrite app_assoc. apply own_mono. eapply retry_event; [|exact Er|exact Hin]. eapply ainv_arrive; eauto.
      + exfalso. injection H as <- <-. exact (server_qrun _ _ _ _ Hin).
      + exfalso. injection H as <- <-. exact (server_qrun _ _ _ _ Hin).
    - exfalso. destruct (nth_error (w_stray w) k) as [[q b]|]; [|discriminate].
      destruct (arrive w q b) as [w1 ses]. injection H as <- <-. exact (server_qrun _ _ _ _ Hin).
    - exfalso. match type of H with match ?x with _ => _ end = _ => destruct x as [[s ses]|]; [|discriminate] end.
      injection H as <- <-. exact (server_qrun _ _ _ _ Hin).
    - destruct (m_fl (w_rem w r0)) as [f|] eqn:Hf; [|discriminate]. destruct (f_conn f) as [i|] eqn:Hc; [|discriminate].
      destruct (A.s_threads (w_srv w) i) eqn:Hi; [discriminate|]. destruct (w_ans w i) as [[code sent]|] eqn:Ha; [|discriminate].
      apply own_mono. destruct (Nat.eqb code 200); [|destruct (Nat.eqb code 205)].
      + eapply answer_event; eauto.
      + eapply answer_event; eauto.
      + eapply retry_event; eauto.
    - destruct (m_fl (w_rem w r0)) as [f|] eqn:Hf; [|discriminate]. apply own_mono. eapply retry_event; [|exact H|exact Hin].
      destruct I as [I1 I2 I3 I4]. destruct (f_conn f), late; split; auto.
    - destruct (m_fl (w_rem w r0)) as [f|] eqn:Hf; [|discriminate]. apply own_mono. eapply answer_event; eauto.
  Qed.

  (** The whole trace, without an order. *)
  Lemma trace_event ok w tr r st e : reach test name cfg addr msg ok w tr -> In (ER r st e) tr -> own tr r st e.
  Proof.
    induction 1 as [|w tr a w' es R IH Hok H]; [easy|]. intros Hin. apply in_app_iff in Hin as [Hin|Hin].
    - apply own_mono. auto.
    - exact (remote_event _ _ _ _ _ _ _ _ (reach_ainv _ _ _ R) H Hin).
  Qed.
End Net.
