(** The invariant of a run with remote instances. *)
From Verif Require Import Prelude ConfigModel NetModel NetSpec NetServerProofs.
From Verif Require ProtoModel ApiSpec ApiProofs ApiServerProofs ApiSeqProofs ApiInvProofs ApiReachProofs ApiStuckProofs.

Lemma server_app tr es : server (tr ++ es) = server tr ++ server es.
Proof. apply flat_map_app. Qed.
Lemma server_map es : server (map ES es) = es.
Proof. induction es as [|e es IH]; cbn; [reflexivity|]. unfold server in *. now rewrite IH. Qed.
Lemma server_remote r m es : server (map (ER r m) es) = [].
Proof. induction es as [|e es IH]; cbn; [reflexivity|]. exact IH. Qed.
Lemma server_in tr e : In e (server tr) <-> In (ES e) tr.
Proof.
  unfold server. rewrite in_flat_map. split.
  - intros ([e'|] & H & Hi); [destruct Hi as [->|[]]; exact H|easy].
  - intros H. exists (ES e). split; [exact H|now left].
Qed.

Section Net.
  Context (test : bool) (name : nat -> string) (cfg : nat -> stage) (addr msg : string).
  Context (names : distinct name).
  Notation step := (step test name cfg addr msg).

  (** ** The invariant *)
  Definition prepared (tr : list event) (r m : nat) : Prop := In (ER r (Some m) (R.QPrepare (cfg m) true)) tr.
  Definition has_run (tr : list event) (r m : nat) : Prop := In (ER r (Some m) R.QRunEnd) tr.

  Definition working (p : R.phase) : bool := match p with R.WaitBoot | R.Returned _ => false | _ => true end.

  Definition phase_ok (tr : list event) (r : nat) (m : remote) : Prop :=
    match R.m_phase (m_st m) with
    | R.Files _ c | R.Collector _ c | R.Prepare _ c => exists g, m_stage m = Some g /\ c = cfg g
    | R.SendErr _ => exists g, m_stage m = Some g
    | R.SendOK _ | R.WaitRun _ | R.Running _ => exists g, m_stage m = Some g /\ prepared tr r g
    | R.SendDone _ => exists g, m_stage m = Some g /\ prepared tr r g /\ has_run tr r g
    | _ => True
    end.

  Definition fl_ok (m : remote) : Prop :=
    match R.m_phase (m_st m), m_fl m with
    | R.WaitBoot, Some f => f_req f = R.GetBoot /\ f_buf f = ""%string
    | R.SendErr _, Some f => f_req f = R.PostBoot true /\ f_buf f <> ""%string
    | R.SendOK _, Some f => f_req f = R.PostBoot false /\ f_buf f = ""%string
    | R.WaitRun _, Some f => f_req f = R.GetRun /\ f_buf f = ""%string
    | R.SendDone _, Some f => f_req f = R.PostRun /\ f_buf f = ""%string
    | (R.Files _ _ | R.Collector _ _ | R.Prepare _ _ | R.Running _ | R.Returned _), None => True
    | _, _ => False
    end.

  Definition kind_of (q : R.request) : kind :=
    match q with
    | R.GetBoot => KGetBoot | R.PostBoot _ => KPostBoot | R.GetRun => KGetRun | R.PostRun => KPostRun | R.GetPing => KOther
    end.
  Definition err_ok (q : R.request) (p : A.pc) : Prop :=
    match p with A.PostBootSet e | A.PostBootAck e => q = R.PostBoot e | _ => True end.

  Definition conn_ok (w : state) (r : nat) (m : remote) (f : flight) (i : nat) : Prop :=
    (i < A.s_nthreads (w_srv w))%nat /\
    (forall c p, A.s_threads (w_srv w) i = Some (c, p) ->
      A.r_name (A.s_rcs (w_srv w) c) = A.clean (name r) /\ pc_kind p = kind_of (f_req f) /\ err_ok (f_req f) p
      /\ w_body w i = f_buf f
      /\ (ApiProofs.booting_pc p = false -> A.r_stage (A.s_rcs (w_srv w) c) = m_stage m)
      /\ (ApiProofs.booting_pc p = true -> w_ans w i = None)) /\
    (forall code x, w_ans w i = Some (code, x) ->
      match x with
      | Some g => f_req f = R.GetBoot /\ forall g', sget (A.clean (name r)) (A.g_clients (A.s_metas (w_srv w) g')) <> None -> g' = g
      | None => f_req f = R.GetRun -> code = 200%nat ->
                exists g, m_stage m = Some g /\ A.g_booted (A.s_metas (w_srv w) g) = true
      end).

  Definition cl_ok (w : state) (r : nat) (m : remote) : Prop :=
    forall g, sget (A.clean (name r)) (A.g_clients (A.s_metas (w_srv w) g)) <> None ->
      working (R.m_phase (m_st m)) = true -> m_stage m = Some g.

  Definition rem_ok (w : state) (tr : list event) (r : nat) (m : remote) : Prop :=
    phase_ok tr r m /\ fl_ok m /\ cl_ok w r m /\ (forall f i, m_fl m = Some f -> f_conn f = Some i -> conn_ok w r m f i).

  Record inv (w : state) (tr : list event) : Prop := {
    i_reach : ApiSpec.reach test ApiSpec.sequential (w_srv w) (server tr);
    i_rem : forall r, rem_ok w tr r (w_rem w r);
    i_inj : forall r r' f f' i, m_fl (w_rem w r) = Some f -> m_fl (w_rem w r') = Some f' ->
        f_conn f = Some i -> f_conn f' = Some i -> r = r';
    i_thr : forall i c p, A.s_threads (w_srv w) i = Some (c, p) -> ApiSpec.main_pc p = true ->
        exists r f, m_fl (w_rem w r) = Some f /\ f_conn f = Some i;
    i_stray : forall q b, In (q, b) (w_stray w) -> ApiSpec.main_request q = false;
    i_booted : forall m n, In (A.EBooted m n) (server tr) -> exists r, n = A.clean (name r) /\ prepared tr r m;
    i_done : forall m n, In (A.EDone m n) (server tr) -> exists r, n = A.clean (name r) /\ has_run tr r m }.

  Lemma inv_init : inv init [].
  Proof.
    split; cbn; try easy.
    constructor.
  Qed.

  (** ** Frames *)
  (** What a step of the server leaves of a remote, if its own handler does not step. *)
  Lemma phase_mono tr es r m : phase_ok tr r m -> phase_ok (tr ++ es) r m.
  Proof.
    unfold phase_ok, prepared, has_run. destruct (R.m_phase (m_st m)); auto; rewrite ?in_app_iff; try (intros (g & H & H'); exists g; rewrite ?in_app_iff; tauto).
  Qed.

  Lemma rem_frame w tr es a s' ses w' r : ApiProofs.bound (w_srv w) -> ApiInvProofs.seqinv (w_srv w) (server tr) ->
    A.step test (w_srv w) a = Some (s', ses) -> w_srv w' = s' ->
    (forall i, (i < A.s_nthreads (w_srv w))%nat -> w_body w' i = w_body w i) ->
    (forall i f, m_fl (w_rem w r) = Some f -> f_conn f = Some i -> w_ans w' i = w_ans w i
        /\ forall body ok, a <> A.AThread i body ok) ->
    (forall i body ok c, a = A.AThread i body ok -> A.s_threads (w_srv w) i = Some (c, A.GetBootWait) ->
        A.r_name (A.s_rcs (w_srv w) c) <> A.clean (name r)) ->
    rem_ok w tr r (w_rem w r) -> rem_ok w' (tr ++ es) r (w_rem w r).
  Proof.
    intros B Q H <- Hb Ha Hn (P & F & C & K).
    assert (Cl : forall g, sget (A.clean (name r)) (A.g_clients (A.s_metas (w_srv w') g)) <> None -> sget (A.clean (name r)) (A.g_clients (A.s_metas (w_srv w) g)) <> None).
    { intros g Hg. destruct (srv_clients test _ _ _ _ _ _ B H Hg) as [X|(i & body & ok & c & -> & Hi & En & _)]; [exact X|].
      exfalso. exact (Hn _ _ _ _ eq_refl Hi En). }
    split; [now apply phase_mono|]. split; [exact F|]. split.
    - intros g Hg. apply C. auto.
    - intros f i Hf Hi. destruct (K f i Hf Hi) as (K1 & K2 & K3). destruct (Ha i f Hf Hi) as [Ea Ht].
      pose proof (srv_threads test _ _ _ _ i H K1 Ht) as Et. split; [|split].
      + apply (srv_nthreads test) in H as [H _]. lia.
      + intros c p Hp. rewrite Et in Hp. destruct (K2 c p Hp) as (X1 & X2 & X3 & X4 & X5 & X6). pose proof (ApiProofs.b_tc _ B _ _ _ Hp) as Hc.
        split; [rewrite <- X1; apply (ApiProofs.step_name test _ _ _ _ c H Hc)|]. split; [exact X2|]. split; [exact X3|].
        split; [rewrite Hb by exact K1; exact X4|]. split; [|now rewrite Ea]. intros Hbp. rewrite <- (X5 Hbp).
        pose proof (ApiProofs.b_ts _ B _ _ _ Hp Hbp) as Hs. destruct (A.r_stage (A.s_rcs (w_srv w) c)) as [g|] eqn:Eg; [|easy].
        exact (ApiInvProofs.stage_stays test _ _ _ _ _ _ _ Q H Hc Eg).
      + rewrite Ea. intros code x Hx. specialize (K3 code x Hx). destruct x as [g|].
        * destruct K3 as [K3 K4]. split; [exact K3|]. intros g' Hg'. auto.
        * intros H1 H2. destruct (K3 H1 H2) as (g & G1 & G2). exists g. split; [exact G1|]. exact (srv_booted test _ _ _ _ _ B H G2).
  Qed.

  (** ** The server's events *)
  Lemma owner w tr i c p : inv w tr -> A.s_threads (w_srv w) i = Some (c, p) -> ApiSpec.main_pc p = true ->
    exists r f, m_fl (w_rem w r) = Some f /\ f_conn f = Some i /\ A.r_name (A.s_rcs (w_srv w) c) = A.clean (name r)
      /\ pc_kind p = kind_of (f_req f) /\ err_ok (f_req f) p
      /\ (ApiProofs.booting_pc p = false -> A.r_stage (A.s_rcs (w_srv w) c) = m_stage (w_rem w r)).
  Proof.
    intros I Hi Hp. destruct (i_thr _ _ I _ _ _ Hi Hp) as (r & f & Hf & Hc). exists r, f.
    destruct (i_rem _ _ I r) as (_ & _ & _ & K). destruct (K f i Hf Hc) as (_ & K2 & _).
    destruct (K2 c p Hi) as (X1 & X2 & X3 & X4 & X5 & X6). auto 9.
  Qed.

  Lemma booted_event w tr a s' es m n : inv w tr -> A.step test (w_srv w) a = Some (s', es) -> In (A.EBooted m n) es ->
    exists r, n = A.clean (name r) /\ prepared tr r m.
  Proof.
    intros I H Hin. destruct (ApiReachProofs.reach_seq _ _ _ (i_reach _ _ I)) as (B & N & Q).
    destruct (ApiInvProofs.boots_step test _ _ _ _ _ m n B Q H Hin) as (i & body & ok & c & -> & Hi & Hs & En).
    destruct (owner w tr i c _ I Hi eq_refl) as (r & f & Hf & Hc & Nm & _ & Er & St). exists r. split; [congruence|].
    cbn in Er. specialize (St eq_refl). destruct (i_rem _ _ I r) as (P & F & _). unfold fl_ok in F. rewrite Hf in F.
    unfold phase_ok in P. destruct (R.m_phase (m_st (w_rem w r))); try easy; destruct F as [F _]; try congruence.
    destruct P as (g & G1 & G2). congruence.
  Qed.
  Lemma done_event w tr a s' es m n : inv w tr -> A.step test (w_srv w) a = Some (s', es) -> In (A.EDone m n) es ->
    exists r, n = A.clean (name r) /\ has_run tr r m.
  Proof.
    intros I H Hin. destruct (ApiReachProofs.reach_seq _ _ _ (i_reach _ _ I)) as (B & N & Q).
    destruct (srv_done test _ _ _ _ m n B H Hin) as (i & body & ok & c & err & -> & Hi & Hs & En).
    destruct (owner w tr i c _ I Hi eq_refl) as (r & f & Hf & Hc & Nm & Kd & _ & St). exists r. split; [congruence|].
    cbn in Kd. specialize (St eq_refl). destruct (i_rem _ _ I r) as (P & F & _). unfold fl_ok in F. rewrite Hf in F.
    unfold phase_ok in P. destruct (R.m_phase (m_st (w_rem w r))); try easy; destruct F as [F _]; rewrite F in Kd; try discriminate.
    destruct P as (g & G1 & G2 & G3). congruence.
  Qed.

  (** A step of the server in which no handler is added for a remote. *)
  Lemma inv_server w tr a s' es w' : inv w tr -> ApiSpec.sequential (w_srv w) a -> A.step test (w_srv w) a = Some (s', es) ->
    w_srv w' = s' -> w_stray w' = w_stray w ->
    (forall r, rem_ok w' (tr ++ map ES es) r (w_rem w' r)) ->
    (forall r r' f f' i, m_fl (w_rem w' r) = Some f -> m_fl (w_rem w' r') = Some f' ->
        f_conn f = Some i -> f_conn f' = Some i -> r = r') ->
    (forall i c p, A.s_threads s' i = Some (c, p) -> ApiSpec.main_pc p = true ->
        exists r f, m_fl (w_rem w' r) = Some f /\ f_conn f = Some i) ->
    inv w' (tr ++ map ES es).
  Proof.
    intros I Hs H Ew Est Hr Hj Ht. split; auto.
    - rewrite Ew, server_app, server_map. econstructor; [exact (i_reach _ _ I)|exact Hs|exact H].
    - rewrite Ew. exact Ht.
    - rewrite Est. exact (i_stray _ _ I).
    - intros m n. rewrite server_app, server_map, in_app_iff. intros [Hin|Hin].
      + destruct (i_booted _ _ I _ _ Hin) as (r & E & P). exists r. split; [exact E|]. apply in_app_iff. now left.
      + destruct (booted_event _ _ _ _ _ _ _ I H Hin) as (r & E & P). exists r. split; [exact E|]. apply in_app_iff. now left.
    - intros m n. rewrite server_app, server_map, in_app_iff. intros [Hin|Hin].
      + destruct (i_done _ _ I _ _ Hin) as (r & E & P). exists r. split; [exact E|]. apply in_app_iff. now left.
      + destruct (done_event _ _ _ _ _ _ _ I H Hin) as (r & E & P). exists r. split; [exact E|]. apply in_app_iff. now left.
  Qed.

  (** ** The server's own steps *)
  Lemma inv_own w tr a s' es : inv w tr -> match a with A.ARequest _ | A.AThread _ _ _ => False | _ => True end ->
    A.step test (w_srv w) a = Some (s', es) -> inv (with_srv w s') (tr ++ map ES es).
  Proof.
    intros I Ha H. destruct (ApiReachProofs.reach_seq _ _ _ (i_reach _ _ I)) as (B & N & Q).
    eapply inv_server; eauto.
    - destruct a; easy.
    - intros r. eapply (rem_frame w); try eassumption; try reflexivity; cbn.
      + intros i f _ _. split; [reflexivity|]. intros body ok ->. easy.
      + intros i body ok c ->. easy.
      + exact (i_rem _ _ I r).
    - exact (i_inj _ _ I).
    - intros i c p Hi Hp. destruct (srv_main test _ _ _ _ _ _ _ B H Hi Hp) as [(p0 & H0 & M0)|(q & -> & _)]; [|easy].
      exact (i_thr _ _ I _ _ _ H0 M0).
  Qed.

  (** ** Requests *)
  Lemma inv_arrive w tr q b w' es : inv w tr -> ApiSpec.sequential (w_srv w) (A.ARequest q) -> arrive w q b = (w', es) ->
    ApiSpec.main_request q = false \/ (exists code, A.api_client (w_srv w) q = A.Refused code) -> inv w' (tr ++ map ES es).
  Proof.
    intros I Hs H Hq. destruct (ApiReachProofs.reach_seq _ _ _ (i_reach _ _ I)) as (B & N & Q).
    unfold arrive in H. destruct (A.request_step (w_srv w) q) as [s ses] eqn:E. injection H as <- <-.
    assert (H : A.step test (w_srv w) (A.ARequest q) = Some (s, ses)) by (cbn; now rewrite E).
    eapply inv_server; eauto; cbn.
    - intros r. eapply (rem_frame w); try eassumption; try reflexivity; cbn.
      + intros i Hi. rewrite ApiProofs.upd_other; [reflexivity|lia].
      + intros i f Hf Hc. destruct (i_rem _ _ I r) as (_ & _ & _ & K). destruct (K f i Hf Hc) as (K1 & _).
        split; [|discriminate]. rewrite ApiProofs.upd_other; [reflexivity|lia].
      + discriminate.
      + exact (i_rem _ _ I r).
    - exact (i_inj _ _ I).
    - intros i c p Hi Hp. destruct (srv_main test _ _ _ _ _ _ _ B H Hi Hp) as [(p0 & H0 & M0)|(q0 & [= <-] & M & ->)].
      + exact (i_thr _ _ I _ _ _ H0 M0).
      + destruct Hq as [Hq|[code Hq]]; [congruence|]. unfold A.request_step in E. rewrite Hq in E. injection E as <- <-.
        rewrite (ApiProofs.b_thr _ B) in Hi by lia. discriminate.
  Qed.

  Lemma arrive_sequential w tr r f : inv w tr -> m_fl (w_rem w r) = Some f -> f_conn f = None ->
    ApiSpec.sequential (w_srv w) (A.ARequest (http name r f)).
  Proof.
    intros I Hf Hc. cbn. intros _ i c p Hi Hp E. destruct (owner w tr i c p I Hi Hp) as (r' & f' & Hf' & Hc' & Nm & _).
    assert (r' = r) as ->.
    { apply names. unfold http in E. rewrite Nm in E. destruct (f_req f); cbn in E; congruence. }
    congruence.
  Qed.

  (** ** Steps of remotes *)
  (** No request of the protocol but those for the run signal is left behind with a handler. *)
  Definition freed (w : state) (f : flight) : Prop :=
    forall i c p, f_conn f = Some i -> A.s_threads (w_srv w) i = Some (c, p) -> ApiSpec.main_pc p = false.

  Lemma ended_freed w f : ended w f -> freed w f.
  Proof. intros H i c p Hc Hi. rewrite (H i Hc) in Hi. discriminate. Qed.
  Lemma getrun_freed w tr r f : inv w tr -> m_fl (w_rem w r) = Some f -> f_req f = R.GetRun -> freed w f.
  Proof.
    intros I Hf Hq i c p Hc Hi. destruct (i_rem _ _ I r) as (_ & _ & _ & K). destruct (K f i Hf Hc) as (_ & K2 & _).
    destruct (K2 c p Hi) as (_ & X & _). rewrite Hq in X. cbn in X. rewrite kind_main. now rewrite X.
  Qed.
  Lemma none_freed w f : f_conn f = None -> freed w f.
  Proof. intros H i c p Hc. congruence. Qed.

  Lemma inv_remote w tr r m stray es : inv w tr ->
    (forall q b, In (q, b) stray -> ApiSpec.main_request q = false) ->
    phase_ok (tr ++ map (ER r (m_stage m)) es) r m -> fl_ok m -> cl_ok w r m ->
    (forall f i, m_fl m = Some f -> f_conn f = Some i -> m_fl (w_rem w r) = Some f /\ m_stage m = m_stage (w_rem w r)) ->
    (forall f, m_fl (w_rem w r) = Some f -> m_fl m = Some f \/ freed w f) ->
    inv (St (w_srv w) (A.upd (w_rem w) r m) (w_body w) (w_ans w) stray) (tr ++ map (ER r (m_stage m)) es).
  Proof.
    intros I Hst P F C Hk Hf. split; cbn.
    - rewrite server_app, server_remote, app_nil_r. exact (i_reach _ _ I).
    - intros r'. destruct (Nat.eq_dec r' r) as [->|Hn].
      + rewrite ApiProofs.upd_same. split; [exact P|]. split; [exact F|]. split; [exact C|]. intros f i Hm Hc.
        destruct (Hk f i Hm Hc) as [Hm' Hs]. destruct (i_rem _ _ I r) as (_ & _ & _ & K). specialize (K f i Hm' Hc).
        unfold conn_ok in *. rewrite Hs. exact K.
      + rewrite ApiProofs.upd_other by exact Hn. destruct (i_rem _ _ I r') as (P' & F' & C' & K').
        split; [now apply phase_mono|]. auto.
    - intros r1 r2 f1 f2 i H1 H2 C1 C2.
      assert (X : forall r' f', m_fl (A.upd (w_rem w) r m r') = Some f' -> f_conn f' = Some i -> m_fl (w_rem w r') = Some f').
      { intros r' f' Hm Hc. destruct (Nat.eq_dec r' r) as [->|Hn].
        - rewrite ApiProofs.upd_same in Hm. now destruct (Hk _ _ Hm Hc).
        - now rewrite ApiProofs.upd_other in Hm. }
      exact (i_inj _ _ I _ _ _ _ _ (X _ _ H1 C1) (X _ _ H2 C2) C1 C2).
    - intros i c p Hi Hp. destruct (i_thr _ _ I _ _ _ Hi Hp) as (r0 & f0 & H0 & C0).
      exists r0, f0. split; [|exact C0]. destruct (Nat.eq_dec r0 r) as [->|Hn].
      + rewrite ApiProofs.upd_same. destruct (Hf _ H0) as [X|X]; [exact X|]. specialize (X _ _ _ C0 Hi). congruence.
      + now rewrite ApiProofs.upd_other.
    - exact Hst.
    - intros m0 n. rewrite server_app, server_remote, app_nil_r. intros Hin.
      destruct (i_booted _ _ I _ _ Hin) as (r0 & E & P0). exists r0. split; [exact E|]. apply in_app_iff. now left.
    - intros m0 n. rewrite server_app, server_remote, app_nil_r. intros Hin.
      destruct (i_done _ _ I _ _ Hin) as (r0 & E & P0). exists r0. split; [exact E|]. apply in_app_iff. now left.
  Qed.

  Lemma json_error_some : ProtoModel.json_error msg <> ""%string.
  Proof. unfold ProtoModel.json_error. cbn. easy. Qed.

  (** request returns. *)
  Lemma inv_answer w tr r f a sent stray w' es : inv w tr -> m_fl (w_rem w r) = Some f -> freed w f ->
    (forall q b, In (q, b) stray -> ApiSpec.main_request q = false) ->
    (forall g, sent = Some g -> forall g', sget (A.clean (name r)) (A.g_clients (A.s_metas (w_srv w) g')) <> None -> g' = g) ->
    answer name cfg addr msg (St (w_srv w) (w_rem w) (w_body w) (w_ans w) stray) r a sent = Some (w', es) -> inv w' (tr ++ es).
  Proof.
    intros I Hf Hfr Hst Hsent H. destruct (i_rem _ _ I r) as (P & F & C & K). unfold answer, advance in H. cbn in H.
    unfold fl_ok in F. rewrite Hf in F. unfold phase_ok in P. unfold cl_ok in C.
    destruct (m_st (w_rem w r)) as [ph pg sid rn cc] eqn:Em. cbn in F, P, C, H.
    assert (Hd : forall fl, m_fl (w_rem w r) = Some fl -> None = Some fl \/ freed w fl).
    { intros fl E. right. assert (fl = f) as -> by congruence. exact Hfr. }
    destruct ph; try easy.
    - destruct a, sent as [g|]; cbn in H; injection H as <- <-;
        match goal with |- inv (with_rem _ _ ?m) (_ ++ [?x; ?y]) =>
          match x with ER _ _ ?e => match y with ER _ _ ?e' =>
            refine (inv_remote w tr r m stray [e; e'] I Hst _ _ _ _ _); cbn end end end; try easy; auto.
      + unfold phase_ok. cbn. eauto.
      + intros g' Hg' _. now rewrite (Hsent g eq_refl g' Hg').
      + unfold phase_ok. cbn. eauto.
      + intros g' Hg' _. now rewrite (Hsent g eq_refl g' Hg').
    - destruct a, sent as [g|]; cbn in H; injection H as <- <-;
        match goal with |- inv (with_rem _ _ ?m) (_ ++ [?x; ?y]) =>
          match x with ER _ _ ?e => match y with ER _ _ ?e' =>
            refine (inv_remote w tr r m stray [e; e'] I Hst _ _ _ _ _); cbn end end end; try easy; auto.
    - destruct P as (g0 & P1 & P2).
      destruct a, sent as [g|]; cbn in H; injection H as <- <-;
        match goal with |- inv (with_rem _ _ ?m) (_ ++ [?x; ?y]) =>
          match x with ER _ _ ?e => match y with ER _ _ ?e' =>
            refine (inv_remote w tr r m stray [e; e'] I Hst _ _ _ _ _); cbn end end end; try easy; auto.
      all: try (unfold phase_ok; cbn; exists g0; split; [exact P1|apply in_app_iff; now left]).
      all: try (intros fl i [= <-]; discriminate).
      all: intros fl Hfl; right; assert (fl = f) as -> by congruence; exact Hfr.
    - destruct P as (g0 & P1 & P2).
      destruct a, sent as [g|]; cbn in H; injection H as <- <-;
        match goal with |- inv (with_rem _ _ ?m) (_ ++ [?x; ?y]) =>
          match x with ER _ _ ?e => match y with ER _ _ ?e' =>
            refine (inv_remote w tr r m stray [e; e'] I Hst _ _ _ _ _); cbn end end end; try easy; auto.
      all: try (unfold phase_ok; cbn; exists g0; split; [exact P1|apply in_app_iff; now left]).
    - destruct a, sent as [g|]; cbn in H; injection H as <- <-;
        match goal with |- inv (with_rem _ _ ?m) (_ ++ [?x; ?y]) =>
          match x with ER _ _ ?e => match y with ER _ _ ?e' =>
            refine (inv_remote w tr r m stray [e; e'] I Hst _ _ _ _ _); cbn end end end; try easy; auto.
  Qed.

  Lemma inv_retry w tr r f read stray w' es : inv w tr -> m_fl (w_rem w r) = Some f -> freed w f ->
    (forall q b, In (q, b) stray -> ApiSpec.main_request q = false) ->
    (f_req f = R.PostBoot true -> read = O) ->
    retry name cfg addr msg (St (w_srv w) (w_rem w) (w_body w) (w_ans w) stray) r f read = Some (w', es) -> inv w' (tr ++ es).
  Proof.
    intros I Hf Hfr Hst Hread H. unfold retry in H.
    destruct (match tries (f_req f) with Some n => Nat.leb n (f_try f) | None => false end).
    - eapply inv_answer; eauto. discriminate.
    - injection H as <- <-. cbn. destruct (i_rem _ _ I r) as (P & F & C & K).
      refine (inv_remote w tr r (Rem _ (Some _) _) stray [] I Hst _ _ _ _ _); cbn; try easy.
      + cbn. rewrite app_nil_r. exact P.
      + unfold fl_ok in *. rewrite Hf in F. cbn. destruct (R.m_phase (m_st (w_rem w r))); try easy; destruct F as [F1 F2]; rewrite F1; (split; [reflexivity|]).
        all: try (rewrite F2; now destruct read).
        rewrite (Hread F1). exact F2.
      + intros fl i [= <-]. discriminate.
      + intros fl Hfl. right. assert (fl = f) as -> by congruence. exact Hfr.
  Qed.

  Lemma inv_local w tr r a w' es : inv w tr -> match a with R.ABoot _ _ | R.AAnswer _ => False | _ => True end ->
    advance name addr msg w r a (m_fl (w_rem w r)) (m_stage (w_rem w r)) = Some (w', es) -> inv w' (tr ++ es).
  Proof.
    intros I Ha H. destruct (i_rem _ _ I r) as (P & F & C & K). unfold advance in H.
    destruct (R.step addr (name r) (m_st (w_rem w r)) a) as [[st qs]|] eqn:E; [|discriminate]. injection H as <- <-.
    refine (inv_remote w tr r (Rem _ _ _) (w_stray w) qs I (i_stray _ _ I) _ _ _ _ _); cbn.
    all: unfold phase_ok, fl_ok, cl_ok in *; destruct (m_st (w_rem w r)) as [ph pg sid rn cc] eqn:Em; cbn in *.
    - destruct a, ph; cbn in E; try easy; repeat match type of E with context [match ?x with _ => _ end] => destruct x; try discriminate E end; injection E as <- <-; cbn; try easy.
      all: unfold prepared, has_run in *; cbn.
      all: repeat match goal with H : exists _, _ |- _ => destruct H | H : _ /\ _ |- _ => destruct H end; eexists; repeat split; eauto.
      all: rewrite ?in_app_iff; auto.
      all: right; cbn; auto.
      all: left; congruence.
    - destruct a, ph; cbn in E; try easy; repeat match type of E with context [match ?x with _ => _ end] => destruct x; try discriminate E end; injection E as <- <-; cbn; try easy.
      all: try (split; [reflexivity|]; try exact json_error_some; reflexivity).
    - intros g Hg. specialize (C g Hg). destruct a, ph; cbn in E; try easy; repeat match type of E with context [match ?x with _ => _ end] => destruct x; try discriminate E end; injection E as <- <-; cbn in *; auto; easy.
    - intros f i Hf Hc. split; [|reflexivity]. destruct (sends msg qs) as [f'|] eqn:Es; [|exact Hf]. injection Hf as <-. exfalso.
      clear -Es Hc. induction qs as [|q qs IH]; [discriminate|]. cbn in Es. destruct q; auto. destruct q; auto; injection Es as <-; discriminate.
    - intros f Hf. destruct (sends msg qs) as [f'|] eqn:Es; [|now left]. exfalso. rewrite Hf in F.
      destruct a, ph; cbn in E; try easy; repeat match type of E with context [match ?x with _ => _ end] => destruct x; try discriminate E end; injection E as <- <-; cbn in *; easy.
  Qed.

  Lemma inv_start w tr r e : inv w tr -> R.m_phase (m_st (w_rem w r)) = R.Returned e ->
    inv (with_rem w r (Rem R.init (sends msg R.first) None)) (tr ++ map (ER r None) R.first).
  Proof.
    intros I E. destruct (i_rem _ _ I r) as (P & F & C & K). unfold fl_ok in F. rewrite E in F.
    refine (inv_remote w tr r (Rem _ _ _) (w_stray w) R.first I (i_stray _ _ I) _ _ _ _ _); cbn; try easy.
    - intros f i [= <-]. discriminate.
    - intros f Hf. rewrite Hf in F. easy.
  Qed.

  (** ** A request gets a handler *)
  Lemma inv_admit w tr r f w1 es : inv w tr -> m_fl (w_rem w r) = Some f -> f_conn f = None ->
    arrive w (http name r f) (f_buf f) = (w1, es) -> (forall code, A.api_client (w_srv w) (http name r f) <> A.Refused code) ->
    inv (with_rem w1 r (Rem (m_st (w_rem w r)) (Some (Fl (f_req f) (f_sid f) (f_buf f) (f_try f) (Some (A.s_nthreads (w_srv w)))))
           (m_stage (w_rem w r)))) (tr ++ map ES es).
  Proof.
    intros I Hf Hc H Hr. destruct (ApiReachProofs.reach_seq _ _ _ (i_reach _ _ I)) as (B & N & Q).
    pose proof (arrive_sequential _ _ _ _ I Hf Hc) as Sq.
    unfold arrive in H. destruct (A.request_step (w_srv w) (http name r f)) as [s ses] eqn:E. injection H as <- <-.
    assert (H : A.step test (w_srv w) (A.ARequest (http name r f)) = Some (s, ses)) by (cbn; now rewrite E).
    assert (Hq : A.q_name (http name r f) = Some (name r)) by (unfold http; now destruct (f_req f)).
    destruct (admitted _ _ _ _ _ B (ex_intro _ _ (ApiInvProofs.q_known _ _ Q)) E Hq) as [(code & X & _)|(-> & En & Em & c & Et & Enm & Est)];
      [exfalso; exact (Hr _ X)|].
    destruct (i_rem _ _ I r) as (P & F & C & K).
    assert (Kd : pc_kind (A.first_pc (http name r f)) = kind_of (f_req f) /\ (f_req f <> R.GetBoot -> working (R.m_phase (m_st (w_rem w r))) = true)).
    { unfold fl_ok in F. rewrite Hf in F. unfold http, A.first_pc, A.is_get.
      destruct (R.m_phase (m_st (w_rem w r))); try easy; destruct F as [F _]; rewrite F; split; easy. }
    destruct Kd as [Kd Wk].
    eapply inv_server; eauto; cbn.
    - intros r'. destruct (Nat.eq_dec r' r) as [->|Hn].
      + rewrite ApiProofs.upd_same. split; [apply phase_mono; exact P|].
        split; [unfold fl_ok in *; rewrite Hf in F; exact F|]. split.
        * intros g Hg. cbn in Hg |- *. rewrite Em in Hg. exact (C g Hg).
        * intros f' i [= <-] [= <-]. split; [cbn; lia|]. split.
          -- cbn. intros c0 p0 Ht. rewrite Et in Ht. injection Ht as <- <-. split; [exact Enm|]. split; [exact Kd|].
             split; [unfold err_ok, A.first_pc, http, A.is_get; now destruct (f_req f)|]. rewrite !ApiProofs.upd_same. split; [reflexivity|]. split; [|easy].
             intros Hb. destruct (Est Hb) as (m & G1 & G2). rewrite G1. symmetry. apply (C m G2). apply Wk. intros X.
             rewrite kind_booting, Kd, X in Hb. discriminate.
          -- cbn. rewrite ApiProofs.upd_same. discriminate.
      + rewrite ApiProofs.upd_other by exact Hn. eapply (rem_frame w); try eassumption; try reflexivity; cbn.
        * intros i Hi. rewrite ApiProofs.upd_other; [reflexivity|lia].
        * intros i f' Hf' Hc'. destruct (i_rem _ _ I r') as (_ & _ & _ & K'). destruct (K' f' i Hf' Hc') as (K1 & _).
          split; [|discriminate]. rewrite ApiProofs.upd_other; [reflexivity|lia].
        * discriminate.
        * exact (i_rem _ _ I r').
    - assert (X : forall r' f' i, m_fl (w_rem w r') = Some f' -> f_conn f' = Some i -> i <> A.s_nthreads (w_srv w)).
      { intros r' f' i Hf' Hc'. destruct (i_rem _ _ I r') as (_ & _ & _ & K'). destruct (K' f' i Hf' Hc') as (K1 & _). lia. }
      intros r1 r2 f1 f2 i H1 H2 C1 C2.
      destruct (Nat.eq_dec r1 r) as [->|N1], (Nat.eq_dec r2 r) as [->|N2]; rewrite ?ApiProofs.upd_same, ?ApiProofs.upd_other in * by assumption; auto.
      + injection H1 as <-. injection C1 as <-. exfalso. exact (X _ _ _ H2 C2 eq_refl).
      + injection H2 as <-. injection C2 as <-. exfalso. exact (X _ _ _ H1 C1 eq_refl).
      + exact (i_inj _ _ I _ _ _ _ _ H1 H2 C1 C2).
    - intros i c0 p0 Hi Hp. destruct (srv_main test _ _ _ _ _ _ _ B H Hi Hp) as [(p1 & H0 & M0)|(q0 & _ & _ & ->)].
      + destruct (i_thr _ _ I _ _ _ H0 M0) as (r0 & f0 & Hf0 & C0). exists r0, f0. split; [|exact C0].
        rewrite ApiProofs.upd_other; [exact Hf0|]. intros ->. congruence.
      + exists r. rewrite ApiProofs.upd_same. eexists. split; reflexivity.
  Qed.

  (** ** A step of a handler *)
  Lemma inv_handle w tr i body ok s es : inv w tr -> (forall b, body = Some b -> b = w_body w i) ->
    A.step test (w_srv w) (A.AThread i body ok) = Some (s, es) ->
    inv (St s (w_rem w) (w_body w) (match answered es with Some x => A.upd (w_ans w) i (Some x) | None => w_ans w end) (w_stray w))
      (tr ++ map ES es).
  Proof.
    intros I Hbody H. destruct (ApiReachProofs.reach_seq _ _ _ (i_reach _ _ I)) as (B & N & Q).
    assert (Hth : exists c p, A.s_threads (w_srv w) i = Some (c, p) /\ A.thread_step (w_srv w) i c p body ok = Some (s, es)).
    { cbn in H. destruct (A.s_threads (w_srv w) i) as [[c p]|]; [eauto|discriminate]. }
    destruct Hth as (c & p & Hi & Hst).
    pose proof (ApiProofs.b_tc _ B _ _ _ Hi) as Hc.
    eapply inv_server; eauto; cbn.
    - easy.
    - intros r.
      assert (D : {f | m_fl (w_rem w r) = Some f /\ f_conn f = Some i} + {forall f, m_fl (w_rem w r) = Some f -> f_conn f <> Some i}).
      { destruct (m_fl (w_rem w r)) as [f|]; [|right; discriminate]. destruct (f_conn f) as [j|] eqn:E.
        - destruct (Nat.eq_dec j i) as [->|X]; [left; eauto|right; intros f' [= <-]; congruence].
        - right. intros f' [= <-]. congruence. }
      destruct D as [(f & Hf & Hcn)|D].
      + destruct (i_rem _ _ I r) as (P & F & C & K). destruct (K f i Hf Hcn) as (K1 & K2 & K3).
        destruct (K2 c p Hi) as (X1 & X2 & X3 & X4 & X5 & X6).
        assert (Cl : forall g, sget (A.clean (name r)) (A.g_clients (A.s_metas s g)) <> None ->
                  sget (A.clean (name r)) (A.g_clients (A.s_metas (w_srv w) g)) <> None \/ p = A.GetBootWait /\ A.s_cur (w_srv w) = Some g).
        { intros g Hg. destruct (srv_clients test _ _ _ _ _ _ B H Hg) as [X|(j & b0 & ok0 & c0 & [= <- _ _] & Hj & En & Ec)]; [now left|].
          right. rewrite Hj in Hi. injection Hi as -> <-. auto. }
        assert (Fq : match R.m_phase (m_st (w_rem w r)) with
                     | R.WaitBoot => f_req f = R.GetBoot | R.SendErr _ => f_req f = R.PostBoot true /\ f_buf f <> ""%string
                     | R.SendOK _ => f_req f = R.PostBoot false /\ f_buf f = ""%string | R.WaitRun _ => f_req f = R.GetRun
                     | R.SendDone _ => f_req f = R.PostRun | _ => False end).
        { unfold fl_ok in F. rewrite Hf in F. destruct (R.m_phase (m_st (w_rem w r))); tauto. }
        split; [now apply phase_mono|]. split; [exact F|]. split.
        * intros g Hg Hw. destruct (Cl g Hg) as [Y|[-> _]]; [exact (C g Y Hw)|]. exfalso.
          cbn in X2. destruct (R.m_phase (m_st (w_rem w r))); try easy; (first [rewrite Fq in X2|destruct Fq as [Fq _]; rewrite Fq in X2]); discriminate.
        * intros f' i' Hf' Hc'. assert (f' = f) as -> by congruence. assert (i' = i) as -> by congruence.
          split; [cbn; apply (srv_nthreads test) in H as [H _]; lia|]. split.
          -- cbn. intros c' p' Hi'. destruct (own_pc (w_srv w) i c p body ok s es c' p' Hi Hst Hi') as (-> & Y1 & Y2).
             split; [rewrite <- X1; apply (ApiProofs.step_name test _ _ _ _ c H Hc)|]. split; [congruence|].
             split; [|split; [exact X4|split]].
             ++ destruct p'; cbn; auto.
                ** destruct Y2 as (b & -> & ->). rewrite (Hbody b eq_refl), X4. rewrite <- Y1 in X2. cbn in X2.
                   destruct (R.m_phase (m_st (w_rem w r))); try easy; try (rewrite Fq in X2; discriminate X2).
                   --- destruct Fq as [-> Fq]. destruct (String.eqb_spec (f_buf f) ""); easy.
                   --- destruct Fq as [-> Fq]. now rewrite Fq.
                ** subst p. exact X3.
             ++ intros Hb. assert (Hb0 : ApiProofs.booting_pc p = false) by (rewrite kind_booting in *; now rewrite <- Y1).
                rewrite <- (X5 Hb0). pose proof (ApiProofs.b_ts _ B _ _ _ Hi Hb0) as Hs.
                destruct (A.r_stage (A.s_rcs (w_srv w) c)) as [g|] eqn:Eg; [|easy].
                exact (ApiInvProofs.stage_stays test _ _ _ _ _ _ _ Q H Hc Eg).
             ++ intros Hb. assert (es = []) as -> by (destruct p'; try discriminate Hb; exact Y2). cbn. apply X6.
                rewrite kind_booting in *. now rewrite <- Y1.
          -- cbn. destruct (answered es) as [[cd y]|] eqn:Ea.
             ++ rewrite ApiProofs.upd_same. intros code x [= <- <-].
                pose proof (own_answer (w_srv w) i c p body ok s es cd y Hst Ea) as O. destruct y as [g|].
                ** destruct O as (-> & Ec & ->). split; [cbn in X2; destruct (f_req f); easy|]. intros g' Hg'. destruct (Cl g' Hg') as [Z|[_ Z]]; [|congruence].
                   exfalso. apply Z. pose proof (ApiInvProofs.q_thr _ _ Q _ _ _ Hi) as T. cbn in T. destruct T as (_ & _ & T).
                   rewrite <- X1. apply T.
                ** intros Eq Ecd. rewrite X2, Eq in O. specialize (O eq_refl Ecd). subst p.
                   pose proof (ApiInvProofs.q_thr _ _ Q _ _ _ Hi) as T. cbn in T. destruct T as (m & [T1 _] & T2).
                   exists m. split; [rewrite <- X5 by reflexivity; exact T1|].
                   exact (srv_booted test _ _ _ _ _ B H (proj1 (ApiProofs.n_run _ _ _ N m T2))).
             ++ intros code x Hx. specialize (K3 code x Hx). destruct x as [g|].
                ** split; [apply K3|]. intros g' Hg'. destruct (Cl g' Hg') as [Z|[-> _]]; [exact (proj2 K3 g' Z)|]. exfalso.
                   specialize (X6 eq_refl). congruence.
                ** intros Z1 Z2. destruct (K3 Z1 Z2) as (g & G1 & G2). exists g. split; [exact G1|]. exact (srv_booted test _ _ _ _ _ B H G2).
      + eapply (rem_frame w); try eassumption; try reflexivity; cbn.
        * intros j f Hf Hcn. assert (Hj : j <> i) by (intros ->; exact (D f Hf Hcn)). split; [|congruence].
          destruct (answered es); [now rewrite ApiProofs.upd_other|reflexivity].
        * intros j b0 ok0 c0 [= <- _ _] Hj E. destruct (owner w tr i c0 _ I Hj eq_refl) as (r0 & f0 & Hf0 & Hc0 & Nm & _).
          assert (r0 = r) as -> by (apply names; congruence). exact (D f0 Hf0 Hc0).
        * exact (i_rem _ _ I r).
    - exact (i_inj _ _ I).
    - intros j c0 p0 Hj Hp. destruct (srv_main test _ _ _ _ _ _ _ B H Hj Hp) as [(p1 & H0 & M0)|(q0 & [=] & _)].
      exact (i_thr _ _ I _ _ _ H0 M0).
  Qed.

  Lemma inv_answer0 w tr r f a sent w' es : inv w tr -> m_fl (w_rem w r) = Some f -> freed w f ->
    (forall g, sent = Some g -> forall g', sget (A.clean (name r)) (A.g_clients (A.s_metas (w_srv w) g')) <> None -> g' = g) ->
    answer name cfg addr msg w r a sent = Some (w', es) -> inv w' (tr ++ es).
  Proof. intros I Hf Fr Sn H. destruct w. eapply inv_answer; eauto. exact (i_stray _ _ I). Qed.
  Lemma inv_retry0 w tr r f read w' es : inv w tr -> m_fl (w_rem w r) = Some f -> freed w f ->
    (f_req f = R.PostBoot true -> read = O) -> retry name cfg addr msg w r f read = Some (w', es) -> inv w' (tr ++ es).
  Proof. intros I Hf Fr Hr H. destruct w. eapply inv_retry; eauto. exact (i_stray _ _ I). Qed.

  (** ** All steps *)
  Lemma noise_main q : main_path (A.q_path q) = false -> ApiSpec.main_request q = false.
  Proof. unfold ApiSpec.main_request. now destruct (A.q_path q). Qed.
  Lemma noise_sequential s q : ApiSpec.main_request q = false -> ApiSpec.sequential s (A.ARequest q).
  Proof. cbn. congruence. Qed.
  Lemma in_remove {X} k (l : list X) x : In x (remove_nth k l) -> In x l.
  Proof. revert k. induction l as [|y l IH]; intros [|k]; cbn; auto. intros [->|H]; eauto. Qed.

  Lemma inv_step w tr a w' es : inv w tr -> patient w a -> step w a = Some (w', es) -> inv w' (tr ++ es).
  Proof.
    intros I Pt H. destruct a; cbn in H.
    - assert (X : match a with A.ARequest _ | A.AThread _ _ _ => False | _ => True end) by (destruct a; easy).
      destruct (A.step test (w_srv w) a) as [[s ses]|] eqn:E.
      + assert (Y : Some (with_srv w s, map ES ses) = Some (w', es)) by (destruct a; easy). injection Y as <- <-.
        now apply inv_own with (a := a).
      + destruct a; discriminate.
    - destruct (main_path (A.q_path q)) eqn:M; [discriminate|]. apply noise_main in M.
      destruct (arrive w q body) as [w1 ses] eqn:E. injection H as <- <-.
      eapply inv_arrive; eauto. now apply noise_sequential.
    - destruct (R.m_phase (m_st (w_rem w r))) eqn:E; try discriminate. injection H as <- <-. exact (inv_start _ _ _ _ I E).
    - assert (X : match a with R.ABoot _ _ | R.AAnswer _ => False | _ => True end) by (destruct a; easy).
      apply (inv_local w tr r a); auto. now destruct a.
    - destruct (m_fl (w_rem w r)) as [f|] eqn:Hf; [|discriminate]. destruct (f_conn f) eqn:Hc; [discriminate|].
      destruct (arrive w (http name r f) (f_buf f)) as [w1 ses] eqn:E.
      destruct (A.api_client (w_srv w) (http name r f)) as [code| |] eqn:Ea.
      + destruct (retry name cfg addr msg w1 r f read) as [[w2 es2]|] eqn:Er; [|discriminate]. injection H as <- <-.
        rewrite app_assoc.
        assert (Er' : w_rem w1 = w_rem w) by (unfold arrive in E; destruct (A.request_step (w_srv w) (http name r f)); now injection E as <- _).
        assert (I1 : inv w1 (tr ++ map ES ses)).
        { eapply inv_arrive; eauto. exact (arrive_sequential _ _ _ _ I Hf Hc). }
        apply (inv_retry w1 (tr ++ map ES ses) r f read (w_stray w1) w2 es2 I1).
        * now rewrite Er'.
        * now apply none_freed.
        * exact (i_stray _ _ I1).
        * exact (Pt f Hf).
        * destruct w1. exact Er.
      + injection H as <- <-. eapply inv_admit; eauto. intros code. congruence.
      + injection H as <- <-. eapply inv_admit; eauto. intros code. congruence.
    - destruct (nth_error (w_stray w) k) as [[q b]|] eqn:Hk; [|discriminate].
      destruct (arrive w q b) as [w1 ses] eqn:E. injection H as <- <-.
      assert (M : ApiSpec.main_request q = false) by (eapply (i_stray _ _ I); eapply nth_error_In; exact Hk).
      assert (Es : w_stray w1 = w_stray w) by (unfold arrive in E; destruct (A.request_step (w_srv w) q); now injection E as <- _).
      assert (I1 : inv w1 (tr ++ map ES ses)) by (eapply inv_arrive; eauto; now apply noise_sequential).
      destruct I1. split; auto. cbn. intros q0 b0 Hin. apply in_remove in Hin. rewrite <- Es in Hin. eauto.
    - match type of H with match ?x with _ => _ end = _ =>
        change x with (A.step test (w_srv w) (A.AThread i (if readok then Some (w_body w i) else None) ok)) in H end.
      destruct (A.step test (w_srv w) (A.AThread i _ ok)) as [[s ses]|] eqn:E in H; [|discriminate]. injection H as <- <-.
      eapply inv_handle; [exact I| |exact E]. intros b. destruct readok; congruence.
    - destruct (m_fl (w_rem w r)) as [f|] eqn:Hf; [|discriminate]. destruct (f_conn f) as [i|] eqn:Hc; [|discriminate].
      destruct (A.s_threads (w_srv w) i) eqn:Hi; [discriminate|]. destruct (w_ans w i) as [[code sent]|] eqn:Ha; [|discriminate].
      assert (Fr : freed w f) by (apply ended_freed; intros j Hj; congruence).
      assert (Sn : forall g, sent = Some g -> forall g', sget (A.clean (name r)) (A.g_clients (A.s_metas (w_srv w) g')) <> None -> g' = g).
      { intros g -> g'. destruct (i_rem _ _ I r) as (_ & _ & _ & K). destruct (K f i Hf Hc) as (_ & _ & K3). exact (proj2 (K3 _ _ Ha) g'). }
      destruct (Nat.eqb code 200); [|destruct (Nat.eqb code 205)].
      + eapply inv_answer0; eauto.
      + eapply inv_answer0; eauto.
      + exact (inv_retry0 _ _ _ _ _ _ _ I Hf Fr (Pt f Hf) H).
    - destruct (m_fl (w_rem w r)) as [f|] eqn:Hf; [|discriminate]. cbn in Pt.
      assert (Rq : {f_req f = R.GetRun} + {f_req f <> R.GetRun}) by (destruct (f_req f); (left; reflexivity) || (right; discriminate)).
      assert (Fr : freed w f).
      { destruct Rq as [Rq|Rq]; [exact (getrun_freed _ _ _ _ I Hf Rq)|]. apply ended_freed. now destruct (Pt f Hf Rq). }
      assert (Hread : f_req f = R.PostBoot true -> read = O).
      { intros Hq. destruct (Pt f Hf) as (_ & _ & X); [congruence|]. auto. }
      destruct w as [sv rm bd an sr]. cbn in *.
      assert (X : exists sr', retry name cfg addr msg (St sv rm bd an sr') r f read = Some (w', es)
                  /\ forall q b, In (q, b) sr' -> ApiSpec.main_request q = false).
      { destruct (f_conn f) as [j|] eqn:Hcn; [exists sr; split; [exact H|exact (i_stray _ _ I)]|].
        destruct late; [|exists sr; split; [exact H|exact (i_stray _ _ I)]].
        eexists. split; [exact H|]. intros q b Hin. apply in_app_iff in Hin as [Hin|[[= <- <-]|[]]]; [exact (i_stray _ _ I _ _ Hin)|].
        destruct Rq as [Rq|Rq]; [|destruct (Pt f Hf Rq) as (_ & ? & _); discriminate].
        unfold ApiSpec.main_request, http. rewrite Rq. reflexivity. }
      destruct X as (sr' & H' & Hst). exact (inv_retry (St sv rm bd an sr) tr r f read sr' w' es I Hf Fr Hst Hread H').
    - destruct (m_fl (w_rem w r)) as [f|] eqn:Hf; [|discriminate]. cbn in Pt.
      assert (Fr : freed w f).
      { assert (Rq : {f_req f = R.GetRun} + {f_req f <> R.GetRun}) by (destruct (f_req f); (left; reflexivity) || (right; discriminate)).
        destruct Rq as [Rq|Rq]; [exact (getrun_freed _ _ _ _ I Hf Rq)|]. apply ended_freed. now apply Pt. }
      eapply inv_answer0; eauto. discriminate.
  Qed.

  Lemma reach_inv w tr : reach test name cfg addr msg patient w tr -> inv w tr.
  Proof. induction 1 as [|w tr a w' es R IH Hok H]; [exact inv_init|exact (inv_step _ _ _ _ _ IH Hok H)]. Qed.

  (** ** What the events of a step tell *)
  Lemma qrun_step nm s a s' es : R.step addr nm s a = Some (s', es) -> In R.QRun es ->
    a = R.AAnswer R.OK /\ exists id, R.m_phase s = R.WaitRun id.
  Proof.
    intros H Hin. unfold R.step in H. destruct a; destruct (R.m_phase s) eqn:E; try discriminate H.
    all: repeat match type of H with context [match ?x with _ => _ end] => destruct x; try discriminate H end; injection H as <- <-;
      cbn in Hin; try (intuition discriminate); eauto.
  Qed.

  Lemma advance_run w r a fl st w' es r' st' : advance name addr msg w r a fl st = Some (w', es) -> In (ER r' st' R.QRun) es ->
    r' = r /\ st' = st /\ a = R.AAnswer R.OK /\ exists id, R.m_phase (m_st (w_rem w r)) = R.WaitRun id.
  Proof.
    intros H Hin. unfold advance in H. destruct (R.step addr (name r) (m_st (w_rem w r)) a) as [[s qs]|] eqn:E; [|discriminate].
    injection H as <- <-. apply in_map_iff in Hin as (e & [= <- <- ->] & Hin). destruct (qrun_step _ _ _ _ _ E Hin) as [-> X]. auto.
  Qed.
  Lemma answer_run w r a sent w' es r' st' : answer name cfg addr msg w r a sent = Some (w', es) -> In (ER r' st' R.QRun) es ->
    r' = r /\ st' = m_stage (w_rem w r) /\ a = R.OK /\ exists id, R.m_phase (m_st (w_rem w r)) = R.WaitRun id.
  Proof.
    intros H Hin. unfold answer in H.
    destruct (R.m_phase (m_st (w_rem w r))) eqn:E; [destruct sent|..]; apply (fun h => advance_run _ _ _ _ _ _ _ _ _ h Hin) in H; rewrite E in H;
      destruct H as (-> & -> & X & Y); try discriminate X; injection X as ->; auto.
  Qed.
  Lemma retry_run w r f read w' es r' st' : retry name cfg addr msg w r f read = Some (w', es) -> ~ In (ER r' st' R.QRun) es.
  Proof.
    intros H Hin. unfold retry in H. destruct (match tries (f_req f) with Some n => Nat.leb n (f_try f) | None => false end).
    - now destruct (answer_run _ _ _ _ _ _ _ _ H Hin) as (_ & _ & ? & _).
    - injection H as <- <-. easy.
  Qed.
  Lemma server_qrun es r st e : ~ In (ER r st e) (map ES es).
  Proof. intros H. apply in_map_iff in H as (? & [=] & _). Qed.

  (** A remote runs a stage when it has prepared it and all have booted. *)
  Lemma qrun_event w tr a w' es r st : inv w tr -> step w a = Some (w', es) -> In (ER r st R.QRun) es ->
    exists g, st = Some g /\ prepared tr r g /\ A.g_booted (A.s_metas (w_srv w) g) = true.
  Proof.
    intros I H Hin. destruct a; cbn in H.
    - exfalso. destruct (A.step test (w_srv w) a) as [[s ses]|] eqn:E; [|destruct a; discriminate].
      assert (Y : Some (with_srv w s, map ES ses) = Some (w', es)) by (destruct a; easy). injection Y as <- <-. exact (server_qrun _ _ _ _ Hin).
    - exfalso. destruct (main_path (A.q_path q)); [discriminate|]. destruct (arrive w q body) as [w1 ses]. injection H as <- <-. exact (server_qrun _ _ _ _ Hin).
    - exfalso. destruct (R.m_phase (m_st (w_rem w r0))); try discriminate. injection H as <- <-. now destruct Hin as [?|[]].
    - exfalso. assert (X : match a with R.ABoot _ _ | R.AAnswer _ => False | _ => True end) by (destruct a; easy).
      assert (H' : advance name addr msg w r0 a (m_fl (w_rem w r0)) (m_stage (w_rem w r0)) = Some (w', es)) by (now destruct a).
      destruct (advance_run _ _ _ _ _ _ _ _ _ H' Hin) as (_ & _ & -> & _). exact X.
    - exfalso. destruct (m_fl (w_rem w r0)) as [f|] eqn:Hf; [|discriminate]. destruct (f_conn f) eqn:Hc; [discriminate|].
      destruct (arrive w (http name r0 f) (f_buf f)) as [w1 ses] eqn:E.
      destruct (A.api_client (w_srv w) (http name r0 f)) as [code| |] eqn:Ea.
      + destruct (retry name cfg addr msg w1 r0 f read) as [[w2 es2]|] eqn:Er; [|discriminate]. injection H as <- <-.
        apply in_app_iff in Hin as [Hin|Hin]; [exact (server_qrun _ _ _ _ Hin)|exact (retry_run _ _ _ _ _ _ _ _ Er Hin)].
      + injection H as <- <-. exact (server_qrun _ _ _ _ Hin).
      + injection H as <- <-. exact (server_qrun _ _ _ _ Hin).
    - exfalso. destruct (nth_error (w_stray w) k) as [[q b]|]; [|discriminate].
      destruct (arrive w q b) as [w1 ses]. injection H as <- <-. exact (server_qrun _ _ _ _ Hin).
    - exfalso. match type of H with match ?x with _ => _ end = _ => destruct x as [[s ses]|]; [|discriminate] end.
      injection H as <- <-. exact (server_qrun _ _ _ _ Hin).
    - destruct (m_fl (w_rem w r0)) as [f|] eqn:Hf; [|discriminate]. destruct (f_conn f) as [i|] eqn:Hc; [|discriminate].
      destruct (A.s_threads (w_srv w) i) eqn:Hi; [discriminate|]. destruct (w_ans w i) as [[code sent]|] eqn:Ha; [|discriminate].
      destruct (Nat.eqb_spec code 200) as [->|_]; [|destruct (Nat.eqb code 205)].
      + destruct (answer_run _ _ _ _ _ _ _ _ H Hin) as (-> & -> & _ & id & Ep). destruct (i_rem _ _ I r0) as (P & F & C & K).
        unfold phase_ok in P. rewrite Ep in P. destruct P as (g & P1 & P2). exists g. split; [exact P1|]. split; [exact P2|].
        unfold fl_ok in F. rewrite Ep, Hf in F. destruct F as [F _].
        destruct (K f i Hf Hc) as (_ & _ & K3). specialize (K3 _ _ Ha). destruct sent as [g0|].
        * destruct K3 as [K3 _]. congruence.
        * destruct (K3 F eq_refl) as (g' & G1 & G2). congruence.
      + exfalso. now destruct (answer_run _ _ _ _ _ _ _ _ H Hin) as (_ & _ & ? & _).
      + exfalso. exact (retry_run _ _ _ _ _ _ _ _ H Hin).
    - exfalso. destruct (m_fl (w_rem w r0)) as [f|] eqn:Hf; [|discriminate]. exact (retry_run _ _ _ _ _ _ _ _ H Hin).
    - exfalso. destruct (m_fl (w_rem w r0)) as [f|] eqn:Hf; [|discriminate]. now destruct (answer_run _ _ _ _ _ _ _ _ H Hin) as (_ & _ & ? & _).
  Qed.

  Lemma to_remotes (P : nat -> Prop) (L : list (option string)) : NoDup L ->
    (forall n, In (Some n) L -> exists r, n = A.clean (name r) /\ P r) ->
    exists L' : list (option nat), NoDup L' /\ List.length L' = List.length L
      /\ (forall r, In (Some r) L' -> P r /\ In (Some (A.clean (name r))) L) /\ (In None L' -> In None L).
  Proof.
    induction 1 as [|[n|] L Hn Hnd IH]; intros H.
    - exists []. split; [constructor|]. repeat split; easy.
    - destruct IH as (L' & H1 & H2 & H3 & H4); [intros n' Hi; apply H; now right|].
      destruct (H n (or_introl eq_refl)) as (r & -> & Hr). exists (Some r :: L'). split; [|split; [|split]].
      + constructor; [|exact H1]. intros Hi. now destruct (H3 r Hi) as [_ X].
      + cbn. now rewrite H2.
      + intros r' [[= <-]|Hi]; [split; [exact Hr|now left]|]. destruct (H3 r' Hi). split; [assumption|now right].
      + intros [[=]|Hi]. right. auto.
    - destruct IH as (L' & H1 & H2 & H3 & H4); [intros n' Hi; apply H; now right|].
      exists (None :: L'). split; [|split; [|split]].
      + constructor; [|exact H1]. intros Hi. now apply Hn, H4.
      + cbn. now rewrite H2.
      + intros r' [[=]|Hi]. destruct (H3 r' Hi). split; [assumption|now right].
      + intros _. now left.
  Qed.

  (** All have prepared the stage. *)
  Lemma all_prepared w tr m : inv w tr -> A.g_booted (A.s_metas (w_srv w) m) = true ->
    exists L : list (option nat), NoDup L /\ N.of_nat (List.length L) = A.g_inst (A.s_metas (w_srv w) m)
      /\ (forall r, In (Some r) L -> prepared tr r m) /\ (In None L -> A.g_local (A.s_metas (w_srv w) m) = true).
  Proof.
    intros I Hb. destruct (ApiStuckProofs.booted_instances test _ _ m (i_reach _ _ I) Hb) as (L & H1 & H2 & H3 & H4).
    destruct (to_remotes (fun r => prepared tr r m) L H1) as (L' & G1 & G2 & G3 & G4).
    { intros n Hn. exact (i_booted _ _ I m n (H3 n Hn)). }
    exists L'. split; [exact G1|]. split; [now rewrite G2|]. split; [|auto]. intros r Hr. now apply G3.
  Qed.

  (** The server's events in a step. *)
  Lemma server_event w tr a w' es e : inv w tr -> patient w a -> step w a = Some (w', es) -> In (ES e) es ->
    exists b s' ses, A.step test (w_srv w) b = Some (s', ses) /\ In e ses.
  Proof.
    intros I Pt H Hin.
    assert (M : forall ses, In (ES e) (map ES ses) -> In e ses).
    { intros ses X. apply in_map_iff in X as (? & [= ->] & X). exact X. }
    assert (NR : forall r st qs, ~ In (ES e) (map (ER r st) qs)).
    { intros r st qs X. apply in_map_iff in X as (? & [=] & _). }
    assert (NA : forall w0 r a0 fl st w1 es1, advance name addr msg w0 r a0 fl st = Some (w1, es1) -> ~ In (ES e) es1).
    { intros w0 r a0 fl st w1 es1 X. unfold advance in X. destruct (R.step addr (name r) (m_st (w_rem w0 r)) a0) as [[s qs]|]; [|discriminate].
      injection X as <- <-. apply NR. }
    assert (NW : forall w0 r a0 sent w1 es1, answer name cfg addr msg w0 r a0 sent = Some (w1, es1) -> ~ In (ES e) es1).
    { intros w0 r a0 sent w1 es1 X. unfold answer in X. destruct (R.m_phase (m_st (w_rem w0 r))); [destruct sent|..]; eapply NA; exact X. }
    assert (NY : forall w0 r f read w1 es1, retry name cfg addr msg w0 r f read = Some (w1, es1) -> ~ In (ES e) es1).
    { intros w0 r f read w1 es1 X. unfold retry in X. destruct (match tries (f_req f) with Some n => Nat.leb n (f_try f) | None => false end).
      - eapply NW; exact X.
      - injection X as <- <-. easy. }
    assert (Ar : forall w0 q b w1 ses, arrive w0 q b = (w1, ses) -> exists s', A.step test (w_srv w0) (A.ARequest q) = Some (s', ses)).
    { intros w0 q b w1 ses X. unfold arrive in X. cbn. destruct (A.request_step (w_srv w0) q) as [s ses']. injection X as _ ->. eauto. }
    destruct a; cbn in H.
    - destruct (A.step test (w_srv w) a) as [[s ses]|] eqn:E; [|destruct a; discriminate].
      assert (Y : Some (with_srv w s, map ES ses) = Some (w', es)) by (destruct a; easy). injection Y as <- <-. eauto 7.
    - destruct (main_path (A.q_path q)); [discriminate|]. destruct (arrive w q body) as [w1 ses] eqn:E. injection H as <- <-.
      destruct (Ar _ _ _ _ _ E). eauto 7.
    - exfalso. destruct (R.m_phase (m_st (w_rem w r))); try discriminate. injection H as <- <-. now destruct Hin as [?|[]].
    - exfalso. assert (H' : advance name addr msg w r a (m_fl (w_rem w r)) (m_stage (w_rem w r)) = Some (w', es)) by (now destruct a).
      exact (NA _ _ _ _ _ _ _ H' Hin).
    - destruct (m_fl (w_rem w r)) as [f|] eqn:Hf; [|discriminate]. destruct (f_conn f) eqn:Hc; [discriminate|].
      destruct (arrive w (http name r f) (f_buf f)) as [w1 ses] eqn:E. destruct (Ar _ _ _ _ _ E) as [s' Es].
      destruct (A.api_client (w_srv w) (http name r f)) as [code| |] eqn:Ea.
      + destruct (retry name cfg addr msg w1 r f read) as [[w2 es2]|] eqn:Er; [|discriminate]. injection H as <- <-.
        apply in_app_iff in Hin as [Hin|Hin]; [eauto 7|exfalso; exact (NY _ _ _ _ _ _ Er Hin)].
      + injection H as <- <-. eauto 7.
      + injection H as <- <-. eauto 7.
    - destruct (nth_error (w_stray w) k) as [[q b]|]; [|discriminate].
      destruct (arrive w q b) as [w1 ses] eqn:E. injection H as <- <-. destruct (Ar _ _ _ _ _ E). eauto 7.
    - match type of H with match ?x with _ => _ end = _ =>
        change x with (A.step test (w_srv w) (A.AThread i (if readok then Some (w_body w i) else None) ok)) in H end.
      destruct (A.step test (w_srv w) (A.AThread i _ ok)) as [[s ses]|] eqn:E in H; [|discriminate]. injection H as <- <-. eauto 7.
    - exfalso. destruct (m_fl (w_rem w r)) as [f|] eqn:Hf; [|discriminate]. destruct (f_conn f) as [i|] eqn:Hc; [|discriminate].
      destruct (A.s_threads (w_srv w) i) eqn:Hi; [discriminate|]. destruct (w_ans w i) as [[code sent]|] eqn:Ha; [|discriminate].
      destruct (Nat.eqb code 200); [|destruct (Nat.eqb code 205)]; [eapply NW|eapply NW|eapply NY]; eauto.
    - exfalso. destruct (m_fl (w_rem w r)) as [f|] eqn:Hf; [|discriminate]. eapply NY; eauto.
    - exfalso. destruct (m_fl (w_rem w r)) as [f|] eqn:Hf; [|discriminate]. eapply NW; eauto.
  Qed.
End Net.
