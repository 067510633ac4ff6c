(** C87-C88: what a remote instance does for a stage (compute/client.go). *)
From Verif Require Import Prelude ConfigModel RemoteModel RemoteSpec RemoteProofs.
#[local] Open Scope string_scope.
#[local] Open Scope list_scope.

(** ** C87: a remote runs a stage once, when told to, and reports its boot and its end *)

(** What Client.run does comes in the order of [rank], every step at most once. *)
Theorem C87_order : forall addr name l s es a e' b e c,
  run addr name init l = Some (s, es) -> first ++ es = (a ++ e' :: b) ++ e :: c -> in_order e' e.
Proof.
  intros until c. intros H E. apply inv_run in H. destruct H as (_ & [Hg _ _] & _).
  apply (g_order _ _ _ _ (Hg _ _ _ E)). apply in_app_iff. right. now left.
Qed.
Print Assumptions C87_order.

(** The stage is run only after the server answered GET /run with 200, which was asked for after
    the server had been told, and had acknowledged, that the stage it sent is prepared. *)
Theorem C87_run : forall addr name l s es a b,
  run addr name init l = Some (s, es) -> first ++ es = a ++ QRun :: b ->
  In (QAnswer GetRun OK) a /\
  (exists id c, In (QStage id c) a /\ In (QPrepare c true) a /\ In (QSend (PostBoot false) id) a) /\
  (In (QAnswer (PostBoot false) OK) a \/ In (QAnswer (PostBoot false) Again) a) /\
  ~ In QRun a /\ ~ In QRun b /\ (forall id, ~ In (QSend (PostBoot true) id) (first ++ es)).
Proof.
  intros until b. intros H E. pose proof (inv_run _ _ _ _ _ H) as (_ & [Hg _ _] & _).
  destruct (g_run _ _ _ _ (Hg _ _ _ E) eq_refl) as (H1 & (c & H2) & (x & Hx & H3)).
  split; [exact H1|]. split; [|split; [|split; [|split]]].
  - pose proof (reported_run _ _ _ _ _ H) as Hr.
    apply in_split in H2 as (a1 & a2 & ->).
    rewrite <- app_assoc, <- app_comm_cons in E.
    destruct (g_prepare _ _ _ _ (Hg _ _ _ E) c true eq_refl) as ((id & Hid) & _).
    assert (Hi : In (QPrepare c true) (first ++ es)) by (rewrite E; apply in_app_iff; right; now left).
    destruct (Hr c true Hi) as (sid & Hs). cbn [negb] in Hs.
    assert (Hsid : sid = id) by (apply (sid_stage addr name l s es H (PostBoot false) sid id c); [discriminate|exact Hs|rewrite E; apply in_app_iff; now left]). subst sid.
    exists id, c. split; [apply in_app_iff; now left|]. split; [apply in_app_iff; right; now left|].
    rewrite E in Hs. rewrite app_comm_cons, app_assoc in Hs. apply in_app_iff in Hs as [Hs|[Hs|Hs]]; [exact Hs|discriminate|].
    exfalso. rewrite app_comm_cons, app_assoc in E.
    apply in_split in Hs as (b1 & b2 & ->). rewrite app_comm_cons, app_assoc in E.
    pose proof (g_order _ _ _ _ (Hg _ _ _ E) QRun) as O. cbn in O. 
    assert (10 < 6); [apply O; apply in_app_iff; right; now left|lia].
  - destruct x; [now left|now right|contradiction].
  - intros Hi. pose proof (g_order _ _ _ _ (Hg _ _ _ E) QRun Hi) as O. cbn in O. lia.
  - intros Hi. apply in_split in Hi as (b1 & b2 & ->). rewrite app_comm_cons, app_assoc in E.
    pose proof (g_order _ _ _ _ (Hg _ _ _ E) QRun) as O. cbn in O.
    assert (10 < 10); [apply O; apply in_app_iff; right; now left|lia].
  - intros id Hi. assert (Hi' := Hi). apply in_split in Hi' as (a1 & a2 & E').
    destruct (g_boot _ _ _ _ (Hg _ _ _ E') true id eq_refl) as (c' & Hc). cbn in Hc.
    assert (QPrepare c' false = QPrepare c true) as D; [|discriminate].
    eapply (unique addr name l s es H); [rewrite E'; apply in_app_iff; now left|rewrite E; apply in_app_iff; now left|reflexivity|reflexivity].
Qed.
Print Assumptions C87_run.

(** Once the stage is prepared, or cannot be, the server is told which. *)
Theorem C87_boot : forall addr name l s es c ok,
  run addr name init l = Some (s, es) -> In (QPrepare c ok) (first ++ es) ->
  (exists id, In (QStage id c) (first ++ es) /\ In (QSend (PostBoot (negb ok)) id) (first ++ es)) /\
  forall err id, In (QSend (PostBoot err) id) (first ++ es) -> err = negb ok.
Proof.
  intros until ok. intros H Hi. pose proof (inv_run _ _ _ _ _ H) as (_ & [Hg _ _] & _).
  destruct (reported_run _ _ _ _ _ H c ok Hi) as (sid & Hs). split.
  - pose proof (in_split _ _ Hi) as (a & b & E).
    destruct (g_prepare _ _ _ _ (Hg _ _ _ E) c ok eq_refl) as ((id & Hid) & _).
    assert (In (QStage id c) (first ++ es)) by (rewrite E; apply in_app_iff; now left).
    assert (sid = id) by (eapply (sid_stage addr name l s es H (PostBoot (negb ok))); [discriminate|eassumption|eassumption]). subst. eauto.
  - intros err id He. assert (D : QSend (PostBoot err) id = QSend (PostBoot (negb ok)) sid).
    { eapply (unique addr name l s es H); eauto; reflexivity. }
    now inversion D.
Qed.
Print Assumptions C87_boot.

(** Every request but GET /boot names the stage the server sent. *)
Theorem C87_ids : forall addr name l s es q sid,
  run addr name init l = Some (s, es) -> In (QSend q sid) (first ++ es) ->
  (q = GetBoot /\ sid = "") \/ (exists c, In (QStage sid c) (first ++ es)) /\
    forall id c, In (QStage id c) (first ++ es) -> id = sid.
Proof.
  intros until sid. intros H Hi. pose proof (inv_run _ _ _ _ _ H) as (_ & [Hg _ _] & _).
  pose proof (in_split _ _ Hi) as (a & b & E).
  destruct (g_send _ _ _ _ (Hg _ _ _ E) q sid eq_refl) as [?|(_ & c & Hc)]; [now left|right].
  assert (Hc' : In (QStage sid c) (first ++ es)) by (rewrite E; apply in_app_iff; now left).
  split; [eauto|]. intros id c' Hid.
  assert (D : QStage id c' = QStage sid c) by (eapply (unique addr name l s es H); eauto; reflexivity).
  now inversion D.
Qed.
Print Assumptions C87_ids.

(** The end of the run is reported before Client.run returns, and only the end of a run is. *)
Theorem C87_done : forall addr name l s es,
  run addr name init l = Some (s, es) ->
  (forall a sid b, first ++ es = a ++ QSend PostRun sid :: b -> In QRun a /\ In QRunEnd a) /\
  (forall a r b, first ++ es = a ++ QReturn r :: b -> In QRun (first ++ es) ->
     r = false /\ exists sid, In (QSend PostRun sid) a).
Proof.
  intros until es. intros H. pose proof (inv_run _ _ _ _ _ H) as (_ & [Hg _ _] & _). split.
  - intros a sid b E. pose proof (g_done _ _ _ _ (Hg _ _ _ E) sid eq_refl) as He. split; [|exact He].
    apply in_split in He as (a1 & a2 & ->). rewrite <- app_assoc, <- app_comm_cons in E.
    apply in_app_iff. left. exact (g_runend _ _ _ _ (Hg _ _ _ E) eq_refl).
  - intros a r b E Hq. assert (Ha : In QRun a).
    { rewrite E in Hq. apply in_app_iff in Hq as [Hq|[Hq|Hq]]; [exact Hq|discriminate|].
      apply in_split in Hq as (b1 & b2 & ->). rewrite app_comm_cons, app_assoc in E.
      pose proof (g_order _ _ _ _ (Hg _ _ _ E) (QReturn r)) as O. cbn in O.
      assert (14 < 10); [apply O; apply in_app_iff; right; now left|lia]. }
    destruct (g_return _ _ _ _ (Hg _ _ _ E) r eq_refl) as (H1 & _). destruct (H1 Ha) as (sid & Hs).
    split; [|eauto]. destruct r; [|reflexivity]. exfalso.
    eapply (ret_false addr name l s es H); [|rewrite E; apply in_app_iff; right; now left].
    rewrite E. apply in_app_iff. left. exact Hs.
Qed.
Print Assumptions C87_done.

(** Nothing but the goroutine, which ends, and CTRL-C comes after the return. *)
Theorem C87_return : forall addr name l s es a r b e,
  run addr name init l = Some (s, es) -> first ++ es = a ++ QReturn r :: b -> In e b ->
  e = QStop \/ e = QCtrlC \/ exists x, e = QAnswer GetPing x.
Proof.
  intros until e. intros H E Hi. pose proof (inv_run _ _ _ _ _ H) as (_ & [Hg _ _] & _).
  apply in_split in Hi as (b1 & b2 & ->). rewrite app_comm_cons, app_assoc in E.
  pose proof (Hg _ _ _ E) as G. assert (Hr : In (QReturn r) (a ++ QReturn r :: b1)) by (apply in_app_iff; right; now left).
  pose proof (g_order _ _ _ _ G _ Hr) as O. unfold in_order in O. cbn in O.
  destruct e as [[| | | |]|[| | | |]| | | | | | | | |]; cbn in O; try lia; eauto.
  destruct (g_ping _ _ _ _ G _ eq_refl) as (_ & N). now destruct (N r).
Qed.
Print Assumptions C87_return.

(** The run is stopped by the remote exactly if a ping is not answered with 200 (or the run is
    over); the server is asked only between the start of the run and the return. *)
Theorem C87_stop : forall addr name l s es,
  run addr name init l = Some (s, es) ->
  (forall a x b, first ++ es = a ++ QAnswer GetPing x :: b -> x <> OK -> exists b', b = QStop :: b') /\
  (forall a b, first ++ es = a ++ QStop :: b ->
     (exists r, In (QReturn r) a) \/ exists x, x <> OK /\ In (QAnswer GetPing x) a) /\
  (forall a sid b, first ++ es = a ++ QSend GetPing sid :: b -> In QRun a /\ forall r, ~ In (QReturn r) a).
Proof.
  intros until es. intros H. pose proof (inv_run _ _ _ _ _ H) as (_ & [Hg Hp _] & _). split; [exact Hp|]. split.
  - intros a b E. exact (g_stop _ _ _ _ (Hg _ _ _ E) eq_refl).
  - intros a sid b E. exact (g_ping _ _ _ _ (Hg _ _ _ E) sid eq_refl).
Qed.
Print Assumptions C87_stop.

(** With 205 in answer to GET /run (--test) the stage is not run, and that is no error. *)
Theorem C87_test : forall addr name l s es,
  run addr name init l = Some (s, es) -> In (QAnswer GetRun Again) (first ++ es) ->
  ~ In QRun (first ++ es) /\ In (QReturn false) (first ++ es).
Proof.
  intros until es. intros H Hi. pose proof (inv_run _ _ _ _ _ H) as (_ & [Hg _ _] & _). split.
  - intros Hq. apply in_split in Hq as (a & b & E).
    destruct (g_run _ _ _ _ (Hg _ _ _ E) eq_refl) as (H1 & _).
    assert (QAnswer GetRun OK = QAnswer GetRun Again) as D; [|discriminate].
    eapply (unique addr name l s es H); eauto; [rewrite E; apply in_app_iff; now left|reflexivity|reflexivity].
  - exact (again_run addr name l s es H Hi).
Qed.
Print Assumptions C87_test.

(** Boot, run while pinging, the server stops the stage; the second: --test. *)
Definition rm_stage (disable : option bool) (rep : smap (smap string)) : stage :=
  Stage (Compute false "2") false "s.yaml" "s" empty_mysql 0 [] "" "" (Stats disable "5s" rep) "" [] [].
Definition rm_c := rm_stage None [("csv", [("file", "f")]); ("stdout", [("percentiles", "P95")])].
Definition rm_reports : smap (smap string) :=
  [("stdout", [("percentiles", "P95")]); ("server", [("server", "http://h"); ("client", "r"); ("stage-id", "id1")])].
Definition rm_run (l : list action) : option (phase * list event) :=
  match run "http://h" "r" init l with Some (s, es) => Some (m_phase s, first ++ es) | None => None end.
Example C87_example :
  rm_run [ABoot OK (Some ("id1", rm_c)); AOutcome true; AOutcome true; AOutcome true; AAnswer OK; AAnswer OK;
          AWake; APong OK; AWake; APong Again; ARunEnd; AAnswer OK] =
  Some (Returned false,
    [QSend GetBoot ""; QAnswer GetBoot OK; QStage "id1" rm_c; QFiles true; QReporters rm_reports true; QPrepare rm_c true;
     QSend (PostBoot false) "id1"; QAnswer (PostBoot false) OK; QSend GetRun "id1"; QAnswer GetRun OK; QRun;
     QSend GetPing "id1"; QAnswer GetPing OK; QSend GetPing "id1"; QAnswer GetPing Again; QStop;
     QRunEnd; QSend PostRun "id1"; QAnswer PostRun OK; QReturn false]) /\
  rm_run [ABoot OK (Some ("id1", rm_c)); AOutcome true; AOutcome true; AOutcome true; AAnswer OK; AAnswer Again] =
  Some (Returned false,
    [QSend GetBoot ""; QAnswer GetBoot OK; QStage "id1" rm_c; QFiles true; QReporters rm_reports true; QPrepare rm_c true;
     QSend (PostBoot false) "id1"; QAnswer (PostBoot false) OK; QSend GetRun "id1"; QAnswer GetRun Again; QReturn false]) /\
  rm_run [ABoot OK (Some ("id1", rm_c)); AOutcome true; AOutcome true; AOutcome false; AAnswer Failed] =
  Some (Returned true,
    [QSend GetBoot ""; QAnswer GetBoot OK; QStage "id1" rm_c; QFiles true; QReporters rm_reports true; QPrepare rm_c false;
     QSend (PostBoot true) "id1"; QAnswer (PostBoot true) Failed; QReturn true]).
Proof. repeat split. Qed.
(** The goroutine outlives the run: a ping under way is answered after the return. *)
Example C87_example_late :
  rm_run [ABoot OK (Some ("id1", rm_c)); AOutcome true; AOutcome true; AOutcome true; AAnswer OK; AAnswer OK;
          AWake; ARunEnd; AAnswer Failed; APong OK; AWake] =
  Some (Returned false,
    [QSend GetBoot ""; QAnswer GetBoot OK; QStage "id1" rm_c; QFiles true; QReporters rm_reports true; QPrepare rm_c true;
     QSend (PostBoot false) "id1"; QAnswer (PostBoot false) OK; QSend GetRun "id1"; QAnswer GetRun OK; QRun;
     QSend GetPing "id1"; QRunEnd; QSend PostRun "id1"; QAnswer PostRun Failed; QReturn false;
     QAnswer GetPing OK; QStop]).
Proof. reflexivity. Qed.

(** ** C88: the server is told that a remote gives up a stage *)

(** A remote that returns has sent POST /boot, or it never got a stage, or it could not fetch the trx
    files or make the collector.  Missing: in the last two cases it should have been sent, too. *)
Theorem C88_told_partial : forall addr name l s es r,
  run addr name init l = Some (s, es) -> In (QReturn r) (first ++ es) ->
  (forall id c, ~ In (QStage id c) (first ++ es)) \/
  In (QFiles false) (first ++ es) \/ (exists rep, In (QReporters rep false) (first ++ es)) \/
  exists err id, In (QSend (PostBoot err) id) (first ++ es).
Proof.
  intros until r. intros H Hr. pose proof (why_run _ _ _ _ _ H) as W.
  pose proof (inv_run _ _ _ _ _ H) as (_ & _ & N).
  destruct (m_phase s); try (exfalso; eapply N; [discriminate|eassumption]). exact W.
Qed.
Print Assumptions C88_told_partial.

(** C88 is false: a remote that cannot fetch the trx files, or make its collector, returns without a
    word to the server, for which it is still booting. *)
Theorem C88_refuted : exists l l' e e', let es := [QAnswer GetBoot OK; QStage "id1" rm_c] in
  rm_run l = Some (Returned true, first ++ es ++ e ++ [QReturn true]) /\
  rm_run l' = Some (Returned true, first ++ es ++ e' ++ [QReturn true]) /\
  e = [QFiles false] /\ e' = [QFiles true; QReporters rm_reports false].
Proof.
  exists [ABoot OK (Some ("id1", rm_c)); AOutcome false], [ABoot OK (Some ("id1", rm_c)); AOutcome true; AOutcome false],
    [QFiles false], [QFiles true; QReporters rm_reports false]. repeat split.
Qed.
Print Assumptions C88_refuted.

(** ** C89: statistics of remotes are reported by the server *)

(** The reporters of a remote: the server's, with the address of the server, the name of the instance
    and the stage, and stdout with its options if the stage has it; no others. *)
Theorem C89_reporters : forall addr name l s es rep ok,
  run addr name init l = Some (s, es) -> In (QReporters rep ok) (first ++ es) ->
  exists id c, In (QStage id c) (first ++ es) /\
  sget "server" rep = Some [("server", addr); ("client", name); ("stage-id", id)] /\
  sget "stdout" rep = sget "stdout" (st_report (s_stats c)) /\
  forall k v, sget k rep = Some v -> k = "server" \/ k = "stdout".
Proof.
  intros until ok. intros H Hi. pose proof (inv_run _ _ _ _ _ H) as (_ & [Hg _ _] & _).
  apply in_split in Hi as (a & b & E).
  destruct (g_reporters _ _ _ _ (Hg _ _ _ E) rep ok eq_refl) as (_ & id & c & Hc & ->).
  exists id, c. split; [rewrite E; apply in_app_iff; now left|]. rewrite !reporters_spec.
  split; [reflexivity|]. split; [reflexivity|]. intros k v. rewrite reporters_spec.
  destruct (String.eqb_spec k "server") as [->|]; [auto|].
  destruct (String.eqb_spec k "stdout") as [->|]; [auto|discriminate].
Qed.
Print Assumptions C89_reporters.

(** And every run of a stage has them. *)
Theorem C89_run : forall addr name l s es, run addr name init l = Some (s, es) -> In QRun (first ++ es) ->
  exists rep, In (QReporters rep true) (first ++ es).
Proof.
  intros until es. intros H Hi. pose proof (inv_run _ _ _ _ _ H) as (_ & [Hg _ _] & _).
  apply in_split in Hi as (a & b & E). destruct (g_run _ _ _ _ (Hg _ _ _ E) eq_refl) as (_ & (c & Hc) & _).
  apply in_split in Hc as (a1 & a2 & ->). rewrite <- app_assoc, <- app_comm_cons in E.
  destruct (g_prepare _ _ _ _ (Hg _ _ _ E) c true eq_refl) as (_ & _ & rep & Hr).
  exists rep. rewrite E. apply in_app_iff. now left.
Qed.
Print Assumptions C89_run.
Example C89_example : exists es,
  rm_run [ABoot OK (Some ("id1", rm_c)); AOutcome true; AOutcome true; AOutcome true; AAnswer OK; AAnswer OK] =
  Some (Running "id1", es) /\ In QRun es /\ In (QReporters rm_reports true) es.
Proof. eexists. split; [reflexivity|]. split; cbn; tauto. Qed.

(** C89 does not hold of disabled statistics: the remote collects, prints and sends them all the same,
    as the run has reporters whatever stats.disable is. *)
Theorem C89_refuted : let c := rm_stage (Some true) [("stdout", [])] in
  st_disable (s_stats c) = Some true /\ exists l es, rm_run l = Some (Running "id1", es) /\ In QRun es /\
  In (QReporters [("stdout", []); ("server", [("server", "http://h"); ("client", "r"); ("stage-id", "id1")])] true) es.
Proof.
  intros c. split; [reflexivity|].
  exists [ABoot OK (Some ("id1", c)); AOutcome true; AOutcome true; AOutcome true; AAnswer OK; AAnswer OK].
  eexists. split; [reflexivity|]. split; cbn; tauto.
Qed.
Print Assumptions C89_refuted.
