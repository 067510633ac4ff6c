From Verif Require Import Prelude ConfigModel ConfigProofs RemoteModel RemoteSpec.
#[local] Open Scope string_scope.
#[local] Open Scope list_scope.

Section P.
Variables addr name : string.
Notation step := (step addr name).
Notation run := (run addr name).

Lemma run_invariant (P : state -> list event -> Prop) :
  (forall s es a s1 es1, P s es -> step s a = Some (s1, es1) -> P s1 (es ++ es1)) ->
  forall l s es s2 es2, P s es -> run s l = Some (s2, es2) -> P s2 (es ++ es2).
Proof.
  intros Hs. induction l as [|a l IH]; cbn; intros s es s2 es2 HP H.
  - inv H. now rewrite app_nil_r.
  - destruct (step s a) as [[s1 e1]|] eqn:E1; [|discriminate].
    destruct (run s1 l) as [[s3 e3]|] eqn:E2; [|discriminate]. inv H.
    rewrite app_assoc. eapply IH; eauto.
Qed.

Lemma in_snoc {A} (x : A) l y : In x (l ++ [y]) <-> In x l \/ y = x.
Proof. rewrite in_app_iff. cbn. tauto. Qed.

(** What is known of an event from those before it. *)
Record good (a : list event) (e : event) : Prop := {
  g_order : forall e', In e' a -> in_order e' e;
  g_send : forall q sid, e = QSend q sid ->
    (q = GetBoot /\ sid = "") \/ (q <> GetBoot /\ exists c, In (QStage sid c) a);
  g_stage : forall id c, e = QStage id c -> exists x, x <> Failed /\ In (QAnswer GetBoot x) a;
  g_reporters : forall r ok, e = QReporters r ok -> In (QFiles true) a /\
    exists id c, In (QStage id c) a /\ r = reporters addr name id (st_report (s_stats c));
  g_prepare : forall c ok, e = QPrepare c ok -> (exists id, In (QStage id c) a) /\ In (QFiles true) a /\
    exists r, In (QReporters r true) a;
  g_boot : forall err sid, e = QSend (PostBoot err) sid -> exists c, In (QPrepare c (negb err)) a;
  g_getrun : forall sid, e = QSend GetRun sid -> exists x, x <> Failed /\ In (QAnswer (PostBoot false) x) a;
  g_run : e = QRun -> In (QAnswer GetRun OK) a /\ (exists c, In (QPrepare c true) a) /\
    exists x, x <> Failed /\ In (QAnswer (PostBoot false) x) a;
  g_runend : e = QRunEnd -> In QRun a;
  g_done : forall sid, e = QSend PostRun sid -> In QRunEnd a;
  g_ping : forall sid, e = QSend GetPing sid -> In QRun a /\ forall r, ~ In (QReturn r) a;
  g_stop : e = QStop -> (exists r, In (QReturn r) a) \/ exists x, x <> OK /\ In (QAnswer GetPing x) a;
  g_return : forall r, e = QReturn r ->
    (In QRun a -> exists sid, In (QSend PostRun sid) a) /\
    (r = false -> In (QAnswer GetRun Again) a \/ exists sid, In (QSend PostRun sid) a) /\
    (r = true -> forall sid, ~ In (QSend PostRun sid) a) }.

Definition upto (r : nat) (es : list event) : Prop :=
  forall e x, In e es -> rank e = Some x -> x < r.

Definition ids (s : state) (id : string) (es : list event) : Prop := m_sid s = id /\ exists c, In (QStage id c) es.
Definition idc (s : state) (id : string) (c : stage) (es : list event) : Prop := m_sid s = id /\ In (QStage id c) es.
Definition prepared (es : list event) : Prop := (exists c, In (QPrepare c true) es) .
Definition acked (es : list event) : Prop := exists x, x <> Failed /\ In (QAnswer (PostBoot false) x) es.

Definition phase_inv (s : state) (es : list event) : Prop :=
  match m_phase s with
  | WaitBoot => upto 1 es /\ m_ping s = NoPing
  | Files id c => upto 3 es /\ idc s id c es /\ m_ping s = NoPing
  | Collector id c => upto 4 es /\ idc s id c es /\ m_ping s = NoPing /\ In (QFiles true) es
  | Prepare id c => upto 5 es /\ idc s id c es /\ m_ping s = NoPing /\ In (QFiles true) es /\ (exists r, In (QReporters r true) es)
  | SendErr id => upto 7 es /\ ids s id es /\ m_ping s = NoPing
  | SendOK id => upto 7 es /\ ids s id es /\ m_ping s = NoPing /\ prepared es
  | WaitRun id => upto 9 es /\ ids s id es /\ m_ping s = NoPing /\ prepared es /\ acked es
  | Running id => upto 11 es /\ ids s id es /\ In QRun es
  | SendDone id => upto 13 es /\ ids s id es /\ In QRun es /\ exists sid, In (QSend PostRun sid) es
  | Returned r => In (QReturn r) es
  end.

Record inv_ (s : state) (es : list event) : Prop := {
  i_phase : phase_inv s es;
  i_good : forall a e b, es = a ++ e :: b -> good a e;
  i_pong : forall a x b, es = a ++ QAnswer GetPing x :: b -> x <> OK -> exists b', b = QStop :: b';
  i_stop : m_run s = true <-> In QStop es;
  i_ret : (forall r, m_phase s <> Returned r) -> forall r, ~ In (QReturn r) es }.

Lemma goods_app es e :
  (forall a x b, es = a ++ x :: b -> good a x) -> good es e ->
  forall a x b, es ++ [e] = a ++ x :: b -> good a x.
Proof.
  intros H1 H2 a x b E.
  destruct (@exists_last _ (x :: b) ltac:(discriminate)) as (b' & y & Hy).
  rewrite Hy in E. rewrite app_assoc in E. apply app_inj_tail in E as [E ->].
  destruct b' as [|x' b'].
  - cbn in Hy. inversion Hy; subst. rewrite app_nil_r in *. now subst.
  - cbn in Hy. inversion Hy; subst. eapply H1. reflexivity.
Qed.

Lemma upto_app r r' es e : upto r es -> r <= r' ->
  (rank e = None \/ exists x, rank e = Some x /\ x < r') -> upto r' (es ++ [e]).
Proof.
  intros H Hr He e' x Hi Hx. apply in_snoc in Hi as [Hi|<-].
  - specialize (H _ _ Hi Hx). lia.
  - destruct He as [He|(y & He & Hy)]; congruence.
Qed.

Lemma order_of r es e : upto r es -> (rank e = None \/ exists x, rank e = Some x /\ r <= x) ->
  forall e', In e' es -> in_order e' e.
Proof.
  intros H He e' Hi. unfold in_order. destruct (rank e') as [y|] eqn:Ey; [|exact I].
  destruct He as [->|(x & -> & Hx)]; [exact I|]. specialize (H _ _ Hi Ey). lia.
Qed.

Lemma notin r es e x : upto r es -> rank e = Some x -> r <= x -> ~ In e es.
Proof. intros H He Hr Hi. specialize (H _ _ Hi He). lia. Qed.

Lemma splits_tail {A} (es : list A) e a x b : es ++ [e] = a ++ x :: b ->
  (exists b', es = a ++ x :: b' /\ b = b' ++ [e]) \/ (es = a /\ e = x /\ b = []).
Proof.
  intros E. destruct (@exists_last _ (x :: b) ltac:(discriminate)) as (b' & y & Hy).
  rewrite Hy in E. rewrite app_assoc in E. apply app_inj_tail in E as [E ->].
  destruct b' as [|x' b']; cbn in Hy; inversion Hy; subst.
  - right. rewrite app_nil_r. auto.
  - left. exists b'. auto.
Qed.

(** The invariants that only speak of the events. *)
Record evs (es : list event) (stopped : bool) : Prop := {
  v_good : forall a e b, es = a ++ e :: b -> good a e;
  v_pong : forall a x b, es = a ++ QAnswer GetPing x :: b -> x <> OK -> exists b', b = QStop :: b';
  v_stop : stopped = true <-> In QStop es }.

Lemma evs_app es st e : evs es st -> good es e -> e <> QStop -> (forall x, e = QAnswer GetPing x -> x = OK) ->
  evs (es ++ [e]) st.
Proof.
  intros [H1 H2 H3] Hg Hn Hp. split.
  - apply goods_app; auto.
  - intros a x b E Hx. apply splits_tail in E as [(b' & E & ->)|(E & Ex & ->)].
    + destruct (H2 _ _ _ E Hx) as (b2 & ->). eexists. reflexivity.
    + now rewrite (Hp _ Ex) in Hx.
  - rewrite in_snoc. rewrite H3. split; [now left|]. intros [|]; [auto|congruence].
Qed.
Lemma evs_stop es st : evs es st -> good es QStop -> evs (es ++ [QStop]) true.
Proof.
  intros [H1 H2 H3] Hg. split.
  - apply goods_app; auto.
  - intros a x b E Hx. apply splits_tail in E as [(b' & E & ->)|(E & Ex & ->)]; [|discriminate].
    destruct (H2 _ _ _ E Hx) as (b2 & ->). eexists. reflexivity.
  - rewrite in_snoc. tauto.
Qed.
Lemma evs_pong es st x : evs es st -> good es (QAnswer GetPing x) -> good (es ++ [QAnswer GetPing x]) QStop ->
  evs ((es ++ [QAnswer GetPing x]) ++ [QStop]) true.
Proof.
  intros [H1 H2 H3] Hg Hg2. split.
  - apply goods_app; auto. apply goods_app; auto.
  - intros a y b E Hx. apply splits_tail in E as [(b' & E & ->)|(E & Ex & ->)]; [|discriminate].
    apply splits_tail in E as [(b2 & E & ->)|(E & Ex & ->)].
    + destruct (H2 _ _ _ E Hx) as (b3 & ->). eexists. reflexivity.
    + exists []. reflexivity.
  - rewrite in_snoc. tauto.
Qed.

Definition Inv (s : state) (es : list event) : Prop :=
  phase_inv s es /\ evs es (m_run s) /\ ((forall r, m_phase s <> Returned r) -> forall r, ~ In (QReturn r) es).

Ltac gd := split; [ | (intros; discriminate) ..].
Ltac ordr H := (eapply order_of; [exact H | cbn [rank]; right; eexists; split; [reflexivity|lia]]).
Ltac upt H := (eapply upto_app; [exact H | lia | cbn [rank]; first [left; reflexivity | right; eexists; split; [reflexivity|lia]]]).
Ltac norder := (intros e' He'; unfold in_order; cbn [rank]; destruct (rank e'); exact I).

Lemma upto_weak r r' es : upto r es -> r <= r' -> upto r' es.
Proof. intros H Hr e x Hi Hx. specialize (H _ _ Hi Hx). lia. Qed.

Lemma good_plain es e r : upto r es -> (exists x, rank e = Some x /\ r <= x) ->
  match e with
  | QAnswer GetPing _ => False
  | QAnswer _ _ | QFiles _ | QCtrlC => True | _ => False end -> good es e.
Proof.
  intros H Hr He. split; try (intros; subst; contradiction).
  - eapply order_of; eauto.
Qed.
Lemma good_return es r err : upto r es -> r <= 14 -> (In QRun es -> exists sid, In (QSend PostRun sid) es) ->
  (err = false -> In (QAnswer GetRun Again) es \/ exists sid, In (QSend PostRun sid) es) ->
  (err = true -> forall sid, ~ In (QSend PostRun sid) es) -> good es (QReturn err).
Proof.
  intros H Hr Hn Hf Ht. split; try (intros; discriminate).
  - ordr H.
  - intros r' E. inversion E; subst r'. repeat split; assumption.
Qed.

Lemma app2 {A} (es : list A) x y : es ++ [x; y] = (es ++ [x]) ++ [y].
Proof. now rewrite <- app_assoc. Qed.

Ltac isn := (apply in_snoc; first [left; assumption | right; reflexivity]).

(** An event [e] of rank [x], then the return. *)
Lemma leave_two s es e r x err : upto r es -> rank e = Some x -> r <= x -> x < 14 -> evs es (m_run s) -> good es e ->
  e <> QRun ->
  (In QRun es -> exists sid, In (QSend PostRun sid) es) ->
  (err = false -> e = QAnswer GetRun Again \/ exists sid, In (QSend PostRun sid) es) ->
  (err = true -> r <= 12 /\ x <> 12) ->
  Inv (leave s err) (es ++ [e; QReturn err]).
Proof.
  intros Hu Hx Hr H14 He Hg Hq Hrun Hf Ht. rewrite app2. split; [|split].
  - cbn. isn.
  - cbn. apply evs_app; [apply evs_app; auto| | discriminate | discriminate].
    + intros ->. discriminate.
    + intros y ->. discriminate.
    + apply good_return with (r := 14).
      * eapply upto_app; [exact Hu|lia|]. right. eauto.
      * lia.
      * intros Hi. apply in_snoc in Hi as [Hi|Hi]; [|congruence]. destruct (Hrun Hi) as (sid & Hs). exists sid. isn.
      * intros E. destruct (Hf E) as [->|(sid & Hs)]; [left; isn|right; exists sid; isn].
      * intros E sid Hs. destruct (Ht E) as (Hr12 & Hx12). apply in_snoc in Hs as [Hs|Hs].
        -- exact (notin r es (QSend PostRun sid) 12 Hu eq_refl Hr12 Hs).
        -- subst e. cbn in Hx. congruence.
  - intros H. now destruct (H err).
Qed.

(** Two events, neither a return nor of the goroutine. *)
Lemma evs_two s es e1 e2 : evs es (m_run s) -> good es e1 -> good (es ++ [e1]) e2 ->
  rank e1 <> None -> rank e2 <> None -> evs (es ++ [e1; e2]) (m_run s).
Proof.
  intros He H1 H2 N1 N2. rewrite app2. apply evs_app; [apply evs_app; auto|auto| |].
  - intros ->. now apply N1.
  - intros x ->. now destruct N1.
  - intros ->. now apply N2.
  - intros x ->. now destruct N2.
Qed.
Lemma noret_two es e1 e2 : (forall r, ~ In (QReturn r) es) -> (forall r, e1 <> QReturn r) -> (forall r, e2 <> QReturn r) ->
  forall r, ~ In (QReturn r) (es ++ [e1; e2]).
Proof. intros H H1 H2 r Hi. rewrite app2 in Hi. apply in_snoc in Hi as [Hi|Hi]; [apply in_snoc in Hi as [Hi|Hi]|]; [eapply H|eapply H1|eapply H2]; eauto. Qed.
Lemma noret_one es e1 : (forall r, ~ In (QReturn r) es) -> (forall r, e1 <> QReturn r) ->
  forall r, ~ In (QReturn r) (es ++ [e1]).
Proof. intros H H1 r Hi. apply in_snoc in Hi as [Hi|Hi]; [eapply H|eapply H1]; eauto. Qed.

(** The events of the goroutine and CTRL-C do not change what is known in a phase. *)
Lemma phase_none s s' es e : m_phase s' = m_phase s -> m_sid s' = m_sid s -> (m_ping s = NoPing -> m_ping s' = NoPing) ->
  rank e = None -> phase_inv s es -> phase_inv s' (es ++ [e]).
Proof.
  intros Hp Hs Hn Hr H. unfold phase_inv, idc, ids, prepared, acked in *. rewrite Hp.
  assert (U : forall r, upto r es -> upto r (es ++ [e])) by (intros r Hu; eapply upto_app; eauto; lia).
  assert (I : forall x, In x es -> In x (es ++ [e])) by (intros; isn).
  destruct (m_phase s); rewrite ?Hs; firstorder auto 10.
Qed.

Lemma inv_step s es a s1 es1 : Inv s es -> step s a = Some (s1, es1) -> Inv s1 (es ++ es1).
Proof.
  intros (HP & HE & HR) H. pose proof HP as HPI. unfold phase_inv in HP.
  destruct a as [ans b|ok|ans| | |ans|]; cbn in H.
  - destruct (m_phase s) eqn:Ep; try discriminate. destruct HP as (Hu & Hn).
    assert (G1 : good es (QAnswer GetBoot ans)).
    { eapply good_plain; [exact Hu|eexists; split; [reflexivity|lia]|exact I]. }
    assert (Hnr : ~ In QRun es) by (eapply notin; [exact Hu|reflexivity|lia]).
    destruct b as [[id c]|].
    2:{ assert (Hx : Some (leave s true, [QAnswer GetBoot ans; QReturn true]) = Some (s1, es1)) by (destruct ans; exact H).
        clear H. inv Hx. eapply leave_two; eauto; try reflexivity; try (split; lia); try lia; try discriminate. contradiction. }
    assert (D : ans = Failed \/ ans <> Failed) by (destruct ans; [right|right|left]; congruence).
    destruct D as [->|D].
    + inv H. eapply leave_two; eauto; try reflexivity; try (split; lia); try lia; try discriminate. contradiction.
    + assert (Hx : Some (St (Files id c) (m_ping s) id (m_run s) (m_ctrl_c s), [QAnswer GetBoot ans; QStage id c]) = Some (s1, es1)) by (destruct ans; [exact H|exact H|contradiction]).
      clear H. inv Hx. split; [|split].
      * cbn. rewrite app2. split; [|split; [split; [reflexivity|isn]|assumption]].
        eapply upto_app with (r := 2); [|lia|right; eexists; split; [reflexivity|lia]]. upt Hu.
      * cbn. apply evs_two; auto; try discriminate.
        split; try (intros; discriminate).
        -- assert (H2 : upto 2 (es ++ [QAnswer GetBoot ans])) by upt Hu. ordr H2.
        -- intros _ _ _. exists ans. split; [exact D|isn].
      * intros _. apply noret_two; try discriminate. apply HR. discriminate.
  - destruct (m_phase s) as [|id c|id c|id c| | | | | |] eqn:Ep; try discriminate.
    + destruct HP as (Hu & (Hs & Hi) & Hn).
      assert (Hnr : ~ In QRun es) by (eapply notin; [exact Hu|reflexivity|lia]).
      assert (G1 : forall b, good es (QFiles b)) by (intros; eapply good_plain; [exact Hu|eexists; split; [reflexivity|lia]|exact I]).
      destruct ok; inv H.
      * split; [|split].
        -- cbn. split; [upt Hu|split; [split; [reflexivity|isn]|split; [assumption|isn]]].
        -- cbn. apply evs_app; auto; discriminate.
        -- intros _. apply noret_one; try discriminate. apply HR; discriminate.
      * eapply leave_two; eauto; try reflexivity; try (split; lia); try lia; try discriminate. contradiction.
    + destruct HP as (Hu & (Hs & Hi) & Hn & Hf).
      assert (Hnr : ~ In QRun es) by (eapply notin; [exact Hu|reflexivity|lia]).
      assert (G1 : forall b, good es (QReporters (reporters addr name id (st_report (s_stats c))) b)).
      { intros b. split; try (intros; discriminate).
        - ordr Hu.
        - intros r ok' E. inversion E; subst. split; [exact Hf|]. exists (m_sid s), c. auto. }
      destruct ok; inv H.
      * split; [|split].
        -- cbn. split; [upt Hu|split; [split; [reflexivity|isn]|split; [assumption|split; [isn|eexists; isn]]]].
        -- cbn. apply evs_app; auto; discriminate.
        -- intros _. apply noret_one; try discriminate. apply HR; discriminate.
      * eapply leave_two; eauto; try reflexivity; try (split; lia); try lia; try discriminate. contradiction.
    + destruct HP as (Hu & (Hs & Hi) & Hn & Hf & (r & Hr)).
      assert (G1 : forall b, good es (QPrepare c b)).
      { intros b. split; try (intros; discriminate).
        - ordr Hu.
        - intros c' ok' E. inversion E; subst. eauto. }
      assert (G2 : forall b, good (es ++ [QPrepare c (negb b)]) (QSend (PostBoot b) (m_sid s))).
      { intros b. assert (H2 : upto 6 (es ++ [QPrepare c (negb b)])) by upt Hu. split; try (intros; discriminate).
        - ordr H2.
        - intros q sid E. inversion E; subst. right. split; [discriminate|]. exists c. isn.
        - intros err sid E. inversion E; subst. exists c. isn. }
      assert (U2 : forall b, upto 7 (es ++ [QPrepare c (negb b); QSend (PostBoot b) (m_sid s)])).
      { intros b. rewrite app2. eapply upto_app with (r := 6); [|lia|right; eexists; split; [reflexivity|lia]]. upt Hu. }
      destruct ok; inv H.
      * split; [|split].
        -- cbn. split; [apply (U2 false)|]. rewrite app2. split; [split; [reflexivity|exists c; apply in_snoc; left; isn]|].
           split; [assumption|]. exists c. apply in_snoc; left; isn.
        -- cbn. apply evs_two; auto; try discriminate. apply (G2 false).
        -- intros _. apply noret_two; try discriminate. apply HR; discriminate.
      * split; [|split].
        -- cbn. split; [apply (U2 true)|]. rewrite app2. split; [split; [reflexivity|exists c; apply in_snoc; left; isn]|assumption].
        -- cbn. apply evs_two; auto; try discriminate. apply (G2 true).
        -- intros _. apply noret_two; try discriminate. apply HR; discriminate.
  - destruct (m_phase s) as [| | | |id|id|id| |id|] eqn:Ep; try discriminate.
    + destruct HP as (Hu & _). inv H.
      assert (Hnr : ~ In QRun es) by (eapply notin; [exact Hu|reflexivity|lia]).
      eapply leave_two; eauto; try reflexivity; try (split; lia); try lia; try discriminate; [|contradiction].
      eapply good_plain; [exact Hu|eexists; split; [reflexivity|lia]|exact I].
    + destruct HP as (Hu & (Hs & (c & Hi)) & Hn & Hp).
      assert (G1 : good es (QAnswer (PostBoot false) ans)) by (eapply good_plain; [exact Hu|eexists; split; [reflexivity|lia]|exact I]).
      assert (Hnr : ~ In QRun es) by (eapply notin; [exact Hu|reflexivity|lia]).
      assert (D : ans = Failed \/ ans <> Failed) by (destruct ans; [right|right|left]; congruence).
      destruct D as [->|D].
      * inv H. eapply leave_two; eauto; try reflexivity; try (split; lia); try lia; try discriminate. contradiction.
      * assert (Hx : Some (goto s (WaitRun id), [QAnswer (PostBoot false) ans; QSend GetRun (m_sid s)]) = Some (s1, es1)) by (destruct ans; [exact H|exact H|contradiction]).
        clear H. inv Hx. assert (H8 : upto 8 (es ++ [QAnswer (PostBoot false) ans])) by upt Hu.
        split; [|split].
        -- cbn. rewrite app2. split; [upt H8|]. split; [split; [reflexivity|exists c; apply in_snoc; left; isn]|].
           split; [assumption|]. split; [destruct Hp as (c' & Hp); exists c'; apply in_snoc; left; isn|].
           exists ans. split; [exact D|]. apply in_snoc; left; isn.
        -- cbn. apply evs_two; auto; try discriminate. split; try (intros; discriminate).
           ++ ordr H8.
           ++ intros q sid E. inversion E; subst. right. split; [discriminate|]. exists c. isn.
           ++ intros sid _. exists ans. split; [exact D|isn].
        -- intros _. apply noret_two; try discriminate. apply HR; discriminate.
    + destruct HP as (Hu & (Hs & (c & Hi)) & Hn & Hp & Ha).
      assert (G1 : good es (QAnswer GetRun ans)) by (eapply good_plain; [exact Hu|eexists; split; [reflexivity|lia]|exact I]).
      assert (Hnr : ~ In QRun es) by (eapply notin; [exact Hu|reflexivity|lia]).
      destruct ans; inv H.
      * assert (H10 : upto 10 (es ++ [QAnswer GetRun OK])) by upt Hu. split; [|split].
        -- cbn. rewrite app2. split; [upt H10|]. split; [split; [reflexivity|exists c; apply in_snoc; left; isn]|]. isn.
        -- cbn. apply evs_two; auto; try discriminate. split; try (intros; discriminate).
           ++ ordr H10.
           ++ intros _. split; [isn|]. split; [destruct Hp as (c' & Hp); exists c'; isn|].
              destruct Ha as (x & Hx & Ha). exists x. split; [exact Hx|isn].
        -- intros _. apply noret_two; try discriminate. apply HR; discriminate.
      * eapply leave_two; eauto; try reflexivity; try (split; lia); try lia; try discriminate. contradiction.
      * eapply leave_two; eauto; try reflexivity; try (split; lia); try lia; try discriminate. contradiction.
    + destruct HP as (Hu & (Hs & (c & Hi)) & Hq & Hd). inv H.
      eapply leave_two; eauto; try reflexivity; try (split; lia); try lia; try discriminate.
      eapply good_plain; [exact Hu|eexists; split; [reflexivity|lia]|exact I].
  - destruct (m_phase s) eqn:Ep; try discriminate. inv H. destruct HP as (Hu & (Hs & (c & Hi)) & Hq). subst id.
    assert (H12 : upto 12 (es ++ [QRunEnd])) by upt Hu. split; [|split].
    + cbn. rewrite app2. split; [upt H12|]. split; [split; [reflexivity|exists c; apply in_snoc; left; isn]|].
      split; [apply in_snoc; left; isn|]. eexists. isn.
    + cbn. apply evs_two; auto; try discriminate.
      * split; try (intros; discriminate); [ordr Hu|]. auto.
      * split; try (intros; discriminate).
        -- ordr H12.
        -- intros q sid E. inversion E; subst. right. split; [discriminate|]. exists c. isn.
        -- intros sid _. isn.
    + intros _. apply noret_two; try discriminate. apply HR; discriminate.
  - assert (Hw : (exists r, m_phase s = Returned r) \/ (forall r, m_phase s <> Returned r)).
    { destruct (m_phase s); [right; discriminate ..|left; eauto]. }
    destruct Hw as [(r & Er)|Hw].
    + rewrite Er in *. destruct (m_ping s) eqn:Ek; try discriminate. inv H. split; [|split].
      * cbn. isn.
      * cbn. eapply evs_stop; [exact HE|]. split; try (intros; discriminate).
        -- norder.
        -- intros _. left. exists r. exact HP.
      * intros H. now destruct (H r).
    + assert (Hp : m_ping s = Sleeping) by (destruct (m_ping s), (m_phase s); congruence).
      assert (Hx : Some (St (m_phase s) Pinging (m_sid s) (m_run s) (m_ctrl_c s), [QSend GetPing (m_sid s)]) = Some (s1, es1)).
      { rewrite Hp in H. destruct (m_phase s); try exact H. now destruct (Hw err). }
      clear H. inv Hx. split; [|split].
      * apply phase_none with (s := s); auto. congruence.
      * cbn. apply evs_app; auto; try discriminate. split; try (intros; discriminate).
        -- norder.
        -- intros q sid E. inversion E; subst. right. split; [discriminate|].
           destruct (m_phase s) eqn:Ep; try (exfalso; intuition congruence).
           ++ destruct HP as (_ & (Hs & Hc) & _). rewrite Hs; exact Hc.
           ++ destruct HP as (_ & (Hs & Hc) & _). rewrite Hs; exact Hc.
        -- intros sid _. split; [|apply HR; exact Hw].
           destruct (m_phase s) eqn:Ep; try (exfalso; intuition congruence); tauto.
      * intros H. apply noret_one; try discriminate. apply HR; auto.
  - destruct (m_ping s) eqn:Ek; try discriminate.
    assert (G1 : good es (QAnswer GetPing ans)) by (split; try (intros; discriminate); norder).
    assert (D : ans = OK \/ ans <> OK) by (destruct ans; [left|right|right]; congruence).
    destruct D as [->|D].
    + inv H. split; [|split].
      * apply phase_none with (s := s); auto. congruence.
      * cbn. apply evs_app; auto; try discriminate. congruence.
      * intros H. apply noret_one; try discriminate. apply HR; auto.
    + assert (Hx : Some (St (m_phase s) PingEnded (m_sid s) true (m_ctrl_c s), [QAnswer GetPing ans; QStop]) = Some (s1, es1)).
      { destruct ans; [contradiction|exact H|exact H]. }
      clear H. inv Hx. split; [|split].
      * rewrite app2. apply phase_none with (s := s); auto; try congruence.
        apply phase_none with (s := s); auto.
      * cbn. rewrite app2. eapply evs_pong; [exact HE|exact G1|]. split; try (intros; discriminate); [norder|].
        intros _. right. exists ans. split; [exact D|isn].
      * intros H. apply noret_two; try discriminate. apply HR; auto.
  - inv H. split; [|split].
    + apply phase_none with (s := s); auto.
    + cbn. apply evs_app; auto; try discriminate. split; try (intros; discriminate). norder.
    + intros H. apply noret_one; try discriminate. apply HR; auto.
Qed.

Lemma inv_init : Inv init first.
Proof.
  split; [|split].
  - cbn. split; [|reflexivity]. intros e x [<-|[]] E. inversion E. lia.
  - split.
    + intros a e b E. destruct a as [|y a]; [|destruct a; discriminate].
      inversion E; subst. split; try (intros; discriminate); try solve [intros ? []].
      intros q' sid' E'. inversion E'. auto.
    + intros a x b E. destruct a as [|y a]; [discriminate|destruct a; discriminate].
    + cbn. split; [discriminate|intros [|[]]; discriminate].
  - intros _ r [|[]]. discriminate.
Qed.

Lemma inv_run l s es : run init l = Some (s, es) -> Inv s (first ++ es).
Proof. intros H. refine (run_invariant Inv inv_step l init first s es inv_init H). Qed.

(** Two events of the same rank are the same. *)
Lemma unique l s es : run init l = Some (s, es) -> forall e e' x, In e (first ++ es) -> In e' (first ++ es) ->
  rank e = Some x -> rank e' = Some x -> e = e'.
Proof.
  intros H e e' x Hi Hi' Hx Hx'. pose proof (inv_run _ _ _ H) as (_ & [Hg _ _] & _).
  apply in_split in Hi as (a & b & E). rewrite E in Hi'.
  apply in_app_iff in Hi' as [Hi'|[Hi'|Hi']]; [|exact Hi'|]; exfalso.
  - pose proof (g_order _ _ (Hg _ _ _ E) _ Hi') as O. unfold in_order in O. rewrite Hx, Hx' in O. lia.
  - apply in_split in Hi' as (b1 & b2 & ->). rewrite app_comm_cons, app_assoc in E.
    pose proof (g_order _ _ (Hg _ _ _ E) e) as O. unfold in_order in O. rewrite Hx, Hx' in O.
    assert (x < x); [apply O; apply in_app_iff; right; now left|lia].
Qed.

Lemma sid_stage l s es : run init l = Some (s, es) -> forall q sid id c, q <> GetBoot ->
  In (QSend q sid) (first ++ es) -> In (QStage id c) (first ++ es) -> sid = id.
Proof.
  intros H q sid id c Hq Hs Hi. pose proof (inv_run _ _ _ H) as (_ & [Hg _ _] & _).
  apply in_split in Hs as (a & b & E).
  destruct (g_send _ _ (Hg _ _ _ E) q sid eq_refl) as [(? & _)|(_ & c' & Hc)]; [contradiction|].
  assert (D : QStage sid c' = QStage id c).
  { eapply (unique l s es H); [rewrite E; apply in_app_iff; now left|exact Hi|reflexivity|reflexivity]. }
  now inversion D.
Qed.

Ltac steps H := unfold RemoteModel.step in H;
  repeat match type of H with context [match ?x with _ => _ end] => destruct x; try discriminate end; inv H.

Lemma reported_run l s es : run init l = Some (s, es) -> forall c ok, In (QPrepare c ok) (first ++ es) ->
  exists sid, In (QSend (PostBoot (negb ok)) sid) (first ++ es).
Proof.
  intros H. refine (run_invariant (fun _ es => forall c ok, In (QPrepare c ok) es ->
    exists sid, In (QSend (PostBoot (negb ok)) sid) es) _ l init first s es _ H).
  - clear. intros s es a s1 es1 IH H c ok Hi. apply in_app_iff in Hi as [Hi|Hi].
    + destruct (IH _ _ Hi) as (sid & Hs). exists sid. apply in_app_iff. now left.
    + assert (G : forall sid, In (QSend (PostBoot (negb ok)) sid) es1 -> exists sid, In (QSend (PostBoot (negb ok)) sid) (es ++ es1)).
      { intros sid Hs. exists sid. apply in_app_iff. now right. }
      steps H; cbn [In] in Hi; repeat destruct Hi as [Hi|Hi]; try contradiction; try discriminate;
        inversion Hi; subst; eapply G; cbn; eauto.
  - intros c ok [Hi|[]]. discriminate.
Qed.

Lemma again_run l s es : run init l = Some (s, es) -> In (QAnswer GetRun Again) (first ++ es) -> In (QReturn false) (first ++ es).
Proof.
  intros H. refine (run_invariant (fun _ es => In (QAnswer GetRun Again) es -> In (QReturn false) es) _ l init first s es _ H).
  - clear. intros s es a s1 es1 IH H Hi. apply in_app_iff. apply in_app_iff in Hi as [Hi|Hi]; [left; auto|right].
    steps H; cbn [In] in Hi; repeat destruct Hi as [Hi|Hi]; try contradiction; try discriminate; cbn; auto.
  - intros [Hi|[]]. discriminate.
Qed.

Lemma ret_false l s es : run init l = Some (s, es) -> forall sid, In (QSend PostRun sid) (first ++ es) ->
  ~ In (QReturn true) (first ++ es).
Proof.
  intros H sid Hs Hr. pose proof (inv_run _ _ _ H) as (_ & [Hg _ _] & _).
  apply in_split in Hr as (a & b & E).
  destruct (g_return _ _ (Hg _ _ _ E) true eq_refl) as (_ & _ & N).
  rewrite E in Hs. apply in_app_iff in Hs as [Hs|[Hs|Hs]]; [exact (N eq_refl _ Hs)|discriminate|].
  apply in_split in Hs as (b1 & b2 & ->). rewrite app_comm_cons, app_assoc in E.
  pose proof (g_order _ _ (Hg _ _ _ E) (QReturn true)) as O. cbn in O.
  assert (14 < 12); [apply O; apply in_app_iff; right; now left|lia].
Qed.

(** How it comes to an end with an error once the stage is known. *)
Lemma why_run l s es : run init l = Some (s, es) ->
  match m_phase s with
  | WaitBoot => True
  | Files _ _ | Collector _ _ | Prepare _ _ => forall r, ~ In (QReturn r) (first ++ es)
  | SendErr _ => exists sid, In (QSend (PostBoot true) sid) (first ++ es)
  | SendOK _ | WaitRun _ | Running _ | SendDone _ => exists sid, In (QSend (PostBoot false) sid) (first ++ es)
  | Returned err => (forall id c, ~ In (QStage id c) (first ++ es)) \/ In (QFiles false) (first ++ es) \/
      (exists r, In (QReporters r false) (first ++ es)) \/ exists b sid, In (QSend (PostBoot b) sid) (first ++ es)
  end.
Proof.
  intros H.
  cut ((match m_phase s with WaitBoot => forall id c, ~ In (QStage id c) (first ++ es) | _ => True end) /\
  match m_phase s with
  | WaitBoot | Files _ _ | Collector _ _ | Prepare _ _ => forall r, ~ In (QReturn r) (first ++ es)
  | SendErr _ => exists sid, In (QSend (PostBoot true) sid) (first ++ es)
  | SendOK _ | WaitRun _ | Running _ | SendDone _ => exists sid, In (QSend (PostBoot false) sid) (first ++ es)
  | Returned err => (forall id c, ~ In (QStage id c) (first ++ es)) \/ In (QFiles false) (first ++ es) \/
      (exists r, In (QReporters r false) (first ++ es)) \/ exists b sid, In (QSend (PostBoot b) sid) (first ++ es)
  end).
  { intros (_ & G). destruct (m_phase s); auto. }
  refine (run_invariant (fun s es =>
   (match m_phase s with WaitBoot => forall id c, ~ In (QStage id c) es | _ => True end) /\
  match m_phase s with
  | WaitBoot | Files _ _ | Collector _ _ | Prepare _ _ => forall r, ~ In (QReturn r) es
  | SendErr _ => exists sid, In (QSend (PostBoot true) sid) es
  | SendOK _ | WaitRun _ | Running _ | SendDone _ => exists sid, In (QSend (PostBoot false) sid) es
  | Returned err => (forall id c, ~ In (QStage id c) es) \/ In (QFiles false) es \/
      (exists r, In (QReporters r false) es) \/ exists b sid, In (QSend (PostBoot b) sid) es
  end) _ l init first s es _ H).
  - clear. intros s es a s1 es1 (I0 & I1) H.
    assert (L : forall x, In x es -> In x (es ++ es1)) by (intros; apply in_app_iff; auto).
    assert (R : forall x, In x es1 -> In x (es ++ es1)) by (intros; apply in_app_iff; auto).
    unfold RemoteModel.step in H. destruct s as [p k sid rn cc]; cbn [m_phase m_ping m_sid m_run m_ctrl_c] in *.
    destruct a, p; try discriminate;
    repeat match type of H with context [match ?x with _ => _ end] => destruct x; try discriminate end; inv H; cbn [m_phase goto leave] in *;
    (split; [solve [exact I | intros ? ? Hi; apply in_app_iff in Hi as [Hi|Hi]; [eapply I0; eauto|cbn in Hi; intuition discriminate]]|]);
    try solve [ intros ? Hi; apply in_app_iff in Hi as [Hi|Hi]; [eapply I1; eauto|cbn in Hi; intuition discriminate] ];
    try solve [ destruct I1 as (sid' & I1); exists sid'; auto ];
    try solve [ eexists; apply R; cbn; auto ];
    try solve [ left; intros ? ? Hi; apply in_app_iff in Hi as [Hi|Hi]; [eapply I0; eauto|cbn in Hi; intuition discriminate] ];
    try solve [ right; left; apply R; cbn; auto ];
    try solve [ right; right; left; eexists; apply R; cbn; auto ];
    try solve [ right; right; right; destruct I1 as (sid' & I1); eexists; exists sid'; apply L; eassumption ];
    try solve [ destruct I1 as [I1|[I1|[(r & I1)|(b & sid' & I1)]]];
      [ left; intros ? ? Hi; apply in_app_iff in Hi as [Hi|Hi]; [eapply I1; eauto|cbn in Hi; intuition discriminate]
      | right; left; auto | right; right; left; exists r; auto | right; right; right; exists b, sid'; auto ] ].
  - cbn. split; [intros id c [Hi|[]]|intros r [Hi|[]]]; discriminate.
Qed.

Lemma reporters_spec id r k : sget k (reporters addr name id r) =
  if String.eqb k "server" then Some [("server", addr); ("client", name); ("stage-id", id)]
  else if String.eqb k "stdout" then sget "stdout" r else None.
Proof.
  unfold reporters. rewrite sget_sset. destruct (String.eqb k "server") eqn:E1.
  - reflexivity.
  -     destruct (String.eqb k "stdout") eqn:E2.
    + apply String.eqb_eq in E2 as ->. clear E1. induction r as [|[k' v] r IH]; [reflexivity|]. cbn [filter fst].
      destruct (String.eqb_spec k' "stdout") as [->|N].
      * reflexivity.
      * cbn [sget]. destruct (String.eqb_spec "stdout" k'); [congruence|exact IH].
    + induction r as [|[k' v] r IH]; [reflexivity|]. cbn. destruct (String.eqb k' "stdout") eqn:E3; cbn; [|exact IH].
      apply String.eqb_eq in E3 as ->. now rewrite E2.
Qed.
End P.
