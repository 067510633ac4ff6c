From Verif Require Import Prelude ConfigModel ServeModel ServeSpec.
#[local] Open Scope list_scope.

Section P.
Variables (api test : bool) (stages : list stage).
Variables (dir_of : string -> string) (chdir_ok : string -> bool)
          (collector_ok prepare_ok : stage -> bool).
Notation step := (step api test stages dir_of chdir_ok collector_ok prepare_ok).
Notation run := (run api test stages dir_of chdir_ok collector_ok prepare_ok).
Notation endev := (end_of test).

Lemma run_invariant (P : state -> list event -> Prop) :
  (forall s es a s1 es1, P s es -> step s a = Some (s1, es1) -> P s1 (es ++ es1)) ->
  forall l s es s2 es2, P s es -> run s l = Some (s2, es2) -> P s2 (es ++ es2).
Proof.
  intros Hs. induction l as [|a l IH]; cbn; intros s es s2 es2 HP H.
  - inv H. now rewrite app_nil_r.
  - destruct (step s a) as [[s1 e1]|] eqn:E1; [|discriminate].
    destruct (run s1 l) as [[s3 e3]|] eqn:E2; [|discriminate]. inv H.
    rewrite app_assoc. eapply IH; eauto.
Qed.

(** What is known of an event from those before it. *)
Definition ended (j : nat) (es : list event) : Prop :=
  exists a1 a2, es = a1 ++ endev j :: a2 /\ ~ In ECancel a1.

Definition cause : Prop :=
  exists i c, nth_error stages i = Some c /\
    (chdir_ok (dir_of (s_file c)) = false
     \/ (stats_on c = true /\ collector_ok c = false)
     \/ (has_local c = true /\ prepare_ok c = false)).

Record good (a : list event) (e : event) : Prop := {
  g_order : forall e', In e' a -> in_order e' e;
  g_stage : forall i, stage_of e = Some i ->
    (exists c, nth_error stages i = Some c) /\ (forall r, ~ In (EReturn r) a) /\
    (forall j, j < i -> ended j a);
  g_nonzero : forall i c, stage_of e = Some i -> 2 <= rank e -> nth_error stages i = Some c ->
    has_local c = true -> instances c <> 0%N;
  g_prepare : forall i c d st, e = EPrepare i c d st ->
    nth_error stages i = Some c /\ d = dir_of (s_file c) /\ In (EDir i d) a /\ st = stats_on c /\ has_local c = true;
  g_dir : forall i d, e = EDir i d -> exists c, nth_error stages i = Some c /\ d = dir_of (s_file c);
  g_run : forall i, e = ERun i -> test = false /\
    exists c, nth_error stages i = Some c /\ N.of_nat (length (booted_by i a)) = instances c /\
      (has_local c = true -> exists d st, In (EPrepare i c d st) a);
  g_local : forall i, e = ELocal i -> exists a', a = a' ++ [ERun i];
  g_localend : forall i, e = ELocalEnd i -> In (ELocal i) a;
  g_end : forall i, e = EEnd i -> test = false /\ In (ERun i) a /\
    exists c, nth_error stages i = Some c /\ N.of_nat (length (booted_by i a)) = instances c /\
      N.of_nat (length (finished_by i a)) = instances c /\
      (has_local c = true -> In (ELocal i) a /\ In None (booted_by i a)) /\
      (In None (finished_by i a) -> In (ELocalEnd i) a) /\
      ((api && (0 <? remotes c)%N)%bool = false -> forall w, In w (finished_by i a) -> w = None);
  g_tested : forall i, e = ETested i -> test = true /\
    exists c, nth_error stages i = Some c /\ N.of_nat (length (booted_by i a)) = instances c;
  g_abort : forall i, e = EAbort i -> In ECancel a;
  g_stop : forall i, e = EStop i -> In ECancel a /\ api = true;
  g_return : forall r, e = EReturn r -> (forall r', ~ In (EReturn r') a) /\
    if r then cause else In ECancel a \/ forall j, j < length stages -> In (endev j) a }.

(** The bookkeeping of the phases. *)
Definition quiet (es : list event) : Prop := forall r, ~ In (EReturn r) es.
Definition upto (i r : nat) (es : list event) : Prop :=
  forall e j, In e es -> stage_of e = Some j -> j < i \/ (j = i /\ rank e < r).

Definition phase_inv (s : state) (es : list event) : Prop :=
  match v_phase s with
  | Top i => quiet es /\ upto i 0 es /\ (forall j, j < i -> ended j es) /\ i <= length stages
  | Start i => quiet es /\ upto i 1 es /\ (forall j, j < i -> ended j es) /\
      exists c, nth_error stages i = Some c /\ v_cwd s = dir_of (s_file c) /\ In (EDir i (v_cwd s)) es
  | Boot i n => quiet es /\ upto i 4 es /\ (forall j, j < i -> ended j es) /\
      v_doneq s = [] /\
      exists c, nth_error stages i = Some c /\
        (has_local c = true -> instances c <> 0%N) /\
        (has_local c = true -> (n = 0%N /\ exists q, v_bootq s = (None, false) :: q) \/ In None (booted_by i es)) /\
        N.of_nat (length (booted_by i es)) = n /\ (n <= instances c)%N /\ finished_by i es = [] /\
        (has_local c = true -> exists d st, In (EPrepare i c d st) es)
  | Wait i n => quiet es /\ upto i 7 es /\ (forall j, j < i -> ended j es) /\ test = false /\
      In (ERun i) es /\
      exists c, nth_error stages i = Some c /\
        (has_local c = true -> instances c <> 0%N) /\
        (has_local c = true -> In None (booted_by i es)) /\
        N.of_nat (length (booted_by i es)) = instances c /\
        (n + N.of_nat (length (finished_by i es)) = instances c)%N /\
        (has_local c = true -> In (ELocal i) es) /\
        (In None (finished_by i es) \/ In None (v_doneq s) -> In (ELocalEnd i) es) /\
        ((api && (0 <? remotes c)%N)%bool = false ->
           forall w, In w (finished_by i es) \/ In w (v_doneq s) -> w = None)
  | After i => quiet es /\ upto i 8 es /\ (forall j, j < i -> ended j es) /\ i < length stages /\
      (In (endev i) es \/ In ECancel es)
  | Returned r => In (EReturn r) es
  | _ => True
  end.

Record inv_ (s : state) (es : list event) : Prop := {
  i_cancel : v_cancelled s = true <-> In ECancel es;
  i_locals : forall i, In i (v_locals s) -> In (ELocal i) es;
  i_phase : phase_inv s es;
  i_good : forall a e b, es = a ++ e :: b -> good a e }.

Lemma ended_app j es es' : ended j es -> ended j (es ++ es').
Proof. intros (a1 & a2 & -> & H). exists a1, (a2 ++ es'). now rewrite <- app_assoc. Qed.

Lemma booted_app i a b : booted_by i (a ++ b) = booted_by i a ++ booted_by i b.
Proof. induction a as [|e a IH]; [reflexivity|]. cbn. destruct e; rewrite ?IH; auto. now destruct (Nat.eqb i0 i). Qed.
Lemma finished_app i a b : finished_by i (a ++ b) = finished_by i a ++ finished_by i b.
Proof. induction a as [|e a IH]; [reflexivity|]. cbn. destruct e; rewrite ?IH; auto. now destruct (Nat.eqb i0 i). Qed.

Lemma booted_none i es : (forall w, ~ In (EBooted i w) es) -> booted_by i es = [].
Proof.
  induction es as [|e es IH]; intros H; [reflexivity|].
  cbn. assert (IH' := IH (fun w Hw => H w (or_intror Hw))).
  destruct e; auto. destruct (Nat.eqb_spec i0 i); auto. subst. exfalso. eapply H. now left.
Qed.
Lemma finished_none i es : (forall w, ~ In (EFinished i w) es) -> finished_by i es = [].
Proof.
  induction es as [|e es IH]; intros H; [reflexivity|].
  cbn. assert (IH' := IH (fun w Hw => H w (or_intror Hw))).
  destruct e; auto. destruct (Nat.eqb_spec i0 i); auto. subst. exfalso. eapply H. now left.
Qed.
Lemma in_booted i w es : In w (booted_by i es) <-> In (EBooted i w) es.
Proof.
  induction es as [|e es IH]; [reflexivity|].
  cbn. destruct e; cbn; try (rewrite IH; intuition congruence).
  destruct (Nat.eqb_spec i0 i); cbn; rewrite IH; intuition congruence.
Qed.

Lemma goods_app es e :
  (forall a x b, es = a ++ x :: b -> good a x) -> good es e ->
  forall a x b, es ++ [e] = a ++ x :: b -> good a x.
Proof.
  intros H1 H2 a x b E.
  destruct (@exists_last _ (x :: b) ltac:(discriminate)) as (b' & y & Hy).
  rewrite Hy in E. rewrite app_assoc in E. apply app_inj_tail in E as [E ->].
  destruct b' as [|x' b'].
  - cbn in Hy. inversion Hy; subst. rewrite app_nil_r in *. now subst.
  - cbn in Hy. inversion Hy; subst. eapply H1. reflexivity.
Qed.

Lemma upto_app i r r' es e : upto i r es -> r <= r' ->
  (stage_of e = None \/ (stage_of e = Some i /\ rank e < r')) -> upto i r' (es ++ [e]).
Proof.
  intros H Hr He x j Hx Hj. apply in_app_iff in Hx as [Hx|[<-|[]]].
  - destruct (H _ _ Hx Hj) as [?|[? ?]]; [now left|right; lia].
  - destruct He as [He|[He Hrk]]; [congruence|]. right. rewrite He in Hj. inv Hj. auto.
Qed.
Lemma upto_mono i r r' es : upto i r es -> r <= r' -> upto i r' es.
Proof. intros H Hr x j Hx Hj. destruct (H _ _ Hx Hj) as [?|[? ?]]; [now left|right; lia]. Qed.
Lemma upto_next i r es : upto i r es -> upto (S i) 0 es.
Proof. intros H x j Hx Hj. destruct (H _ _ Hx Hj) as [?|[? ?]]; left; lia. Qed.
Lemma upto_notin i r es e : upto i r es -> stage_of e = Some i -> r <= rank e -> ~ In e es.
Proof. intros H He Hr Hi. destruct (H _ _ Hi He) as [?|[? ?]]; lia. Qed.

Lemma quiet_app es e : quiet es -> (forall r, e <> EReturn r) -> quiet (es ++ [e]).
Proof. intros H He r Hi. apply in_app_iff in Hi as [Hi|[Hi|[]]]; [now apply (H r)|now apply (He r)]. Qed.

Lemma order_of i r es e : upto i r es -> stage_of e = Some i ->
  r <= rank e \/ (r = S (rank e) /\ repeats e = true) -> forall e', In e' es -> in_order e' e.
Proof.
  intros H He Hr e' Hi. unfold in_order. rewrite He. destruct (stage_of e') as [j|] eqn:Ej; [|exact I].
  destruct (H _ _ Hi Ej) as [?|[-> ?]]; [now left|right]. split; [reflexivity|].
  destruct Hr as [Hr|[Hr Hp]]; [left; lia|].
  destruct (Nat.eq_dec (rank e') (rank e)); [right; auto|left; lia].
Qed.
Lemma order_none es e : stage_of e = None -> forall e', In e' es -> in_order e' e.
Proof. intros He e' _. unfold in_order. rewrite He. now destruct (stage_of e'). Qed.

Lemma good_untagged es e : stage_of e = None ->
  (forall i, e = ELocalEnd i -> In (ELocal i) es) ->
  (forall r, e = EReturn r -> (forall r', ~ In (EReturn r') es) /\
    if r then cause else In ECancel es \/ forall j, j < length stages -> In (endev j) es) ->
  good es e.
Proof.
  intros He H1 H2. constructor; auto; try (intros; subst; discriminate).
  - now apply order_none.
  - intros i Hi. congruence.
  - intros i c Hi. congruence.
Qed.

Lemma in_snoc {A} (x : A) l y : In x (l ++ [y]) <-> In x l \/ y = x.
Proof. rewrite in_app_iff. cbn. tauto. Qed.

Definition extra (es : list event) (e : event) (i : nat) (c : stage) : Prop :=
  match e with
  | EPrepare _ c' d st => c' = c /\ d = dir_of (s_file c) /\ In (EDir i d) es /\ st = stats_on c /\ has_local c = true
  | EDir _ d => d = dir_of (s_file c)
  | ERun _ => test = false /\ N.of_nat (length (booted_by i es)) = instances c /\
      (has_local c = true -> exists d st, In (EPrepare i c d st) es)
  | ELocal _ => exists a', es = a' ++ [ERun i]
  | EEnd _ => test = false /\ In (ERun i) es /\ N.of_nat (length (booted_by i es)) = instances c /\
      N.of_nat (length (finished_by i es)) = instances c /\
      (has_local c = true -> In (ELocal i) es /\ In None (booted_by i es)) /\
      (In None (finished_by i es) -> In (ELocalEnd i) es) /\
      ((api && (0 <? remotes c)%N)%bool = false -> forall w, In w (finished_by i es) -> w = None)
  | ETested _ => test = true /\ N.of_nat (length (booted_by i es)) = instances c
  | EAbort _ => In ECancel es
  | EStop _ => In ECancel es /\ api = true
  | _ => True
  end.

Lemma good_tagged es e i c r :
  stage_of e = Some i -> nth_error stages i = Some c -> quiet es -> upto i r es ->
  r <= rank e \/ (r = S (rank e) /\ repeats e = true) ->
  (forall j, j < i -> ended j es) -> (2 <= rank e -> has_local c = true -> instances c <> 0%N) ->
  extra es e i c -> good es e.
Proof.
  intros He Hc Hq Hu Hr Hd Hz Hx.
  constructor; try (intros; subst; discriminate).
  - eapply order_of; eauto.
  - intros i' Hi. rewrite He in Hi. inv Hi. split; [eauto|]. split; [exact Hq|exact Hd].
  - intros i' c' Hi Hk Hc'. rewrite He in Hi. inv Hi. rewrite Hc in Hc'. inv Hc'. auto.
  - intros i' c' d st ->. cbn in He. inv He. cbn in Hx. destruct Hx as (-> & ? & ? & ? & ?). auto.
  - intros i' d ->. cbn in He. inv He. cbn in Hx. eauto.
  - intros i' ->. cbn in He. inv He. cbn in Hx. destruct Hx as (? & ? & ?). split; [auto|]. exists c. auto.
  - intros i' ->. cbn in He. inv He. exact Hx.
  - intros i' ->. cbn in He. inv He. cbn in Hx. destruct Hx as (? & ? & ? & ? & ? & ? & ?).
    split; [auto|]. split; [auto|]. exists c. repeat (split; [assumption|]). assumption.
  - intros i' ->. cbn in He. inv He. cbn in Hx. destruct Hx as (? & ?). split; [auto|]. eauto.
  - intros i' ->. exact Hx.
  - intros i' ->. exact Hx.
Qed.

Lemma ended_of_in j es : In (endev j) es -> ~ In ECancel es -> ended j es.
Proof.
  intros H Hn. apply in_split in H as (a1 & a2 & ->). exists a1, a2. split; [reflexivity|].
  intros Hi. apply Hn. apply in_app_iff. now left.
Qed.
Lemma ended_in j es : ended j es -> In (endev j) es.
Proof. intros (a1 & a2 & -> & _). apply in_app_iff. right. now left. Qed.

Ltac nocancel := rewrite ?in_snoc; intuition (try discriminate).

Lemma inv_step s es a s1 es1 : inv_ s es -> step s a = Some (s1, es1) -> inv_ s1 (es ++ es1).
Proof.
  intros [Hc Hl Hp Hg] H. destruct a as [ctx|w err|w|i0|]; cbn [ServeModel.step] in H.
  - (* the server *)
    unfold server_step in H. unfold phase_inv in Hp.
    destruct (v_phase s) as [i|i|i n|i n|i|r|i|i] eqn:Ep; try discriminate.
    + (* Top *)
      destruct Hp as (Hq & Hu & Hd & Hlen).
      destruct (nth_error stages i) as [c|] eqn:Ec.
      * destruct (chdir_ok (dir_of (s_file c))) eqn:Eo; inv H.
        -- constructor; cbn.
           ++ rewrite in_snoc, Hc. intuition discriminate.
           ++ intros j Hj. rewrite in_snoc. auto.
           ++ unfold phase_inv; cbn. split; [apply quiet_app; [exact Hq|discriminate]|].
              split; [eapply upto_app; [exact Hu|lia|right; cbn; auto]|].
              split; [intros; now apply ended_app, Hd|]. exists c. rewrite in_snoc. auto.
           ++ apply goods_app; [exact Hg|]. eapply good_tagged with (i := i) (r := 0); cbn; eauto; try lia; try tauto; try congruence.
        -- constructor; cbn.
           ++ rewrite in_snoc, Hc. intuition discriminate.
           ++ intros j Hj. rewrite in_snoc. auto.
           ++ (exact I || (apply in_snoc; now right)).
           ++ apply goods_app; [exact Hg|]. apply good_untagged; [reflexivity|discriminate|].
              intros r Hr. inv Hr. split; [exact Hq|]. exists i, c. auto.
      * inv H. constructor; cbn.
        ++ rewrite in_snoc, Hc. intuition discriminate.
        ++ intros j Hj. rewrite in_snoc. auto.
        ++ (exact I || (apply in_snoc; now right)).
        ++ apply goods_app; [exact Hg|]. apply good_untagged; [reflexivity|discriminate|].
           intros r Hr. inv Hr. split; [exact Hq|]. right. intros j Hj.
           apply nth_error_None in Ec. apply ended_in, Hd. lia.
    + (* Start *)
      destruct Hp as (Hq & Hu & Hd & c & Ec & Hw & Hdir). rewrite Ec in H.
      assert (Hnob : booted_by i es = []).
      { apply booted_none. intros w. eapply upto_notin; [exact Hu|reflexivity|cbn; lia]. }
      assert (Hnof : finished_by i es = []).
      { apply finished_none. intros w. eapply upto_notin; [exact Hu|reflexivity|cbn; lia]. }
      unfold start_stage in H.
      destruct (stats_on c && negb (collector_ok c))%bool eqn:Est.
      { inv H. constructor; cbn.
        ++ rewrite in_snoc, Hc. intuition discriminate.
        ++ intros j Hj. rewrite in_snoc. auto.
        ++ (exact I || (apply in_snoc; now right)).
        ++ apply goods_app; [exact Hg|]. apply good_untagged; [reflexivity|discriminate|].
           intros r Hr. inv Hr. split; [exact Hq|]. exists i, c. apply andb_prop in Est as [E1 E2].
           apply negb_true_iff in E2. auto. }
      destruct (has_local c) eqn:Elo.
      * set (prep := EPrepare i c (v_cwd s) (stats_on c)) in *.
        assert (Gp : good es prep).
        { eapply good_tagged with (i := i) (r := 1); cbn; eauto. lia. }
        assert (Gps : forall a x b, es ++ [prep] = a ++ x :: b -> good a x) by now apply goods_app.
        assert (Qp : quiet (es ++ [prep])) by (apply quiet_app; [exact Hq|discriminate]).
        assert (Up : upto i 2 (es ++ [prep])) by (eapply upto_app; [exact Hu|lia|right; cbn; auto]).
        assert (Dp : forall j, j < i -> ended j (es ++ [prep])) by (intros; now apply ended_app, Hd).
        assert (Cp : v_cancelled s = true <-> In ECancel (es ++ [prep])).
        { rewrite in_snoc, Hc. unfold prep. intuition discriminate. }
        assert (Lp : forall j, In j (v_locals s) -> In (ELocal j) (es ++ [prep])).
        { intros j Hj. rewrite in_snoc. auto. }
        destruct (s_trx c) eqn:Etrx.
        { inv H. rewrite app_nil_r. constructor; cbn; auto. }
        destruct (prepare_ok c) eqn:Eprep; cbn in H.
        2:{ inv H. change (es ++ [prep; EReturn true]) with (es ++ [prep] ++ [EReturn true]). rewrite app_assoc.
            constructor; cbn.
            ++ rewrite in_snoc, Cp. intuition discriminate.
            ++ intros j Hj. rewrite in_snoc. auto.
            ++ (exact I || (apply in_snoc; now right)).
            ++ apply goods_app; [exact Gps|]. apply good_untagged; [reflexivity|discriminate|].
               intros r Hr. inv Hr. split; [exact Qp|]. exists i, c. auto. }
        destruct (N.eqb_spec (instances c) 0) as [E0|E0].
        { inv H. constructor; cbn; auto. }
        assert (Pb : forall es', (es' = [] \/ es' = [EPublish i]) ->
                  inv_ (St (Boot i 0) [(None, false)] [] (v_locals s) (v_cancelled s) (v_cwd s)) ((es ++ [prep]) ++ es')).
        { intros es' [->| ->].
          - rewrite app_nil_r. constructor; cbn; auto.
            unfold phase_inv; cbn. split; [exact Qp|]. split; [eapply upto_mono; [exact Up|lia]|].
            split; [exact Dp|]. split; [reflexivity|]. exists c.
            rewrite booted_app, finished_app, Hnob, Hnof. cbn.
            repeat split; auto; try lia; intros _; [left; eauto|]. exists (v_cwd s), (stats_on c). apply in_snoc. now right.
          - constructor; cbn.
            + rewrite in_snoc, Cp. intuition discriminate.
            + intros j Hj. rewrite in_snoc. auto.
            + unfold phase_inv; cbn. split; [apply quiet_app; [exact Qp|discriminate]|].
              split; [eapply upto_app; [exact Up|lia|right; cbn; auto]|].
              split; [intros; now apply ended_app, Dp|]. split; [reflexivity|]. exists c.
              rewrite !booted_app, !finished_app, Hnob, Hnof. cbn.
              repeat split; auto; try lia; intros _; [left; eauto|]. exists (v_cwd s), (stats_on c). rewrite !in_snoc. auto.
            + apply goods_app; [exact Gps|]. eapply good_tagged with (i := i) (r := 2); cbn; eauto; try lia; try tauto; try congruence. }
        inv H. change (es ++ prep :: ?l) with (es ++ [prep] ++ l). rewrite app_assoc.
        apply Pb. destruct (api && _)%bool; auto.
      * assert (Pb : forall es', (es' = [] \/ es' = [EPublish i]) ->
                  inv_ (St (Boot i 0) [] [] (v_locals s) (v_cancelled s) (v_cwd s)) (es ++ es')).
        { intros es' [->| ->].
          - rewrite app_nil_r. constructor; cbn; auto.
            unfold phase_inv; cbn. split; [exact Hq|]. split; [eapply upto_mono; [exact Hu|lia]|].
            split; [exact Hd|]. split; [reflexivity|]. exists c. rewrite Hnob, Hnof. cbn.
            repeat split; auto; try lia; congruence.
          - constructor; cbn.
            + rewrite in_snoc, Hc. intuition discriminate.
            + intros j Hj. rewrite in_snoc. auto.
            + unfold phase_inv; cbn. split; [apply quiet_app; [exact Hq|discriminate]|].
              split; [eapply upto_app; [exact Hu|lia|right; cbn; auto]|].
              split; [intros; now apply ended_app, Hd|]. split; [reflexivity|]. exists c.
              rewrite !booted_app, !finished_app, Hnob, Hnof. cbn.
              repeat split; auto; try lia; congruence.
            + apply goods_app; [exact Hg|]. eapply good_tagged with (i := i) (r := 1); cbn; eauto; try lia; try tauto; try congruence. }
        inv H. apply Pb. destruct (api && _)%bool; auto.
    + (* Boot *)
      destruct Hp as (Hq & Hu & Hd & Hdq & c & Ec & Hnz & Hbn & Hb & Hle & Hf & Hpr). rewrite Ec in H.
      assert (Hilen : i < length stages) by (apply nth_error_Some; congruence).
      destruct (N.ltb_spec n (instances c)) as [Hlt|Hge].
      * destruct ctx.
        -- destruct (v_cancelled s) eqn:Ecan; [|discriminate]. inv H. constructor; cbn.
           ++ rewrite in_snoc. intuition.
           ++ intros j Hj. rewrite in_snoc. auto.
           ++ unfold phase_inv; cbn. split; [apply quiet_app; [exact Hq|discriminate]|].
              split; [eapply upto_app; [exact Hu|lia|right; cbn; auto]|].
              split; [intros; now apply ended_app, Hd|]. split; [exact Hilen|]. right. rewrite in_snoc. intuition.
           ++ apply goods_app; [exact Hg|]. eapply good_tagged with (i := i) (r := 4); cbn; eauto; try lia; try tauto; try congruence.
        -- destruct (v_bootq s) as [|[w err] q] eqn:Eq; [discriminate|].
           destruct err; inv H.
           ++ constructor; cbn.
              ** rewrite in_snoc, Hc. intuition discriminate.
              ** intros j Hj. rewrite in_snoc. auto.
              ** unfold phase_inv; cbn. split; [apply quiet_app; [exact Hq|discriminate]|].
                 split; [eapply upto_app; [exact Hu|lia|right; cbn; auto]|].
                 split; [intros; now apply ended_app, Hd|]. split; [exact Hdq|]. exists c.
                 rewrite booted_app, finished_app, app_nil_r. cbn. rewrite app_nil_r.
                 repeat split; auto.
                 { intros E. destruct (Hbn E) as [[_ [q' Hq']]|Hi]; [|now right]. discriminate. }
                 intros E. destruct (Hpr E) as (d & st & Hin). exists d, st. apply in_snoc. now left.
              ** apply goods_app; [exact Hg|]. eapply good_tagged with (i := i) (r := 4); cbn; eauto; try lia; try tauto; try congruence.
           ++ constructor; cbn.
              ** rewrite in_snoc, Hc. intuition discriminate.
              ** intros j Hj. rewrite in_snoc. auto.
              ** unfold phase_inv; cbn. split; [apply quiet_app; [exact Hq|discriminate]|].
                 split; [eapply upto_app; [exact Hu|lia|right; cbn; auto]|].
                 split; [intros; now apply ended_app, Hd|]. split; [exact Hdq|]. exists c.
                 rewrite booted_app, finished_app, app_length. cbn. rewrite Nat.eqb_refl, app_nil_r. cbn.
                 repeat split; auto; try lia.
                 { intros E. right. destruct (Hbn E) as [[_ [q' Hq']]|Hi]; [|apply in_app_iff; now left].
                   inv Hq'. apply in_snoc. now right. }
                 intros E. destruct (Hpr E) as (d & st & Hin). exists d, st. apply in_snoc. now left.
              ** apply goods_app; [exact Hg|]. eapply good_tagged with (i := i) (r := 4); cbn; eauto; try lia; try tauto; try congruence.
      * assert (n = instances c) as -> by lia.
        assert (Hbn' : has_local c = true -> In None (booted_by i es)).
        { intros E. destruct (Hbn E) as [[E0 _]|Hi]; [|exact Hi]. exfalso. now apply Hnz. }
        clear Hbn.
        destruct test eqn:Etest.
        -- inv H. constructor; cbn.
           ++ rewrite in_snoc, Hc. intuition discriminate.
           ++ intros j Hj. rewrite in_snoc. auto.
           ++ unfold phase_inv; cbn. split; [apply quiet_app; [exact Hq|discriminate]|].
              split; [eapply upto_app; [exact Hu|lia|right; cbn; auto]|].
              split; [intros; now apply ended_app, Hd|]. split; [exact Hilen|]. left. unfold end_of. rewrite Etest, in_snoc. auto.
           ++ apply goods_app; [exact Hg|]. eapply good_tagged with (i := i) (r := 4); cbn; eauto; try lia; try tauto; try congruence.
        -- set (R := es ++ [ERun i]) in *.
           assert (Gr : forall a x b, R = a ++ x :: b -> good a x).
           { apply goods_app; [exact Hg|]. eapply good_tagged with (i := i) (r := 4); cbn; eauto; try lia; try tauto; try congruence. }
           assert (Qr : quiet R) by (apply quiet_app; [exact Hq|discriminate]).
           assert (Ur : upto i 5 R) by (eapply upto_app; [exact Hu|lia|right; cbn; auto]).
           assert (Dr : forall j, j < i -> ended j R) by (intros; now apply ended_app, Hd).
           assert (Cr : v_cancelled s = true <-> In ECancel R).
           { unfold R. rewrite in_snoc, Hc. intuition discriminate. }
           assert (Lr : forall j, In j (v_locals s) -> In (ELocal j) R).
           { intros j Hj. unfold R. rewrite in_snoc. auto. }
           assert (Br : booted_by i R = booted_by i es) by (unfold R; rewrite booted_app; cbn; apply app_nil_r).
           assert (Fr : finished_by i R = []) by (unfold R; rewrite finished_app, Hf; reflexivity).
           destruct (has_local c) eqn:Elo; inv H.
           ++ change (es ++ [ERun i; ELocal i]) with (es ++ [ERun i] ++ [ELocal i]). rewrite app_assoc. fold R.
              constructor; cbn.
              ** rewrite in_snoc, Cr. intuition discriminate.
              ** intros j [<-|Hj]; rewrite in_snoc; auto.
              ** unfold phase_inv; cbn. split; [apply quiet_app; [exact Qr|discriminate]|].
                 split; [eapply upto_app; [exact Ur|lia|right; cbn; auto]|].
                 split; [intros; now apply ended_app, Dr|]. split; [exact Etest|].
                 split; [apply in_snoc; left; apply in_snoc; now right|]. exists c.
                 rewrite booted_app, finished_app, Br, Fr, Hdq. cbn. rewrite app_nil_r.
                 repeat split; auto; try lia; try (intros [[]|[]]); try (intros _ ? [[]|[]]).
                 all: try (intros _; apply in_snoc; now right).
              ** apply goods_app; [exact Gr|]. eapply good_tagged with (i := i) (r := 5); cbn; eauto; try lia; try tauto; try congruence. exists es. reflexivity.
           ++ fold R. constructor; cbn; auto.
              unfold phase_inv; cbn. split; [exact Qr|]. split; [eapply upto_mono; [exact Ur|lia]|].
              split; [exact Dr|]. split; [exact Etest|]. split; [apply in_snoc; now right|]. exists c.
              rewrite Br, Fr, Hdq. cbn.
              repeat split; auto; try lia; try congruence; try (intros [[]|[]]); try (intros _ ? [[]|[]]).
    + (* Wait *)
      destruct Hp as (Hq & Hu & Hd & Ht & Hrun & c & Ec & Hnz & Hbn & Hb & Hf & Hlo & Hnone & Hrem).
      assert (Hilen : i < length stages) by (apply nth_error_Some; congruence).
      destruct (N.eqb_spec n 0) as [E0|E0].
      * inv H. constructor; cbn.
        -- rewrite in_snoc, Hc. intuition discriminate.
        -- intros j Hj. rewrite in_snoc. auto.
        -- unfold phase_inv; cbn. split; [apply quiet_app; [exact Hq|discriminate]|].
           split; [eapply upto_app; [exact Hu|lia|right; cbn; auto]|].
           split; [intros; now apply ended_app, Hd|]. split; [exact Hilen|]. left.
           unfold end_of. rewrite Ht. rewrite in_snoc. auto.
        -- apply goods_app; [exact Hg|]. eapply good_tagged with (i := i) (r := 7); cbn; eauto; try lia; try tauto; try congruence.
           repeat split; auto; try lia.
      * destruct ctx.
        -- destruct (v_cancelled s) eqn:Ecan; [|discriminate].
           destruct api eqn:Eapi; inv H.
           2:{ rewrite app_nil_r. constructor; auto.
               - now rewrite Ecan.
               - unfold phase_inv. rewrite Ep. repeat (split; [assumption|]). exists c. rewrite Eapi. repeat split; auto. }
           constructor; cbn.
           ++ rewrite Ecan, in_snoc. intuition.
           ++ intros j Hj. rewrite in_snoc. auto.
           ++ unfold phase_inv; cbn. rewrite Ep. split; [apply quiet_app; [exact Hq|discriminate]|].
              split; [eapply upto_app; [exact Hu|lia|right; cbn; auto]|].
              split; [intros; now apply ended_app, Hd|]. split; [exact Ht|]. split; [apply in_snoc; now left|]. exists c.
              rewrite booted_app, finished_app. cbn. rewrite !app_nil_r.
              repeat split; auto; intros E; [apply in_snoc; auto|apply in_snoc; auto|].
              rewrite Eapi in E. exact (Hrem E).
           ++ apply goods_app; [exact Hg|]. eapply good_tagged with (i := i) (r := 7); cbn; eauto; try lia; try tauto; try congruence.
        -- destruct (v_doneq s) as [|w q] eqn:Eq; [discriminate|]. inv H. constructor; cbn.
           ++ rewrite in_snoc, Hc. intuition discriminate.
           ++ intros j Hj. rewrite in_snoc. auto.
           ++ unfold phase_inv; cbn. split; [apply quiet_app; [exact Hq|discriminate]|].
              split; [eapply upto_app; [exact Hu|lia|right; cbn; auto]|].
              split; [intros; now apply ended_app, Hd|]. split; [exact Ht|]. split; [apply in_snoc; now left|]. exists c.
              rewrite booted_app, finished_app, !app_length. cbn. rewrite Nat.eqb_refl. cbn.
              repeat split; auto; try lia.
              --- intros E. apply in_app_iff. left. auto.
              --- intros E. apply in_snoc. auto.
              --- intros E. apply in_snoc. left. apply Hnone. rewrite in_snoc in E. cbn. tauto.
              --- intros E w0 Hw. apply Hrem; [exact E|]. rewrite in_snoc in Hw. cbn. tauto.
           ++ apply goods_app; [exact Hg|]. eapply good_tagged with (i := i) (r := 7); cbn; eauto; try lia; try tauto; try congruence.
    + (* After *)
      destruct Hp as (Hq & Hu & Hd & Hilen & Hend).
      destruct (v_cancelled s) eqn:Ecan; inv H.
      * constructor; cbn.
        -- rewrite in_snoc, <- Hc. intuition discriminate.
        -- intros j Hj. rewrite in_snoc. auto.
        -- (exact I || (apply in_snoc; now right)).
        -- apply goods_app; [exact Hg|]. apply good_untagged; [reflexivity|discriminate|].
           intros r Hr. inv Hr. split; [exact Hq|]. left. tauto.
      * rewrite app_nil_r. constructor; cbn; auto.
        -- now rewrite Ecan.
        -- unfold phase_inv; cbn. split; [exact Hq|]. split; [eapply upto_next; exact Hu|]. split; [|lia].
           assert (Hnc : ~ In ECancel es) by (intros E; apply Hc in E; discriminate).
           intros j Hj. destruct (Nat.eq_dec j i) as [->|]; [|apply Hd; lia].
           apply ended_of_in; [tauto|exact Hnc].
  - (* a remote booted *)
    destruct (v_phase s) as [i|i|i n|i n|i|r|i|i] eqn:Ep; try discriminate.
    destruct (published api stages i); inv H. rewrite app_nil_r. constructor; cbn; auto.
    unfold phase_inv in *. cbn. rewrite Ep in *.
    destruct Hp as (Hq & Hu & Hd & Hdq & c & Ec & Hnz & Hbn & Hb & Hle & Hf & Hpr).
    repeat (split; [assumption|]). exists c. split; [exact Ec|]. split; [exact Hnz|].
    split; [|repeat (split; [assumption|]); assumption].
    intros E. destruct (Hbn E) as [[E0 [q Eq]]|Hi]; [left|now right]. split; [exact E0|].
    rewrite Eq. cbn. eauto.
  - (* a remote is done *)
    destruct (v_phase s) as [i|i|i n|i n|i|r|i|i] eqn:Ep; try discriminate.
    destruct (published api stages i) eqn:Epub; inv H. rewrite app_nil_r. constructor; cbn; auto.
    unfold phase_inv in *. cbn. rewrite Ep in *.
    destruct Hp as (Hq & Hu & Hd & Ht & Hrun & c & Ec & Hnz & Hbn & Hb & Hf & Hlo & Hnone & Hrem).
    repeat (split; [assumption|]). exists c. repeat (split; [assumption|]). split.
    + intros E. apply Hnone. rewrite in_snoc in E. intuition discriminate.
    + intros E. unfold published in Epub. rewrite Ec in Epub. congruence.
  - (* the local instance has run *)
    destruct (existsb (Nat.eqb i0) (v_locals s)) eqn:Eex; [|discriminate]. inv H.
    apply existsb_exists in Eex as (i' & Hin & Heq). apply Nat.eqb_eq in Heq. subst i'.
    constructor; cbn.
    + rewrite in_snoc, Hc. intuition discriminate.
    + intros j Hj. apply filter_In in Hj as [Hj _]. rewrite in_snoc. auto.
    + unfold phase_inv in *. cbn.
      destruct (v_phase s) as [i|i|i n|i n|i|r|i|i] eqn:Ep; auto.
      * destruct Hp as (Hq & Hu & Hd & Hlen). split; [apply quiet_app; [exact Hq|discriminate]|].
        split; [eapply upto_app; [exact Hu|lia|now left]|]. split; [intros; now apply ended_app, Hd|exact Hlen].
      * destruct Hp as (Hq & Hu & Hd & c & Ec & Hw & Hdir). split; [apply quiet_app; [exact Hq|discriminate]|].
        split; [eapply upto_app; [exact Hu|lia|now left]|]. split; [intros; now apply ended_app, Hd|].
        exists c. rewrite in_snoc. auto.
      * destruct Hp as (Hq & Hu & Hd & Hdq & c & Ec & Hnz & Hbn & Hb & Hle & Hf & Hpr). split; [apply quiet_app; [exact Hq|discriminate]|].
        split; [eapply upto_app; [exact Hu|lia|now left]|]. split; [intros; now apply ended_app, Hd|].
        split; [exact Hdq|]. exists c. rewrite booted_app, finished_app. cbn. rewrite !app_nil_r.
        repeat split; auto. intros E. destruct (Hpr E) as (d & st & Hi). exists d, st. apply in_snoc. now left.
      * destruct Hp as (Hq & Hu & Hd & Ht & Hrun & c & Ec & Hnz & Hbn & Hb & Hf & Hlo & Hnone & Hrem).
        split; [apply quiet_app; [exact Hq|discriminate]|].
        split; [eapply upto_app; [exact Hu|lia|now left]|]. split; [intros; now apply ended_app, Hd|].
        split; [exact Ht|]. split; [apply in_snoc; now left|]. exists c.
        rewrite booted_app, finished_app. cbn. rewrite !app_nil_r.
        split; [exact Ec|]. split; [exact Hnz|]. split; [exact Hbn|]. split; [exact Hb|]. split; [exact Hf|]. split; [intros E; apply in_snoc; auto|].
        destruct (Nat.eqb_spec i i0) as [->|Hne].
        -- split; [intros _; apply in_snoc; now right|].
           intros E w [Hw|Hw]; [now apply Hrem; [|left]|]. apply in_snoc in Hw as [Hw|Hw]; [now apply Hrem; [|right]|congruence].
        -- split; [intros E; apply in_snoc; auto|exact Hrem].
      * destruct Hp as (Hq & Hu & Hd & Hilen & Hend). split; [apply quiet_app; [exact Hq|discriminate]|].
        split; [eapply upto_app; [exact Hu|lia|now left]|]. split; [intros; now apply ended_app, Hd|].
        split; [exact Hilen|]. rewrite !in_snoc. tauto.
      * apply in_snoc. now left.
    + apply goods_app; [exact Hg|]. apply good_untagged; [reflexivity| |discriminate].
      intros i Hi. inv Hi. auto.
  - (* CTRL-C *)
    inv H. constructor; cbn.
    + rewrite in_snoc. tauto.
    + intros j Hj. rewrite in_snoc. auto.
    + unfold phase_inv in *. cbn.
      destruct (v_phase s) as [i|i|i n|i n|i|r|i|i] eqn:Ep; auto.
      * destruct Hp as (Hq & Hu & Hd & Hlen). split; [apply quiet_app; [exact Hq|discriminate]|].
        split; [eapply upto_app; [exact Hu|lia|now left]|]. split; [intros; now apply ended_app, Hd|exact Hlen].
      * destruct Hp as (Hq & Hu & Hd & c & Ec & Hw & Hdir). split; [apply quiet_app; [exact Hq|discriminate]|].
        split; [eapply upto_app; [exact Hu|lia|now left]|]. split; [intros; now apply ended_app, Hd|].
        exists c. rewrite in_snoc. auto.
      * destruct Hp as (Hq & Hu & Hd & Hdq & c & Ec & Hnz & Hbn & Hb & Hle & Hf & Hpr). split; [apply quiet_app; [exact Hq|discriminate]|].
        split; [eapply upto_app; [exact Hu|lia|now left]|]. split; [intros; now apply ended_app, Hd|].
        split; [exact Hdq|]. exists c. rewrite booted_app, finished_app. cbn. rewrite !app_nil_r.
        repeat split; auto. intros E. destruct (Hpr E) as (d & st & Hi). exists d, st. apply in_snoc. now left.
      * destruct Hp as (Hq & Hu & Hd & Ht & Hrun & c & Ec & Hnz & Hbn & Hb & Hf & Hlo & Hnone & Hrem).
        split; [apply quiet_app; [exact Hq|discriminate]|].
        split; [eapply upto_app; [exact Hu|lia|now left]|]. split; [intros; now apply ended_app, Hd|].
        split; [exact Ht|]. split; [apply in_snoc; now left|]. exists c.
        rewrite booted_app, finished_app. cbn. rewrite !app_nil_r.
        split; [exact Ec|]. split; [exact Hnz|]. split; [exact Hbn|]. split; [exact Hb|]. split; [exact Hf|]. split; [intros E; apply in_snoc; auto|].
        split; [intros E; apply in_snoc; auto|exact Hrem].
      * destruct Hp as (Hq & Hu & Hd & Hilen & Hend). split; [apply quiet_app; [exact Hq|discriminate]|].
        split; [eapply upto_app; [exact Hu|lia|now left]|]. split; [intros; now apply ended_app, Hd|].
        split; [exact Hilen|]. rewrite !in_snoc. tauto.
      * apply in_snoc. now left.
    + apply goods_app; [exact Hg|]. apply good_untagged; [reflexivity|discriminate|discriminate].
Qed.

Lemma inv_init cwd : inv_ (init cwd) [].
Proof.
  constructor; cbn.
  - intuition discriminate.
  - tauto.
  - unfold phase_inv; cbn. split; [intros r []|]. split; [intros e j []|]. split; [intros; lia|lia].
  - intros a e b E; destruct a; discriminate.
Qed.

Lemma inv_run cwd l s es : run (init cwd) l = Some (s, es) -> inv_ s es.
Proof.
  intros H. change es with ([] ++ es). eapply (run_invariant inv_); [|apply inv_init|exact H].
  intros. eapply inv_step; eauto.
Qed.
End P.

(** ** Stages of the local instance alone *)
Section Live.
Variables (api test : bool) (stages : list stage).
Variables (dir_of : string -> string) (chdir_ok : string -> bool)
          (collector_ok prepare_ok : stage -> bool).
Notation step := (step api test stages dir_of chdir_ok collector_ok prepare_ok).
Notation run := (run api test stages dir_of chdir_ok collector_ok prepare_ok).
Hypothesis all_local : forall c, In c stages -> instances c = 1%N /\ has_local c = true.
Hypothesis all_trx : forall c, In c stages -> s_trx c <> [].
Hypothesis chdir : forall c, In c stages -> chdir_ok (dir_of (s_file c)) = true.
Hypothesis collector : forall c, In c stages -> stats_on c = true -> collector_ok c = true.
Hypothesis prepare : forall c, In c stages -> prepare_ok c = true.

Definition measure (s : state) : nat :=
  match v_phase s with
  | Top i => 8 * (length stages - i) + 1
  | Start i => 8 * (length stages - i)
  | Boot i n => 8 * (length stages - i) - 1 - N.to_nat n
  | Wait i n => 8 * (length stages - i) - 5 + N.to_nat n
  | After i => 8 * (length stages - i) - 6
  | _ => 0
  end + length (v_locals s).

Definition local_inv (s : state) : Prop :=
  match v_phase s with
  | Top i => i <= length stages /\ v_locals s = []
  | Start i => i < length stages /\ v_locals s = []
  | Boot i n => i < length stages /\ v_locals s = [] /\ v_doneq s = [] /\
      ((n = 0%N /\ v_bootq s = [(None, false)]) \/ (n = 1%N /\ v_bootq s = []))
  | Wait i n => i < length stages /\
      ((n = 1%N /\ v_locals s = [i] /\ v_doneq s = []) \/ (n = 1%N /\ v_locals s = [] /\ v_doneq s = [None])
       \/ (n = 0%N /\ v_locals s = []))
  | After i => i < length stages /\ v_locals s = []
  | Returned _ => v_locals s = []
  | Hung _ | Panicked _ => False
  end.

(** Actions that bring the run forward: CTRL-C does not, and neither does seeing it while
    instances run. *)
Definition counts (s : state) (a : action) : bool :=
  match a, v_phase s with
  | ACancel, _ => false
  | AServer true, Wait _ (Npos _) => false
  | _, _ => true
  end.

Lemma nth_in i : i < length stages -> exists c, nth_error stages i = Some c /\ In c stages.
Proof.
  intros H. destruct (nth_error stages i) as [c|] eqn:E.
  - exists c. split; [reflexivity|]. eapply nth_error_In; eauto.
  - apply nth_error_None in E. lia.
Qed.

Lemma local_remotes c : In c stages -> remotes c = 0%N.
Proof. intros H. destruct (all_local c H) as [E1 E2]. unfold remotes. now rewrite E2, E1. Qed.

Lemma local_step s a s1 es1 : local_inv s -> step s a = Some (s1, es1) ->
  local_inv s1 /\ (if counts s a then S (measure s1) <= measure s else measure s1 = measure s).
Proof.
  intros Hi H. destruct a as [ctx|w err|w|i0|]; cbn [ServeModel.step] in H.
  - unfold server_step in H. unfold local_inv in Hi.
    destruct (v_phase s) as [i|i|i n|i n|i|r|i|i] eqn:Ep; try discriminate; try contradiction.
    + destruct Hi as [Hlen Hloc]. destruct (Nat.eq_dec i (length stages)) as [->|Hne].
      * replace (nth_error stages (length stages)) with (@None stage) in H by (symmetry; now apply nth_error_None).
        inv H. unfold local_inv, counts, measure. cbn. rewrite Ep, Hloc. cbn. split; [reflexivity|destruct ctx; lia].
      * destruct (nth_in i ltac:(lia)) as (c & Ec & Hc). rewrite Ec, (chdir c Hc) in H. inv H.
        unfold local_inv, counts, measure. cbn. rewrite Ep, Hloc. cbn. split; [split; [lia|reflexivity]|destruct ctx; lia].
    + destruct Hi as [Hlen Hloc]. destruct (nth_in i Hlen) as (c & Ec & Hc). rewrite Ec in H.
      destruct (all_local c Hc) as [E1 E2]. unfold start_stage in H.
      replace (stats_on c && negb (collector_ok c))%bool with false in H.
      2:{ destruct (stats_on c) eqn:Es; [|reflexivity]. now rewrite (collector c Hc Es). }
      rewrite E2 in H. destruct (s_trx c) eqn:Et; [now apply all_trx in Hc|].
      rewrite (prepare c Hc), E1, (local_remotes c Hc) in H. cbn in H. rewrite andb_false_r in H. inv H.
      unfold local_inv, counts, measure. cbn. rewrite Ep, Hloc. cbn. split; [repeat split; auto|destruct ctx; lia].
    + destruct Hi as (Hlen & Hloc & Hdq & Hn). destruct (nth_in i Hlen) as (c & Ec & Hc). rewrite Ec in H.
      destruct (all_local c Hc) as [E1 E2]. rewrite E1, E2 in H.
      destruct Hn as [[-> Hq]|[-> Hq]]; cbn in H.
      * destruct ctx.
        -- destruct (v_cancelled s) eqn:Ecn; [|discriminate]. inv H. unfold local_inv, counts, measure. cbn. rewrite Ep, Hloc. cbn.
           split; [auto|lia].
        -- rewrite Hq in H. inv H. unfold local_inv, counts, measure. cbn. rewrite Ep, Hloc. cbn.
           split; [repeat split; auto|lia].
      * destruct test; inv H; unfold local_inv, counts, measure; cbn; rewrite Ep, Hloc; cbn.
        -- split; [auto|]. destruct ctx; lia.
        -- split; [split; [exact Hlen|left; auto]|]. destruct ctx; lia.
    + destruct Hi as (Hlen & Hn).
      destruct (N.eqb_spec n 0) as [->|Hnz0].
      * inv H. unfold local_inv, counts, measure. cbn. rewrite Ep. cbn.
        destruct Hn as [(E & _)|[(E & _)|(_ & Hloc)]]; try discriminate. rewrite Hloc. cbn.
        split; [auto|]. destruct ctx; lia.
      * destruct ctx.
        -- destruct (v_cancelled s) eqn:Ecn; [|discriminate]. destruct api; inv H;
             (split; [unfold local_inv; rewrite Ep; auto|unfold counts; rewrite Ep; destruct n; [congruence|reflexivity]]).
        -- destruct Hn as [(-> & Hl & Hd)|[(-> & Hl & Hd)|(-> & _)]]; [| |congruence].
           ++ rewrite Hd in H. discriminate.
           ++ rewrite Hd in H. inv H. unfold local_inv, counts, measure. cbn. rewrite Ep, Hl. cbn.
              split; [split; [exact Hlen|right; right; auto]|lia].
    + destruct Hi as [Hlen Hloc]. destruct (v_cancelled s) eqn:Ecn; inv H; unfold local_inv, counts, measure; cbn; rewrite Ep, Hloc; cbn.
      * split; [reflexivity|destruct ctx; lia].
      * split; [split; [lia|reflexivity]|destruct ctx; lia].
  - destruct (v_phase s) as [i|i|i n|i n|i|r|i|i] eqn:Ep; try discriminate.
    unfold local_inv in Hi. rewrite Ep in Hi. destruct Hi as (Hlen & _). destruct (nth_in i Hlen) as (c & Ec & Hc).
    unfold published in H. rewrite Ec, (local_remotes c Hc), andb_false_r in H. discriminate.
  - destruct (v_phase s) as [i|i|i n|i n|i|r|i|i] eqn:Ep; try discriminate.
    unfold local_inv in Hi. rewrite Ep in Hi. destruct Hi as (Hlen & _). destruct (nth_in i Hlen) as (c & Ec & Hc).
    unfold published in H. rewrite Ec, (local_remotes c Hc), andb_false_r in H. discriminate.
  - destruct (existsb (Nat.eqb i0) (v_locals s)) eqn:Ex; [|discriminate]. inv H.
    unfold local_inv, counts, measure in *. cbn.
    destruct (v_phase s) as [i|i|i n|i n|i|r|i|i] eqn:Ep; try contradiction;
      try (destruct Hi as (? & Hl); rewrite Hl in Ex; discriminate).
    + destruct Hi as (? & Hl & _); rewrite Hl in Ex; discriminate.
    + destruct Hi as (Hlen & [(-> & Hl & Hd)|[(-> & Hl & Hd)|(-> & Hl)]]); rewrite Hl in Ex; cbn in Ex; try discriminate.
      rewrite orb_false_r in Ex. apply Nat.eqb_eq in Ex. subst i0. rewrite Hl, Hd. cbn. rewrite Nat.eqb_refl. cbn.
      split; [split; [exact Hlen|right; left; auto]|]. lia.
    + rewrite Hi in Ex. discriminate.
  - inv H. unfold local_inv, counts, measure in *. cbn. split; [exact Hi|reflexivity].
Qed.

(** How many of the actions count. *)
Fixpoint counted (s : state) (l : list action) : nat :=
  match l with
  | [] => 0
  | a :: l' =>
      match step s a with
      | None => 0
      | Some (s1, _) => (if counts s a then 1 else 0) + counted s1 l'
      end
  end.

Lemma local_run l : forall s s2 es2, local_inv s -> run s l = Some (s2, es2) ->
  local_inv s2 /\ counted s l + measure s2 <= measure s.
Proof.
  induction l as [|a l IH]; cbn; intros s s2 es2 Hi H.
  - inv H. split; [exact Hi|lia].
  - destruct (step s a) as [[s1 e1]|] eqn:E1; [|discriminate].
    destruct (run s1 l) as [[s3 e3]|] eqn:E2; [|discriminate]. inv H.
    destruct (local_step _ _ _ _ Hi E1) as [Hi1 Hm]. destruct (IH _ _ _ Hi1 E2) as [Hi2 Hm2].
    split; [exact Hi2|]. destruct (counts s a); lia.
Qed.

Lemma local_init cwd : local_inv (init cwd).
Proof. unfold local_inv. cbn. split; [lia|reflexivity]. Qed.

Lemma local_progress s : local_inv s -> (forall r, v_phase s <> Returned r) ->
  exists a s1 es1, step s a = Some (s1, es1) /\ counts s a = true /\ a <> AServer true.
Proof.
  intros Hi Hr. unfold local_inv in Hi.
  destruct (v_phase s) as [i|i|i n|i n|i|r|i|i] eqn:Ep; try contradiction.
  - exists (AServer false). cbn. unfold server_step. rewrite Ep.
    destruct (nth_error stages i) as [c|]; [destruct (chdir_ok (dir_of (s_file c)))|];
      (eexists; eexists; split; [reflexivity|]; split; [reflexivity|discriminate]).
  - destruct Hi as [Hlen Hl]. destruct (nth_in i Hlen) as (c & Ec & Hc).
    exists (AServer false). cbn. unfold server_step. rewrite Ep, Ec.
    destruct (start_stage api collector_ok prepare_ok s i c) as [s1 e1].
    eexists; eexists; split; [reflexivity|]. split; [reflexivity|discriminate].
  - destruct Hi as (Hlen & Hl & Hd & Hn). destruct (nth_in i Hlen) as (c & Ec & Hc).
    destruct (all_local c Hc) as [E1 E2].
    exists (AServer false). cbn. unfold server_step. rewrite Ep, Ec, E1.
    destruct Hn as [[-> Hq]|[-> Hq]]; cbn.
    + rewrite Hq. eexists; eexists; split; [reflexivity|]. split; [reflexivity|discriminate].
    + destruct test; [|rewrite E2]; (eexists; eexists; split; [reflexivity|]; split; [reflexivity|discriminate]).
  - destruct Hi as (Hlen & [(-> & Hl & Hd)|[(-> & Hl & Hd)|(-> & Hl)]]).
    + exists (ALocalDone i). cbn. rewrite Hl. cbn. rewrite Nat.eqb_refl. cbn.
      eexists; eexists; split; [reflexivity|]. split; [reflexivity|discriminate].
    + exists (AServer false). cbn. unfold server_step. rewrite Ep, Hd. cbn.
      eexists; eexists; split; [reflexivity|]. split; [reflexivity|discriminate].
    + exists (AServer false). cbn. unfold server_step. rewrite Ep. cbn.
      eexists; eexists; split; [reflexivity|]. split; [reflexivity|discriminate].
  - exists (AServer false). cbn. unfold server_step. rewrite Ep.
    destruct (v_cancelled s); (eexists; eexists; split; [reflexivity|]; split; [reflexivity|discriminate]).
  - now destruct (Hr r).
Qed.
End Live.
