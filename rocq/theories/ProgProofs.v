(** Lemmas for C133. *)
From Verif Require Import Prelude ListAux ScopeModel StmtModel WorkloadModel ClientModel ClientSpec IterModel IterSpec LoopModel LoopSpec LoopProofs WholeModel WholeSpec WholeProofs HaltSpec HaltProofs ProgModel ProgSpec.
From Verif Require LimitProofs StageProps.
Module SP := StageProps.
#[local] Open Scope list_scope.

Section Prog.
  Context {V : Type}.
  Variable stages : list (C.stage * list (list (list client))).
  Notation prog_step := (prog_step (V := V) stages).
  Notation prog_run := (prog_run (V := V) stages).

  (** What an action does in stage [i]. *)
  Definition acts_in (i : nat) (a : paction V) : list (waction V) :=
    match a with PBegin => [] | PStage j a => if Nat.eqb i j then [a] else [] | PStop => [WStage G.AStop] end.

  Lemma of_stage_app i (a b : list (nat * wevent V)) : of_stage i (a ++ b) = of_stage i a ++ of_stage i b.
  Proof. apply flat_map_app. Qed.
  Lemma of_stage_own i (es : list (wevent V)) : of_stage i (map (pair i) es) = es.
  Proof. induction es as [|e es IH]; [reflexivity|]. unfold of_stage in *. cbn. rewrite Nat.eqb_refl. cbn. now rewrite IH. Qed.
  Lemma of_stage_other i j (es : list (wevent V)) : i <> j -> of_stage i (map (pair j) es) = [].
  Proof. intros N. induction es as [|e es IH]; [reflexivity|]. unfold of_stage in *. cbn. now rewrite (proj2 (Nat.eqb_neq i j) N). Qed.
  Lemma in_of_stage i e (tr : list (nat * wevent V)) : In e (of_stage i tr) <-> In (i, e) tr.
  Proof.
    unfold of_stage. rewrite in_flat_map. split.
    - intros ((j & e') & I & H). cbn in H. destruct (Nat.eqb_spec i j); [|destruct H]. destruct H as [<-|[]]. now subst.
    - intros I. exists (i, e). split; [exact I|]. cbn. rewrite Nat.eqb_refl. now left.
  Qed.
  Lemma wrun_app c out (a b : list (waction V)) : forall st, whole_run c out st (a ++ b) =
    match whole_run c out st a with Some (st1, t1) => match whole_run c out st1 b with Some (st2, t2) => Some (st2, t1 ++ t2) | None => None end | None => None end.
  Proof.
    induction a as [|x a IH]; intros st; cbn [app whole_run]; [destruct (whole_run c out st b) as [[]|]; reflexivity|].
    destruct (whole_step c out st x) as [[st1 es]|]; [|reflexivity]. rewrite IH. destruct (whole_run c out st1 a) as [[st2 t2]|]; [|reflexivity].
    destruct (whole_run c out st2 b) as [[st3 t3]|]; [|reflexivity]. now rewrite app_assoc.
  Qed.

  (** The stages that have begun are stages; they are stopped if finch is; but for the last they have returned. *)
  Record pinv (st : pst V) (tr : list (nat * wevent V)) : Prop := {
    p_len : (length (p_sts st) <= length stages)%nat;
    p_flag : forall i w, nth_error (p_sts st) i = Some w -> G.s_stopped (w_stage w) = p_stop st;
    p_ret : forall i w, nth_error (p_sts st) i = Some w -> (S i < length (p_sts st))%nat -> returned w;
    p_proj : forall i c out w, nth_error stages i = Some (c, out) -> nth_error (p_sts st) i = Some w ->
      exists acts, whole_run c out (whole_init out) acts = Some (w, of_stage i tr);
    p_begun : forall i e, In (i, e) tr -> (i < length (p_sts st))%nat }.

  Lemma ended_stays c out (w : wst V) a w' es : whole_step c out w a = Some (w', es) -> returned w -> returned w'.
  Proof.
    unfold returned. intros H E. destruct a as [a|e g|x inp]; cbn in H.
    - destruct (match a with G.AFinish c => _ | G.AElapse => _ | _ => true end); [|discriminate].
      destruct (G.step (sizes out) (w_stage w) a) as [[s es0]|] eqn:S; [|discriminate]. injection H as <- <-. cbn.
      destruct a; cbn in S.
      + unfold G.stage_step in S. rewrite E in S. discriminate.
      + destruct (existsb _ _); [|discriminate]. injection S as <- _. exact E.
      + destruct (_ && _)%bool; [|discriminate]. injection S as <- _. exact E.
      + destruct (G.s_elapsed _); [discriminate|]. injection S as <- _. exact E.
      + destruct (G.s_stopped _); [discriminate|]. injection S as <- _. exact E.
    - destruct (_ && _)%bool; [|discriminate]. injection H as <- <-. exact E.
    - destruct (_ && _)%bool; [|discriminate]. destruct (loop_step _ _ _) as [[l es0]|]; [|discriminate]. injection H as <- <-. exact E.
  Qed.
  Lemma stopped_same c out (w : wst V) a w' es : whole_step c out w a = Some (w', es) -> a <> WStage G.AStop -> G.s_stopped (w_stage w') = G.s_stopped (w_stage w).
  Proof.
    intros H N. destruct a as [a|e g|x inp]; cbn in H.
    - destruct (match a with G.AFinish c => _ | G.AElapse => _ | _ => true end); [|discriminate].
      destruct (G.step (sizes out) (w_stage w) a) as [[s es0]|] eqn:S; [|discriminate]. injection H as <- <-. cbn.
      destruct a; cbn in S; [| | | |congruence].
      + unfold G.stage_step in S. destruct (G.s_pc (w_stage w)) as [g|g [|c0 todo]|g [|n]|g n ms|];
        repeat match goal with H : match ?x with _ => _ end = Some _ |- _ => destruct x eqn:?; try discriminate H end; inversion S; subst; cbn; congruence.
      + destruct (existsb _ _); [|discriminate]. injection S as <- _. reflexivity.
      + destruct (_ && _)%bool; [|discriminate]. injection S as <- _. reflexivity.
      + destruct (G.s_elapsed _); [discriminate|]. injection S as <- _. reflexivity.
    - destruct (_ && _)%bool; [|discriminate]. injection H as <- <-. reflexivity.
    - destruct (_ && _)%bool; [|discriminate]. destruct (loop_step _ _ _) as [[l es0]|]; [|discriminate]. injection H as <- <-. reflexivity.
  Qed.
  Lemma stop_one_eq c out (w : wst V) : G.s_stopped (w_stage w) = false ->
    whole_step c out w (WStage G.AStop) = Some (stop_one ((c, out), w), []) /\ G.s_stopped (w_stage (stop_one ((c, out), w))) = true.
  Proof. intros S. unfold stop_one. cbn [fst snd whole_step G.step]. rewrite S. cbn. split; reflexivity. Qed.

  Lemma prog_cases st a st' es : prog_step st a = Some (st', es) ->
    (a = PBegin /\ es = [] /\ p_stop st = false /\ (forall w, nth_error (p_sts st) (pred (length (p_sts st))) = Some w -> returned w) /\ p_stop st' = false /\
       exists c out, nth_error stages (length (p_sts st)) = Some (c, out) /\ p_sts st' = p_sts st ++ [whole_init out]) \/
    (exists i a' c out w w' es', a = PStage i a' /\ a' <> WStage G.AStop /\ nth_error stages i = Some (c, out) /\ nth_error (p_sts st) i = Some w /\
       whole_step c out w a' = Some (w', es') /\ set_nth (p_sts st) i w' = Some (p_sts st') /\ p_stop st' = p_stop st /\ es = map (pair i) es') \/
    (a = PStop /\ es = [] /\ p_stop st = false /\ p_stop st' = true /\ p_sts st' = map stop_one (List.combine stages (p_sts st))).
  Proof.
    intros H. destruct a as [|i a|].
    - left. cbn in H. destruct (may_begin st) eqn:M; [|discriminate]. destruct (nth_error stages _) as [[c out]|] eqn:N; [|discriminate]. injection H as <- <-.
      unfold may_begin in M. apply andb_prop in M as (M1 & M2). apply negb_true_iff in M1. do 3 (split; [auto|]). split.
      + intros w W. unfold returned. destruct (rev (p_sts st)) as [|w0 l] eqn:RV.
        * apply (f_equal (@rev _)) in RV. rewrite rev_involutive in RV. cbn in RV. rewrite RV in W. discriminate.
        * apply (f_equal (@rev _)) in RV. rewrite rev_involutive in RV. cbn in RV. rewrite RV in W. rewrite app_length, nth_error_app2 in W by (cbn; lia). cbn in W.
          replace (pred (length (rev l) + 1) - length (rev l))%nat with 0%nat in W by lia. injection W as <-. unfold stage_over in M2. destruct (G.s_pc (w_stage w0)); congruence.
      + cbn. split; [exact M1|]. eauto.
    - right. left. assert (NA : a <> WStage G.AStop) by (intros ->; discriminate).
      assert (H' : match nth_error stages i, nth_error (p_sts st) i with
        | Some (c, out), Some w => match whole_step c out w a with
          | Some (w', es) => match set_nth (p_sts st) i w' with Some l => Some (PSt l (p_stop st), map (pair i) es) | None => None end | None => None end
        | _, _ => None end = Some (st', es)) by (destruct a as [[]|? ?|? ?]; try exact H; congruence).
      clear H. destruct (nth_error stages i) as [[c out]|] eqn:N1; [|discriminate]. destruct (nth_error (p_sts st) i) as [w|] eqn:N2; [|discriminate].
      destruct (whole_step c out w a) as [[w' es']|] eqn:S; [|discriminate]. destruct (set_nth (p_sts st) i w') as [l|] eqn:SN; [|discriminate]. injection H' as <- <-.
      exists i, a, c, out, w, w', es'. auto 10.
    - right. right. cbn in H. destruct (p_stop st) eqn:P; [discriminate|]. injection H as <- <-. auto.
  Qed.
  Lemma combine_at {A B} : forall (a : list A) (b : list B) m, (length b <= length a)%nat -> nth_error (List.combine a b) m =
    match nth_error a m, nth_error b m with Some x, Some y => Some (x, y) | _, _ => None end.
  Proof. induction a as [|x a IH]; intros [|y b] [|m] L; cbn in *; try reflexivity; try lia; [destruct (nth_error a m); reflexivity|apply IH; lia]. Qed.
  Lemma set_length {A} : forall (l : list A) i x l', set_nth l i x = Some l' -> length l' = length l.
  Proof. induction l as [|y l IH]; intros [|i] x l' H; cbn in H; try discriminate; [injection H as <-; reflexivity|]. destruct (set_nth l i x) eqn:E; [|discriminate]. injection H as <-. cbn. f_equal. eauto. Qed.

  (** Stage [i] in a step. *)
  Lemma one_stage st tr a st' es i c out w : pinv st tr -> prog_step st a = Some (st', es) -> nth_error stages i = Some (c, out) -> nth_error (p_sts st) i = Some w ->
    exists w', nth_error (p_sts st') i = Some w' /\ whole_run c out w (acts_in i a) = Some (w', of_stage i es).
  Proof.
    intros I H NS NW. apply prog_cases in H as [(-> & -> & _ & _ & _ & c1 & o1 & _ & E)|[(j & a' & c1 & o1 & w1 & w2 & es' & -> & NA & N1 & N2 & S & SN & _ & ->)|(-> & -> & P & _ & E)]].
    - exists w. split; [rewrite E, nth_error_app1; [exact NW|apply nth_error_Some; congruence]|reflexivity].
    - cbn [acts_in]. destruct (Nat.eqb_spec i j) as [->|N].
      + rewrite NS in N1. injection N1 as <- <-. rewrite NW in N2. injection N2 as <-. exists w2. split; [apply (LimitProofs.set_nth_same _ _ _ _ SN)|].
        cbn [whole_run]. rewrite S, of_stage_own, app_nil_r. reflexivity.
      + exists w. split; [rewrite (LimitProofs.set_nth_diff _ _ _ _ _ SN); [exact NW|exact N]|]. cbn. now rewrite of_stage_other.
    - cbn [acts_in whole_run]. pose proof (p_flag _ _ I _ _ NW) as F. rewrite P in F. destruct (stop_one_eq c out w F) as (S & _). rewrite S. cbn [of_stage flat_map app].
      eexists. split; [|reflexivity]. rewrite E, nth_error_map, combine_at by exact (p_len _ _ I). now rewrite NS, NW.
  Qed.
  Lemma pinv_init : pinv prog_init [].
  Proof. split; cbn; try (intros; lia); try (intros [|i] w; discriminate); try (intros [|i] c out w _; discriminate); try (intros i e []). Qed.
  Lemma len_step st tr a st' es : pinv st tr -> prog_step st a = Some (st', es) ->
    length (p_sts st') = (length (p_sts st) + match a with PBegin => 1 | _ => 0 end)%nat /\ (length (p_sts st') <= length stages)%nat.
  Proof.
    intros I H. pose proof (p_len _ _ I) as L. apply prog_cases in H as [(-> & -> & _ & _ & _ & c1 & o1 & N & E)|[(j & a' & c1 & o1 & w1 & w2 & es' & -> & NA & N1 & N2 & S & SN & _ & ->)|(-> & -> & P & _ & E)]].
    - rewrite E, app_length. cbn. assert (length (p_sts st) < length stages)%nat by (apply nth_error_Some; congruence). lia.
    - rewrite (set_length _ _ _ _ SN). lia.
    - rewrite E, map_length, combine_length. lia.
  Qed.
  Lemma pinv_step st tr a st' es : pinv st tr -> prog_step st a = Some (st', es) -> pinv st' (tr ++ es).
  Proof.
    intros I H. destruct (len_step _ _ _ _ _ I H) as (L1 & L2). pose proof (prog_cases _ _ _ _ H) as CS.
    assert (OLD : forall i w', nth_error (p_sts st') i = Some w' -> (exists c out w, nth_error stages i = Some (c, out) /\ nth_error (p_sts st) i = Some w /\ whole_run c out w (acts_in i a) = Some (w', of_stage i es)) \/
      (a = PBegin /\ i = length (p_sts st) /\ exists c out, nth_error stages i = Some (c, out) /\ w' = whole_init out)).
    { intros i w' W. destruct (nth_error (p_sts st) i) as [w|] eqn:N.
      - left. assert (LI : (i < length stages)%nat) by (pose proof (p_len _ _ I); assert (i < length (p_sts st))%nat by (apply nth_error_Some; congruence); lia).
        destruct (nth_error stages i) as [[c out]|] eqn:NS; [|apply nth_error_None in NS; lia]. destruct (one_stage _ _ _ _ _ _ _ _ _ I H NS N) as (w2 & W2 & R). rewrite W in W2. injection W2 as <-. eauto 6.
      - right. apply nth_error_None in N. assert (i < length (p_sts st'))%nat by (apply nth_error_Some; congruence).
        destruct CS as [(-> & _ & _ & _ & _ & c1 & o1 & NS & E)|[(j & a' & ? & ? & ? & ? & ? & -> & _)|(-> & _)]]; [|lia|lia].
        assert (i = length (p_sts st)) as -> by lia. split; [reflexivity|]. split; [reflexivity|]. exists c1, o1. split; [exact NS|].
        rewrite E, nth_error_app2, Nat.sub_diag in W by lia. cbn in W. congruence. }
    split.
    - exact L2.
    - intros i w' W. destruct (OLD i w' W) as [(c & out & w & NS & NW & R)|(-> & -> & c & out & NS & ->)].
      + pose proof (p_flag _ _ I _ _ NW) as F. destruct CS as [(-> & _ & P & _ & P' & _)|[(j & a' & ? & ? & ? & ? & ? & -> & NA & _ & _ & _ & _ & P' & _)|(-> & _ & P & P' & _)]].
        * cbn in R. injection R as <- _. congruence.
        * cbn [acts_in] in R. rewrite P', <- F. destruct (Nat.eqb i j); [|cbn in R; injection R as <- _; reflexivity].
          cbn in R. destruct (whole_step c out w a') as [[w2 es2]|] eqn:S; [|discriminate]. injection R as <- _. eapply stopped_same; eauto.
        * cbn [acts_in] in R. rewrite P in F. destruct (stop_one_eq c out w F) as (S & T). cbn [whole_run] in R. rewrite S in R. injection R as <- _. congruence.
      + destruct CS as [(_ & _ & _ & _ & P' & _)|[(? & ? & ? & ? & ? & ? & ? & Q & _)|(Q & _)]]; [|discriminate|discriminate]. cbn. congruence.
    - intros i w' W LI. destruct (OLD i w' W) as [(c & out & w & NS & NW & R)|(-> & -> & _)]; [|lia].
      assert (RW : returned w).
      { destruct CS as [(-> & _ & _ & RT & _)|[(? & ? & ? & ? & ? & ? & ? & -> & _)|(-> & _)]]; [|apply (p_ret _ _ I _ _ NW); lia|apply (p_ret _ _ I _ _ NW); lia].
        destruct (Nat.eq_dec (S i) (length (p_sts st))) as [Q|Q]; [apply RT; rewrite <- Q; exact NW|apply (p_ret _ _ I _ _ NW); lia]. }
      clear - R RW. revert w R RW. generalize (of_stage i es). induction (acts_in i a) as [|x l IH]; intros tr w R RW; cbn in R; [injection R as <- _; exact RW|].
      destruct (whole_step c out w x) as [[w1 e1]|] eqn:S; [|discriminate]. destruct (whole_run c out w1 l) as [[w2 e2]|] eqn:S2; [|discriminate]. injection R as <- _.
      eapply IH; [exact S2|]. eapply ended_stays; eauto.
    - intros i c out w' NS W. rewrite of_stage_app. destruct (OLD i w' W) as [(c2 & out2 & w & NS2 & NW & R)|(-> & -> & c2 & out2 & NS2 & ->)].
      + rewrite NS in NS2. injection NS2 as <- <-. destruct (p_proj _ _ I _ _ _ _ NS NW) as (acts & A). exists (acts ++ acts_in i a). rewrite wrun_app, A, R. reflexivity.
      + rewrite NS in NS2. injection NS2 as <- <-. exists []. cbn.
        assert (Z : of_stage (length (p_sts st)) tr = []).
        { destruct (of_stage (length (p_sts st)) tr) as [|e l] eqn:Q; [reflexivity|]. exfalso. assert (IE : In e (of_stage (length (p_sts st)) tr)) by (rewrite Q; now left).
          apply in_of_stage in IE. apply (p_begun _ _ I) in IE. lia. }
        rewrite Z. destruct CS as [(_ & -> & _)|[(? & ? & ? & ? & ? & ? & ? & Q & _)|(Q & _)]]; [reflexivity|discriminate|discriminate].
    - intros i e IE. apply in_app_or in IE as [IE|IE]; [apply (p_begun _ _ I) in IE; lia|].
      destruct CS as [(-> & -> & _)|[(j & a' & c1 & o1 & w1 & w2 & es' & -> & _ & _ & N2 & _ & _ & _ & ->)|(-> & -> & _)]]; [destruct IE| |destruct IE].
      apply in_map_iff in IE as (y & Y & _). injection Y as -> _. assert (i < length (p_sts st))%nat by (apply nth_error_Some; congruence). lia.
  Qed.
  Lemma pinv_more acts : forall st tr0 st' tr, pinv st tr0 -> prog_run st acts = Some (st', tr) -> pinv st' (tr0 ++ tr).
  Proof.
    induction acts as [|a acts IH]; intros st tr0 st' tr I H; cbn [ProgModel.prog_run] in H; [injection H as <- <-; now rewrite app_nil_r|].
    destruct (prog_step st a) as [[st1 es]|] eqn:E; [|discriminate]. destruct (prog_run st1 acts) as [[st2 tr2]|] eqn:E2; [|discriminate]. injection H as <- <-.
    rewrite app_assoc. eapply IH; [|exact E2]. eapply pinv_step; eauto.
  Qed.
  Lemma pinv_run acts st tr : prog_run prog_init acts = Some (st, tr) -> pinv st tr.
  Proof. intros H. exact (pinv_more acts _ [] _ _ pinv_init H). Qed.

  (** What happens in stage [i] while the program goes on. *)
  Lemma stage_goes acts : forall st tr0 st' tr i c out w, pinv st tr0 -> prog_run st acts = Some (st', tr) -> nth_error stages i = Some (c, out) -> nth_error (p_sts st) i = Some w ->
    exists w', nth_error (p_sts st') i = Some w' /\ whole_run c out w (flat_map (acts_in i) acts) = Some (w', of_stage i tr).
  Proof.
    induction acts as [|a acts IH]; intros st tr0 st' tr i c out w I H NS NW; cbn [ProgModel.prog_run] in H; [injection H as <- <-; exists w; split; [exact NW|reflexivity]|].
    destruct (prog_step st a) as [[st1 es]|] eqn:E; [|discriminate]. destruct (prog_run st1 acts) as [[st2 tr2]|] eqn:E2; [|discriminate]. injection H as <- <-.
    destruct (one_stage _ _ _ _ _ _ _ _ _ I E NS NW) as (w1 & W1 & R1). destruct (IH _ _ _ _ _ _ _ _ (pinv_step _ _ _ _ _ I E) E2 NS W1) as (w2 & W2 & R2).
    exists w2. split; [exact W2|]. cbn [flat_map]. rewrite wrun_app, R1, R2, of_stage_app. reflexivity.
  Qed.

  (** A stage without running clients. *)
  Lemma no_clients c out acts : forall (w w' : wst V) tr, whole_run c out w acts = Some (w', tr) -> returned w -> G.s_run (w_stage w) = [] ->
    ((forall y e, ~ In (WC y e) tr) /\ forall y inp, ~ In (WClient y inp) acts) /\ G.s_run (w_stage w') = [].
  Proof.
    induction acts as [|a acts IH]; intros w w' tr H E NR; cbn [whole_run] in H; [injection H as <- <-; split; [split; intros ? ? []|exact NR]|].
    destruct (whole_step c out w a) as [[w1 es]|] eqn:S; [|discriminate]. destruct (whole_run c out w1 acts) as [[w2 tr2]|] eqn:S2; [|discriminate]. injection H as <- <-.
    assert (X : G.s_run (w_stage w1) = [] /\ (forall y e, ~ In (WC y e) es) /\ forall y inp, a <> WClient y inp).
    { destruct a as [a|e g|x inp]; cbn in S.
      - destruct (match a with G.AFinish c => _ | G.AElapse => _ | _ => true end); [|discriminate].
        destruct (G.step (sizes out) (w_stage w) a) as [[s es0]|] eqn:S3; [|discriminate]. injection S as <- <-. cbn. split; [|split; [intros y e I; apply in_map_iff in I as (? & Q & _); discriminate|discriminate]].
        unfold returned in E. destruct a; cbn in S3.
        + unfold G.stage_step in S3. rewrite E in S3. discriminate.
        + rewrite NR in S3. discriminate.
        + destruct (_ && _)%bool; [|discriminate]. injection S3 as <- _. exact NR.
        + destruct (G.s_elapsed _); [discriminate|]. injection S3 as <- _. exact NR.
        + destruct (G.s_stopped _); [discriminate|]. injection S3 as <- _. exact NR.
      - destruct (_ && _)%bool; [|discriminate]. injection S as <- <-. split; [exact NR|]. split; [intros y e0 []|discriminate].
      - rewrite NR in S. cbn in S. discriminate. }
    destruct X as (X1 & X2 & X3). destruct (IH _ _ _ S2 (ended_stays _ _ _ _ _ _ S E) X1) as ((Y1 & Y2) & Y3). split; [|exact Y3]. split.
    - intros y e I. apply in_app_or in I as [I|I]; [exact (X2 _ _ I)|exact (Y1 _ _ I)].
    - intros y inp [I|I]; [exact (X3 _ _ I)|exact (Y2 _ _ I)].
  Qed.
  Lemma none_running (out : list (list (list client))) (w : wst V) tr : winv out w tr -> returned w -> undisturbed w -> G.s_run (w_stage w) = [].
  Proof.
    intros I RT (U1 & U2). destruct (G.s_run (w_stage w)) as [|x l] eqn:Q; [reflexivity|]. exfalso. pose proof (w_cur _ _ _ I U1 U2 x) as X. rewrite Q in X. specialize (X (or_introl eq_refl)).
    unfold returned in RT. rewrite RT in X. exact X.
  Qed.

  (** The action of an event. *)
  Lemma run_split acts : forall st st' t1 (e : nat * wevent V) t2, prog_run st acts = Some (st', t1 ++ e :: t2) ->
    exists a1 a a2 sta ta stb es1 es2 tb, acts = a1 ++ a :: a2 /\ prog_run st a1 = Some (sta, ta) /\ prog_step sta a = Some (stb, es1 ++ e :: es2) /\ prog_run stb a2 = Some (st', tb) /\
      t1 = ta ++ es1 /\ t2 = es2 ++ tb.
  Proof.
    induction acts as [|a acts IH]; intros st st' t1 e t2 H; cbn [ProgModel.prog_run] in H; [injection H as _ H; destruct t1; discriminate|].
    destruct (prog_step st a) as [[st1 es]|] eqn:E; [|discriminate]. destruct (prog_run st1 acts) as [[st2 tr2]|] eqn:E2; [|discriminate]. injection H as <- H.
    assert (X : (exists es2, es = t1 ++ e :: es2 /\ t2 = es2 ++ tr2) \/ exists t1', t1 = es ++ t1' /\ tr2 = t1' ++ e :: t2).
    { clear - H. revert es H. induction t1 as [|x t1 IH]; intros [|y es] H; cbn in H.
      - right. exists []. auto.
      - left. injection H as -> <-. exists es. auto.
      - right. exists (x :: t1). auto.
      - injection H as -> H. destruct (IH _ H) as [(es2 & -> & ->)|(t1' & -> & ->)]; [left; exists es2|right; exists t1']; split; reflexivity. }
    destruct X as [(es2 & -> & ->)|(t1' & -> & ->)].
    - exists [], a, acts, st, [], st1, t1, es2, tr2. auto 8.
    - destruct (IH _ _ _ _ _ E2) as (a1 & b & a2 & sta & ta & stb & es1 & es2 & tb & -> & R1 & S1 & R2 & -> & ->).
      exists (a :: a1), b, a2, sta, (es ++ ta), stb, es1, es2, tb. split; [reflexivity|]. split; [cbn [ProgModel.prog_run]; now rewrite E, R1|]. rewrite app_assoc. auto.
  Qed.
  Lemma prog_run_app a b : forall st, prog_run st (a ++ b) =
    match prog_run st a with Some (st1, t1) => match prog_run st1 b with Some (st2, t2) => Some (st2, t1 ++ t2) | None => None end | None => None end.
  Proof.
    induction a as [|x a IH]; intros st; cbn [app ProgModel.prog_run]; [destruct (prog_run st b) as [[]|]; reflexivity|].
    destruct (prog_step st x) as [[st1 es]|]; [|reflexivity]. rewrite IH. destruct (prog_run st1 a) as [[st2 t2]|]; [|reflexivity].
    destruct (prog_run st2 b) as [[st3 t3]|]; [|reflexivity]. now rewrite app_assoc.
  Qed.

  (** The clients of a stage without a runtime are done when a later stage has begun. *)
  Definition dinv (st : pst V) (tr : list (nat * wevent V)) : Prop :=
    forall i c out w, nth_error stages i = Some (c, out) -> nth_error (p_sts st) i = Some w -> (S i < length (p_sts st))%nat -> C.s_runtime c = EmptyString ->
      (forall y, valid out y -> exists s, In (i, WC y (EvDone s (reported s))) tr) /\ G.s_run (w_stage w) = [].
  Lemma dinv_step st tr a st' es : pinv st tr -> dinv st tr -> prog_step st a = Some (st', es) -> dinv st' (tr ++ es).
  Proof.
    intros I D H i c out w' NS W' L RT. destruct (len_step _ _ _ _ _ I H) as (L1 & _).
    destruct (nth_error (p_sts st) i) as [w|] eqn:NW; [|apply nth_error_None in NW; destruct a; lia].
    destruct (one_stage _ _ _ _ _ _ _ _ _ I H NS NW) as (w2 & W2 & R). rewrite W' in W2. injection W2 as <-.
    assert (X : returned w /\ (forall y, valid out y -> exists s, In (i, WC y (EvDone s (reported s))) tr) /\ G.s_run (w_stage w) = []).
    { destruct (Nat.lt_ge_cases (S i) (length (p_sts st))) as [LT|GE]; [split; [exact (p_ret _ _ I _ _ NW LT)|exact (D _ _ _ _ NS NW LT RT)]|].
      pose proof (prog_cases _ _ _ _ H) as [(-> & -> & P & RET & _)|[(? & ? & ? & ? & ? & ? & ? & -> & _)|(-> & _)]]; [|lia|lia].
      assert (Q : i = pred (length (p_sts st))) by lia. assert (RW : returned w) by (apply RET; rewrite <- Q; exact NW). split; [exact RW|].
      destruct (p_proj _ _ I _ _ _ _ NS NW) as (wacts & WR). pose proof (winv_run _ _ _ _ _ WR) as WI.
      assert (U : undisturbed w).
      { split; [|rewrite (p_flag _ _ I _ _ NW); exact P]. destruct (G.s_elapsed (w_stage w)) eqn:E; [|reflexivity]. destruct (x_elapsed _ _ _ _ (cinv_run _ _ _ _ _ WR) E RT). }
      split; [|exact (none_running _ _ _ WI RW U)]. intros y VY. destruct (all_done _ _ _ WI RW U y VY) as (s & IN). exists s. now apply in_of_stage. }
    destruct X as (RW & A & B). destruct (no_clients _ _ _ _ _ _ R RW B) as (_ & N). split; [|exact N]. intros y VY. destruct (A y VY) as (s & IN). exists s. apply in_or_app. now left.
  Qed.
  Lemma dinv_more acts : forall st tr0 st' tr, pinv st tr0 -> dinv st tr0 -> prog_run st acts = Some (st', tr) -> dinv st' (tr0 ++ tr).
  Proof.
    induction acts as [|a acts IH]; intros st tr0 st' tr I D H; cbn [ProgModel.prog_run] in H; [injection H as <- <-; now rewrite app_nil_r|].
    destruct (prog_step st a) as [[st1 es]|] eqn:E; [|discriminate]. destruct (prog_run st1 acts) as [[st2 tr2]|] eqn:E2; [|discriminate]. injection H as <- <-.
    rewrite app_assoc. eapply IH; [eapply pinv_step; eauto|eapply dinv_step; eauto|exact E2].
  Qed.
  Lemma dinv_run acts st tr : prog_run prog_init acts = Some (st, tr) -> dinv st tr.
  Proof. intros H. refine (dinv_more acts _ [] _ _ pinv_init _ H). intros [|i] c out w _ N; discriminate. Qed.
End Prog.
