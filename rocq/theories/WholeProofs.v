(** A stage with its clients: proofs. *)
From Verif Require Import Prelude ListAux ScopeModel StmtModel WorkloadModel ClientModel ClientSpec IterModel IterSpec LoopModel LoopSpec LoopProofs LoopCountProofs WholeModel WholeSpec.
From Verif Require StageModel StageProps WorkloadProps ClientProofs ClientConnProofs LimitProofs.
Module SP := StageProps.

(** ** Numbers of clients *)
Section Index.
  Context {A : Type}.
  Implicit Types ls : list (list A).
  Definition offset (ns : list nat) (t : nat) : nat := list_sum (firstn t ns).

  Lemma offset_S : forall ns t n, nth_error ns t = Some n -> offset ns (S t) = (offset ns t + n)%nat.
  Proof.
    unfold offset. induction ns as [|m ns IH]; intros [|t] n H; try discriminate.
    - injection H as ->. cbn. lia.
    - cbn in H. specialize (IH t n H). rewrite (firstn_cons (S t)), (firstn_cons t). unfold list_sum in *. cbn [fold_right]. lia.
  Qed.
  Lemma offset_mono ns t t' : (t <= t')%nat -> (offset ns t <= offset ns t')%nat.
  Proof.
    induction 1 as [|t' H IH]; [lia|]. destruct (nth_error ns t') as [n|] eqn:E.
    - rewrite (offset_S _ _ _ E). lia.
    - apply nth_error_None in E. unfold offset in *. rewrite (firstn_all2 (n := S t')) by lia. rewrite (firstn_all2 (n := t')) in IH by lia. exact IH.
  Qed.
  Lemma offset_unique ns t i n t' i' n' : nth_error ns t = Some n -> (i < n)%nat -> nth_error ns t' = Some n' -> (i' < n')%nat ->
    (offset ns t + i = offset ns t' + i')%nat -> t = t' /\ i = i'.
  Proof.
    intros H L H' L' E. destruct (Nat.lt_trichotomy t t') as [X|[->|X]]; [|split; lia|].
    - pose proof (offset_mono ns (S t) t' X). rewrite (offset_S _ _ _ H) in H0. lia.
    - pose proof (offset_mono ns (S t') t X). rewrite (offset_S _ _ _ H') in H0. lia.
  Qed.
  Lemma concat_at ls : forall j x, nth_error (concat ls) j = Some x -> exists t i l, nth_error ls t = Some l /\ nth_error l i = Some x /\
    j = (offset (map (@length A) ls) t + i)%nat.
  Proof.
    induction ls as [|l0 ls IH]; intros j x H; [destruct j; discriminate|]. cbn [concat] in H.
    destruct (Nat.lt_ge_cases j (length l0)) as [L|L].
    - rewrite nth_error_app1 in H by exact L. exists 0%nat, j, l0. auto.
    - rewrite nth_error_app2 in H by exact L. destruct (IH _ _ H) as (t & i & l & T & I & E). exists (S t), i, l. split; [exact T|]. split; [exact I|].
      unfold offset in *. cbn. unfold list_sum in E. lia.
  Qed.
End Index.

Section Stage.
  Context {V : Type}.
  Variable cfg : C.stage.
  Variable out : list (list (list client)).
  Notation sizes := (sizes out).
  Notation idx := (idx out).

  (** A client of the stage. *)
  Definition valid (c : G.client) : Prop := (snd c < nth (fst c) sizes 0)%nat.
  Lemma valid_size c : valid c -> exists n, nth_error sizes (fst c) = Some n /\ (snd c < n)%nat.
  Proof.
    unfold valid. intros H. destruct (nth_error sizes (fst c)) as [n|] eqn:E.
    - exists n. split; [reflexivity|]. now rewrite (nth_error_nth _ _ 0%nat E) in H.
    - apply nth_error_None in E. rewrite nth_overflow in H by exact E. lia.
  Qed.
  Lemma idx_inj c c' : valid c -> valid c' -> idx c = idx c' -> c = c'.
  Proof.
    intros (n & H & L)%valid_size (n' & H' & L')%valid_size E. destruct c as [e i], c' as [e' i'].
    destruct (offset_unique _ _ _ _ _ _ _ H L H' L' E) as (X & Y). cbn in X, Y. congruence.
  Qed.
  Definition block (e : nat) (css : list (list client)) : list (nat * nat * client) :=
    concat (mapi_from (fun g cs => map (fun c => (e, g, c)) cs) 0 css).
  Lemma block_length e css : length (block e css) = length (concat css).
  Proof.
    unfold block. generalize 0%nat. induction css as [|cs css IH]; intros n; [reflexivity|]. cbn. now rewrite !app_length, map_length, IH.
  Qed.
  Lemma block_sizes : map (@length _) (mapi_from block 0 out) = sizes.
  Proof.
    unfold WholeModel.sizes. generalize 0%nat. induction out as [|css o IH]; intros n; [reflexivity|]. cbn. now rewrite block_length, IH.
  Qed.
  Lemma labelled_idx c : valid c -> exists g cl, nth_error (labelled out) (idx c) = Some (fst c, g, cl).
  Proof.
    intros (n & H & L)%valid_size. unfold WholeModel.sizes in H. rewrite nth_error_map in H. destruct (nth_error out (fst c)) as [css|] eqn:E; [|discriminate].
    injection H as <-. assert (B : nth_error (mapi_from block 0 out) (fst c) = Some (block (fst c) css)) by now rewrite nth_error_mapi_from, E.
    assert (LB : (snd c < length (block (fst c) css))%nat) by now rewrite block_length.
    pose proof (WorkloadProps.nth_concat _ _ _ _ B LB) as X. rewrite <- firstn_map, block_sizes in X.
    unfold labelled. fold (offset sizes (fst c)) in X. unfold WholeModel.idx. fold (offset sizes (fst c)).
    change (concat (mapi_from block 0 out)) with (labelled out) in X. unfold labelled in X. rewrite X.
    destruct (nth_error (block (fst c) css) (snd c)) as [[[e g] cl]|] eqn:Y; [|apply nth_error_None in Y; lia].
    assert (I : In (e, g, cl) (block (fst c) css)) by (eapply nth_error_In; eauto).
    unfold block in I. apply in_concat_mapi in I as (i & cs & _ & I). apply in_map_iff in I as (cl' & Q & _). injection Q as <- <- <-. eauto.
  Qed.
  Lemma labelled_client j e g cl : nth_error (labelled out) j = Some (e, g, cl) -> exists i, valid (e, i) /\ idx (e, i) = j.
  Proof.
    intros H. change (labelled out) with (concat (mapi_from block 0 out)) in H.
    destruct (concat_at _ _ _ H) as (t & i & l & T & I & E). rewrite block_sizes in E.
    rewrite nth_error_mapi_from in T. destruct (nth_error out t) as [css|] eqn:O; [|discriminate]. injection T as <-. cbn [Nat.add] in I.
    assert (X : In (e, g, cl) (block t css)) by (eapply nth_error_In; eauto).
    unfold block in X. apply in_concat_mapi in X as (i' & cs & _ & X). apply in_map_iff in X as (cl' & Q & _). injection Q as -> _ _.
    exists i. split; [|symmetry; exact E]. unfold valid. cbn. unfold WholeModel.sizes.
    rewrite (nth_error_nth (map _ out) e 0%nat (x := length (concat css))); [|now rewrite nth_error_map, O].
    rewrite <- (block_length e). apply nth_error_Some. congruence.
  Qed.

  (** ** The joined run seen from Stage.Run and from the clients *)
  Notation numbered := (WholeSpec.numbered (V := V) out).
  Lemma stage_events_app (a b : list (wevent V)) : stage_events (a ++ b) = stage_events a ++ stage_events b.
  Proof. apply flat_map_app. Qed.
  Lemma numbered_app a b : numbered (a ++ b) = numbered a ++ numbered b.
  Proof. apply flat_map_app. Qed.
  Lemma done_by_app c (a b : list (wevent V)) : done_by c (a ++ b) = done_by c a ++ done_by c b.
  Proof. apply flat_map_app. Qed.
  Lemma stage_of_ws es : stage_events (V := V) (map WS es) = es.
  Proof. induction es as [|e es IH]; [reflexivity|]. cbn. now f_equal. Qed.
  Lemma stage_of_wc c (es : list (event V)) : stage_events (map (WC c) es) = [].
  Proof. induction es; auto. Qed.
  Lemma numbered_ws es : numbered (map WS es) = [].
  Proof. induction es; auto. Qed.
  Lemma numbered_wc c es : numbered (map (WC c) es) = map (fun e => (idx c, e)) es.
  Proof. induction es as [|e es IH]; [reflexivity|]. cbn. now f_equal. Qed.
  Lemma in_numbered c (e : event V) tr : In (WC c e) tr -> In (idx c, e) (numbered tr).
  Proof. intros H. unfold numbered. apply in_flat_map. exists (WC c e). split; [exact H|now left]. Qed.
  Lemma in_done_by c (e : event V) tr : In e (done_by c tr) <-> In (WC c e) tr.
  Proof.
    unfold done_by. rewrite in_flat_map. split.
    - intros ([x|c' x] & H & I); [destruct I|]. destruct (G.client_eqb c c') eqn:E; [|destruct I]. apply SP.client_eqb_eq in E. subst c'. destruct I as [->|[]]. exact H.
    - intros H. exists (WC c e). split; [exact H|]. assert (E : G.client_eqb c c = true) by now apply SP.client_eqb_eq. rewrite E. now left.
  Qed.

  Lemma loop_snoc sched : forall (st : lst V) st1 tr1 i inp st2 evs, loop_run st sched = Some (st1, tr1) -> loop_step st1 i inp = Some (st2, evs) ->
    loop_run st (sched ++ [(i, inp)]) = Some (st2, tr1 ++ map (fun e => (i, e)) evs).
  Proof.
    induction sched as [|[j x] sched IH]; intros st st1 tr1 i inp st2 evs H S; cbn in H |- *.
    - injection H as -> <-. rewrite S. cbn. now rewrite app_nil_r.
    - destruct (loop_step st j x) as [[sa ea]|]; [|discriminate]. destruct (loop_run sa sched) as [[sb eb]|] eqn:E; [|discriminate]. injection H as -> <-.
      rewrite (IH _ _ _ _ _ _ _ E S). now rewrite app_assoc.
  Qed.

  Definition pc_of (st : wst V) (c : G.client) : option cpc := option_map l_pc (nth_error (l_cls (w_loop st)) (idx c)).

  (** The clients that are running or have not been counted are those of one exec group. *)
  Definition current (s : G.state) : Prop := G.s_elapsed s = false -> G.s_stopped s = false ->
    forall c, In c (G.s_run s) -> match G.s_pc s with G.Start g _ | G.Wait g _ => fst c = g | _ => False end.

  Record winv (st : wst V) (tr : list (wevent V)) : Prop := {
    w_reach : SP.reach sizes (w_stage st) (stage_events tr);
    w_sched : exists sched, loop_run (loop_init (map snd (labelled out))) sched = Some (w_loop st, numbered tr);
    w_started : forall c e, In (WC c e) tr -> In (G.EStart c) (stage_events tr);
    w_fin : forall c, In (G.EFinish c) (stage_events tr) -> pc_of st c = Some PcDone;
    w_cur : current (w_stage st);
    w_order : undisturbed st -> forall t1 c e t2, tr = t1 ++ WC c e :: t2 ->
      (forall c' e', In (WC c' e') t1 -> (fst c' <= fst c)%nat) /\
      (forall e' i', (e' < fst c)%nat -> valid (e', i') -> exists s r, In (WC (e', i') (EvDone s r)) t1) }.

  Lemma start_valid s tr c : SP.reach sizes s tr -> In (G.EStart c) tr -> valid c.
  Proof.
    intros R H. apply SP.reach_inv in R as [I1 _ _ _]. apply SP.in_starts in H. unfold SP.started in I1. unfold valid.
    assert (U : forall g, In c (SP.upto sizes g) -> (snd c < nth (fst c) sizes 0)%nat) by (intros g X; apply SP.in_upto in X; unfold SP.size in X; tauto).
    destruct (G.s_pc s).
    - destruct I1 as (_ & I1). rewrite I1 in H. eauto.
    - destruct I1 as (_ & pre & E & I1). rewrite I1 in H. apply in_app_or in H as [H|H]; [eauto|].
      apply (U (S g)). cbn. apply in_or_app. right. rewrite E. apply in_or_app. now left.
    - destruct I1 as (_ & I1). rewrite I1 in H. eauto.
    - destruct I1 as (_ & I1). rewrite I1 in H. eauto.
    - destruct I1 as (g & _ & I1 & _). rewrite I1 in H. eauto.
  Qed.

  Lemma cur_step s tr a s' es : SP.reach sizes s tr -> current s -> G.step sizes s a = Some (s', es) -> current s'.
  Proof.
    intros R I H. apply SP.reach_inv in R as [I1 _ _ I4].
    destruct a; cbn in H.
    - unfold G.stage_step in H. unfold current, SP.started in *. destruct (G.s_pc s) as [g|g [|c todo]|g [|n]|g n ms|] eqn:Ep; try discriminate H.
      + destruct (nth_error sizes g); [destruct (G.s_stopped s) eqn:Es|]; injection H as <- <-; cbn; intros He Hs c Hc; first [congruence|destruct (I He eq_refl c Hc)|destruct (I He Hs c Hc)].
      + destruct (nth_error sizes g); [|discriminate]. injection H as <- <-. cbn. exact I.
      + injection H as <- <-. cbn. intros He Hs x Hx. apply in_app_or in Hx as [Hx|[<-|[]]]; [now apply I|].
        destruct I1 as (_ & pre & E & _). assert (Hc : In c (G.clients g (SP.size sizes g))) by (rewrite E; apply in_or_app; right; now left).
        unfold G.clients in Hc. apply in_map_iff in Hc as (i & <- & _). reflexivity.
      + injection H as <- <-. cbn. intros He Hs c Hc. specialize (I4 He Hs). unfold SP.live in I4. destruct (G.s_run s); [destruct Hc|]. cbn in I4. lia.
      + destruct ctx.
        * destruct (G.s_elapsed s || G.s_stopped s)%bool eqn:Eb; [|discriminate]. injection H as <- <-. cbn. intros He Hs. rewrite He, Hs in Eb. discriminate.
        * destruct (G.s_chan s); [discriminate|]. injection H as <- <-. cbn. exact I.
      + destruct n; [|destruct ms; [|destruct (G.s_chan s)]]; injection H as <- <-; cbn; intros He Hs; destruct (I4 He Hs).
    - destruct (existsb _ _); [|discriminate]. injection H as <- <-. unfold current in *. cbn. intros He Hs x Hx. apply I; auto. eapply SP.del_incl; eauto.
    - destruct (_ && _)%bool; [|discriminate]. injection H as <- <-. exact I.
    - destruct (G.s_elapsed s); [discriminate|]. injection H as <- <-. unfold current. cbn. discriminate.
    - destruct (G.s_stopped s); [discriminate|]. injection H as <- <-. unfold current. cbn. discriminate.
  Qed.
  Lemma flags_step s a s' es : G.step sizes s a = Some (s', es) ->
    (G.s_elapsed s' = false -> G.s_elapsed s = false) /\ (G.s_stopped s' = false -> G.s_stopped s = false).
  Proof.
    intros H. destruct a; cbn in H.
    - unfold G.stage_step in H. destruct (G.s_pc s) as [g|g [|c todo]|g [|n]|g n ms|]; try discriminate H.
      + destruct (nth_error sizes g); [destruct (G.s_stopped s) eqn:E|]; injection H as <- <-; cbn; split; congruence.
      + destruct (nth_error sizes g); [|discriminate]. injection H as <- <-. auto.
      + injection H as <- <-. auto.
      + injection H as <- <-. auto.
      + destruct ctx; [destruct (_ || _)%bool; [|discriminate]|destruct (G.s_chan s); [discriminate|]]; injection H as <- <-; auto.
      + destruct n; [|destruct ms; [|destruct (G.s_chan s)]]; injection H as <- <-; auto.
    - destruct (existsb _ _); [|discriminate]. injection H as <- <-. auto.
    - destruct (_ && _)%bool; [|discriminate]. injection H as <- <-. auto.
    - destruct (G.s_elapsed s); [discriminate|]. injection H as <- <-. cbn. auto.
    - destruct (G.s_stopped s); [discriminate|]. injection H as <- <-. cbn. auto.
  Qed.
  Lemma finish_from s a s' es c : G.step sizes s a = Some (s', es) -> In (G.EFinish c) es -> a = G.AFinish c.
  Proof.
    intros H I. destruct a; cbn in H.
    - unfold G.stage_step in H. destruct (G.s_pc s) as [g|g [|x todo]|g [|n]|g n ms|]; try discriminate H.
      + destruct (nth_error sizes g); [destruct (G.s_stopped s) eqn:E|]; injection H as <- <-; cbn in I; intuition discriminate.
      + destruct (nth_error sizes g); [|discriminate]. injection H as <- <-. destruct I.
      + injection H as <- <-. cbn in I. intuition discriminate.
      + injection H as <- <-. destruct I.
      + destruct ctx; [destruct (_ || _)%bool; [|discriminate]|destruct (G.s_chan s); [discriminate|]]; injection H as <- <-; cbn in I; intuition discriminate.
      + destruct n; [|destruct ms; [|destruct (G.s_chan s)]]; injection H as <- <-; cbn in I; intuition discriminate.
    - destruct (existsb _ _); [|discriminate]. injection H as <- <-. destruct I as [I|[]]. congruence.
    - destruct (_ && _)%bool; [|discriminate]. injection H as <- <-. destruct I.
    - destruct (G.s_elapsed s); [discriminate|]. injection H as <- <-. destruct I.
    - destruct (G.s_stopped s); [discriminate|]. injection H as <- <-. destruct I.
  Qed.

  (** The events of a client, by number and by name. *)
  Lemma same_events st tr c : winv st tr -> valid c -> events_of (idx c) (numbered tr) = done_by c tr.
  Proof.
    intros I VC. pose proof (w_started _ _ I) as ST. pose proof (w_reach _ _ I) as R.
    assert (VA : forall c e, In (WC c e) tr -> valid c) by (intros c' e H; eapply start_valid; eauto).
    clear - VA VC. induction tr as [|[x|c' x] tr IH]; [reflexivity| |].
    - cbn. apply IH. intros c' e H. apply (VA c' e). now right.
    - assert (IH' := IH (fun c0 e H => VA c0 e (or_intror H))). unfold WholeSpec.numbered. cbn [flat_map app]. fold (WholeSpec.numbered out tr).
      unfold events_of in *. cbn [filter fst]. cbn [done_by flat_map]. fold (done_by c tr).
      destruct (Nat.eqb_spec (idx c') (idx c)) as [E|N].
      + apply idx_inj in E; [|eapply VA; now left|exact VC]. subst c'.
        assert (E : G.client_eqb c c = true) by now apply SP.client_eqb_eq. rewrite E. cbn. now f_equal.
      + destruct (G.client_eqb c c') eqn:E; [apply SP.client_eqb_eq in E; congruence|]. exact IH'.
  Qed.
  Lemma done_event st tr c : winv st tr -> valid c -> pc_of st c = Some PcDone -> exists s, In (WC c (EvDone s (reported s))) tr.
  Proof.
    intros I VC P. destruct (w_sched _ _ I) as (sched & R). unfold pc_of in P. destruct (nth_error (l_cls (w_loop st)) (idx c)) as [k|] eqn:K; [|discriminate].
    injection P as P. destruct (loop_client _ _ _ _ _ _ R K) as (_ & (inps & CR) & _).
    pose proof (ClientConnProofs.done_run _ _ _ _ _ CR) as D. rewrite P in D. cbn in D. destruct D as (l & s & E & _).
    exists s. apply in_done_by. rewrite <- (same_events _ _ _ I VC), E. apply in_or_app. right. now left.
  Qed.
  Lemma returned_pc st c : client_returned out st c = true -> pc_of st c = Some PcDone.
  Proof.
    unfold client_returned, pc_of. destruct (nth_error (l_cls (w_loop st)) (idx c)) as [k|]; [|discriminate]. cbn. destruct (l_pc k); congruence.
  Qed.

  Lemma winv_init : winv (whole_init out) [].
  Proof.
    split.
    - constructor.
    - exists []. reflexivity.
    - intros c e [].
    - intros c [].
    - intros _ _ c [].
    - intros _ [|x t1] c e t2 E; discriminate.
  Qed.

  Lemma order_keep (P : Prop) (tr es : list (wevent V)) : (forall c e, ~ In (WC c e) es) ->
    (forall t1 c e t2, tr = t1 ++ WC c e :: t2 ->
      (forall c' e', In (WC c' e') t1 -> (fst c' <= fst c)%nat) /\
      (forall e' i', (e' < fst c)%nat -> valid (e', i') -> exists s r, In (WC (e', i') (EvDone s r)) t1)) ->
    forall t1 c e t2, tr ++ es = t1 ++ WC c e :: t2 ->
      (forall c' e', In (WC c' e') t1 -> (fst c' <= fst c)%nat) /\
      (forall e' i', (e' < fst c)%nat -> valid (e', i') -> exists s r, In (WC (e', i') (EvDone s r)) t1).
  Proof.
    intros NO H t1 c e t2 E. assert (X : exists t2', tr = t1 ++ WC c e :: t2').
    { clear H. revert tr E. induction t1 as [|y t1 IH]; intros [|z tr] E; cbn in E.
      - exfalso. apply (NO c e). rewrite E. now left.
      - injection E as -> _. now exists tr.
      - exfalso. apply (NO c e). rewrite E. right. apply in_or_app. right. now left.
      - injection E as -> E. destruct (IH _ E) as (t2' & ->). now exists t2'. }
    destruct X as (t2' & X). eauto.
  Qed.

  Lemma winv_step st tr a st' es : winv st tr -> whole_step cfg out st a = Some (st', es) -> winv st' (tr ++ es).
  Proof.
    intros I H. pose proof I as [I1 I2 I3 I4 I5 I6]. destruct a as [a|e g|c inp]; cbn in H.
    - (* Stage.Run *)
      destruct (match a with G.AFinish c => client_returned out st c | G.AElapse => _ | _ => true end) eqn:GD; [|discriminate].
      destruct (G.step sizes (w_stage st) a) as [[s es0]|] eqn:ST; [|discriminate]. injection H as <- <-.
      assert (NW : forall c e, ~ In (@WC V c e) (map WS es0)) by (intros c e X; apply in_map_iff in X as (y & Y & _); discriminate).
      split; cbn [w_stage w_loop w_over].
      + rewrite stage_events_app, stage_of_ws. eapply SP.reach_step; eauto.
      + rewrite numbered_app, numbered_ws, app_nil_r. exact I2.
      + intros c e X. rewrite stage_events_app. apply in_or_app. left. apply in_app_or in X as [X|X]; [eauto|destruct (NW _ _ X)].
      + intros c X. rewrite stage_events_app, stage_of_ws in X. apply in_app_or in X as [X|X]; [now apply I4|].
        pose proof (finish_from _ _ _ _ _ ST X) as ->. now apply returned_pc.
      + eapply cur_step; eauto.
      + intros (U1 & U2). cbn in U1, U2. destruct (flags_step _ _ _ _ ST) as (F1 & F2). apply order_keep; [exact True|exact NW|]. apply I6. split; auto.
    - (* runtime of a client group *)
      destruct (_ && _)%bool; [|discriminate]. injection H as <- <-. rewrite app_nil_r. split; auto.
    - (* a client *)
      destruct (existsb (G.client_eqb c) (G.s_run (w_stage st))) eqn:IN; [|discriminate]. cbn [andb] in H.
      destruct (fits _ _ _) eqn:FT; [|discriminate]. destruct (loop_step (w_loop st) (idx c) inp) as [[l es0]|] eqn:LS; [|discriminate].
      injection H as <- <-. apply SP.existsb_in in IN. pose proof (SP.reach_inv _ _ _ I1) as [J1 J2 J3 J4].
      assert (SC : In (G.EStart c) (stage_events tr)) by now apply J2.
      assert (VC : valid c) by (eapply start_valid; eauto).
      split; cbn [w_stage w_loop w_over].
      + rewrite stage_events_app, stage_of_wc, app_nil_r. exact I1.
      + destruct I2 as (sched & R). exists (sched ++ [(idx c, inp)]). rewrite numbered_app, numbered_wc. eapply loop_snoc; eauto.
      + intros c' e X. rewrite stage_events_app, stage_of_wc, app_nil_r. apply in_app_or in X as [X|X]; [eauto|].
        apply in_map_iff in X as (y & Y & _). injection Y as <- _. exact SC.
      + intros c' X. rewrite stage_events_app, stage_of_wc, app_nil_r in X. specialize (I4 _ X).
        destruct (loop_inv _ _ _ _ _ LS) as (k & k' & K & S & _ & LC). unfold pc_of in I4 |- *. cbn [w_loop].
        destruct (Nat.eq_dec (idx c) (idx c')) as [E|N].
        * exfalso. rewrite <- E, K in I4. injection I4 as I4. destruct LC as [ci _ _ S1| | |]; try congruence. rewrite I4 in S1. destruct ci; discriminate.
        * rewrite (LimitProofs.set_nth_diff _ _ _ _ _ S (not_eq_sym N)). exact I4.
      + exact I5.
      + intros (U1 & U2). cbn in U1, U2. specialize (I6 (conj U1 U2)). specialize (I5 U1 U2 c IN).
        assert (PRE : (forall c' e', In (WC c' e') tr -> (fst c' <= fst c)%nat) /\
          (forall e' i', (e' < fst c)%nat -> valid (e', i') -> exists s r, In (WC (e', i') (EvDone s r)) tr)).
        { assert (ALL : forall c', In (G.EStart c') (stage_events tr) -> (fst c' <= fst c)%nat).
          { intros c' X. apply SP.in_starts in X. unfold SP.started in J1. destruct (G.s_pc (w_stage st)) as [| g todo| g n | |]; try destruct I5; subst.
            - destruct J1 as (_ & pre & E & J1). rewrite J1 in X. apply in_app_or in X as [X|X]; [apply SP.in_upto in X; lia|].
              assert (Hc : In c' (G.clients (fst c) (SP.size sizes (fst c)))) by (rewrite E; apply in_or_app; now left).
              unfold G.clients in Hc. apply in_map_iff in Hc as (i & <- & _). cbn. lia.
            - destruct J1 as (_ & J1). rewrite J1 in X. apply SP.in_upto in X. lia. }
          split; [intros c' e' X; apply ALL; eauto|].
          intros e' i' L VC'. assert (X : In (G.EStart (e', i')) (stage_events tr)).
          { apply SP.in_starts. unfold SP.started in J1. unfold valid in VC'. cbn in VC'.
            assert (U : forall g, (e' < g)%nat -> In (e', i') (SP.upto sizes g)) by (intros g Q; apply SP.in_upto; cbn; unfold SP.size; auto).
            destruct (G.s_pc (w_stage st)) as [| g todo| g n | |]; try destruct I5; subst.
            - destruct J1 as (_ & pre & E & ->). apply in_or_app. left. now apply U.
            - destruct J1 as (_ & ->). apply U. lia. }
          destruct (J3 _ X) as [RUN|FIN].
          - exfalso. pose proof (w_cur _ _ I U1 U2 _ RUN) as Q. destruct (G.s_pc (w_stage st)); try destruct I5; try destruct Q; cbn in *; lia.
          - destruct (done_event st tr (e', i') I VC' (I4 _ FIN)) as (s & D). eauto. }
        destruct PRE as (P1 & P2).
        intros t1 c0 e0 t2 E. assert (X : (exists t2', tr = t1 ++ WC c0 e0 :: t2') \/ (c0 = c /\ exists t1', t1 = tr ++ map (WC c) t1')).
        { clear - E. revert tr E. induction t1 as [|y t1 IH]; intros [|z tr] E; cbn in E.
          - right. destruct es0 as [|e es0]; [discriminate|]. injection E as E1 E2 E3. split; [auto|]. now exists [].
          - injection E as -> _. left. now exists tr.
          - right. clear IH. revert y t1 E. induction es0 as [|e es0 IHe]; intros y t1 E; [discriminate|]. cbn in E. injection E as <- E. destruct t1 as [|y t1].
            + destruct es0 as [|e1 es0]; [discriminate|]. injection E as -> _ _. split; [reflexivity|]. now exists [e].
            + destruct (IHe _ _ E) as (-> & t1' & Q). split; [reflexivity|]. exists (e :: t1'). cbn in Q |- *. now rewrite <- Q.
          - injection E as -> E. destruct (IH _ E) as [(t2' & ->)|(-> & t1' & ->)]; [left; now exists t2'|right; split; [reflexivity|now exists t1']]. }
        destruct X as [(t2' & X)|(-> & t1' & ->)]; [eapply I6; eauto|]. split.
        * intros c' e' Q. apply in_app_or in Q as [Q|Q]; [eauto|]. apply in_map_iff in Q as (y & Y & _). injection Y as <- _. lia.
        * intros e' i' L VC'. destruct (P2 _ _ L VC') as (s & r & Q). exists s, r. apply in_or_app. now left.
  Qed.

  (** ** Whole runs *)
  Lemma whole_ind (P : wst V -> list (wevent V) -> Prop) :
    (forall st tr a st' es, P st tr -> whole_step cfg out st a = Some (st', es) -> P st' (tr ++ es)) ->
    forall acts st tr, P st tr -> forall st' tr', whole_run cfg out st acts = Some (st', tr') -> P st' (tr ++ tr').
  Proof.
    intros STEP. induction acts as [|a acts IH]; intros st tr HP st' tr' H; cbn [whole_run] in H.
    - injection H as <- <-. now rewrite app_nil_r.
    - destruct (whole_step cfg out st a) as [[st1 es]|] eqn:E; [|discriminate].
      destruct (whole_run cfg out st1 acts) as [[st2 tr2]|] eqn:E2; [|discriminate]. injection H as <- <-.
      rewrite app_assoc. eapply IH; [|exact E2]. eapply STEP; eauto.
  Qed.
  Lemma winv_run acts st tr : whole_run cfg out (whole_init out) acts = Some (st, tr) -> winv st tr.
  Proof. intros H. exact (whole_ind winv (fun st tr a st' es => winv_step st tr a st' es) acts _ [] winv_init _ _ H). Qed.

  (** ** Why a client returns *)
  Lemma reconnect_plain c n (st : cst V) ce st' evs e : cenv_fits false n ce = true ->
    reconnect c st ce = (st', evs, PDoneErr e) -> er_cancel e = false.
  Proof.
    intros F H. unfold cenv_fits in F. cbn [orb] in F. apply andb_true_iff in F as [F F4]. apply andb_true_iff in F as [F F3]. apply andb_true_iff in F as [F F2].
    apply andb_true_iff in F as [F F1]. apply andb_true_iff in F as [F0 FC]. unfold reconnect in H. rewrite FC in H. cbn [negb] in H.
    apply negb_true_iff in F1. rewrite F1 in H.
    destruct (negb (c_defaultDb c =? "")%string); [destruct (ce_use ce) eqn:EU|].
    - injection H as _ _ <-. cbn in F3. apply negb_true_iff, orb_false_iff in F3. tauto.
    - destruct (prepare_stmts _ _ _ _ _) as [[ps e3] r3] eqn:E. injection H as _ _ ->.
      destruct (ClientConnProofs.prepare_err _ _ _ _ _ _ _ _ E) as (j & e' & P & ->). reflexivity.
    - destruct (prepare_stmts _ _ _ _ _) as [[ps e3] r3] eqn:E. injection H as _ _ ->.
      destruct (ClientConnProofs.prepare_err _ _ _ _ _ _ _ _ E) as (j & e' & P & ->). reflexivity.
  Qed.
  Lemma connect_plain c n (st : cst V) cerr ce st' evs e : cenv_fits false n ce = true ->
    connect c st cerr ce = (st', evs, PDoneErr e) -> er_cancel e = false.
  Proof.
    intros F H. assert (F' := F). unfold cenv_fits in F. cbn [orb] in F. do 5 (apply andb_true_iff in F as [F _]). apply negb_true_iff in F.
    unfold connect in H. rewrite F in H. destruct cerr as [[er i]|]; [|eapply reconnect_plain; eauto].
    destruct (nth_error (c_stmts c) i) as [s|]; [|discriminate].
    destruct (st_ddl s && _)%bool; [injection H as _ _ <-; reflexivity|].
    destruct (error_handling (er_code er)) as [fl|]; [|eapply reconnect_plain; eauto].
    destruct (negb (N.land fl Eabort =? 0)%N) eqn:EA.
    { exfalso. unfold Eabort in EA. rewrite N.land_0_r in EA. discriminate. }
    destruct (negb (N.land fl Erollback =? 0)%N && s_active st)%bool.
    - destruct (s_conn st) as [k|]; [|discriminate]. destruct (ce_rollback ce) as [er'|]; [injection H as _ _ <-; reflexivity|].
      destruct (negb (N.land fl Econtinue =? 0)%N); [discriminate|].
      destruct (reconnect c st ce) as [[st1 e1] r1] eqn:E. injection H as _ _ ->. eapply reconnect_plain; eauto.
    - destruct (negb (N.land fl Econtinue =? 0)%N); [discriminate|]. eapply reconnect_plain; eauto.
  Qed.
  Lemma loop_reports (st : lst V) j n inp st' evs s : fits false n inp = true -> loop_step st j inp = Some (st', evs) ->
    In (EvDone s None) evs -> s = StopLimit.
  Proof.
    intros F H I. unfold loop_step in H. destruct (nth_error (l_cls st) j) as [k|]; [|discriminate].
    assert (FIN : forall (l : list (event V)) s1 (x : cst V), Forall (fun e => is_done e = false) l -> In (EvDone s None) (l ++ finish x s1) -> s = s1 /\ reported s1 = None).
    { intros l s1 x Q J. unfold finish in J. apply in_app_or in J as [J|J]; [rewrite Forall_forall in Q; specialize (Q _ J); discriminate|].
      apply in_app_or in J as [J|[J|[]]]; [destruct (s_conn x); [destruct J as [J|[]]; discriminate|destruct J]|]. injection J as <- Q1. auto. }
    destruct inp as [ce| |se].
    - destruct (cstep (l_c k) (l_st k) (l_pc k) (IConnect ce)) as [[[s1 pc] e]|] eqn:E; [|discriminate].
      destruct (set_nth (l_cls st) j _) as [l|]; [|discriminate]. injection H as <- <-.
      apply ClientProofs.step_inv in E. inversion E as [ce' st1 evs1 r CO| | |]; subst. destruct (ClientProofs.connect_inv _ _ _ _ _ _ _ CO) as (_ & Q). apply no_done_quiet in Q.
      destruct r.
      + rewrite app_nil_r in I. rewrite Forall_forall in Q. specialize (Q _ I). discriminate.
      + destruct (FIN _ _ _ Q I) as (_ & R). cbn in R. rewrite (connect_plain _ n _ _ _ _ _ _ F CO) in R. discriminate.
      + destruct (FIN _ _ _ Q I) as (_ & R). discriminate.
    - assert (ST : forall x y z, cstep (l_c k) (l_st k) (l_pc k) IStop = Some (x, y, z) -> In (EvDone s None) z -> s = StopLimit).
      { intros x y z S J. destruct (l_pc k); try discriminate. injection S as <- <- <-. apply (FIN [] _ _ (Forall_nil _)) in J. tauto. }
      assert (GO : forall x y z, cstep (V := V) (l_c k) (l_st k) (l_pc k) IGo = Some (x, y, z) -> z = []).
      { intros x y z S. destruct (l_pc k); try discriminate. injection S as <- <- <-. reflexivity. }
      destruct (l_pc k); try discriminate. destruct (loop_check (l_cnt st) k) as [cnt [[|]|]].
      + destruct (cstep (l_c k) (l_st k) PcIter IGo) as [[[s1 pc] e]|] eqn:E; [|discriminate]. destruct (set_nth (l_cls st) j _) as [l|]; [|discriminate].
        injection H as <- <-. rewrite (GO _ _ _ eq_refl) in I. destruct I.
      + destruct (cstep (l_c k) (l_st k) PcIter IStop) as [[[s1 pc] e]|] eqn:E; [|discriminate]. destruct (set_nth (l_cls st) j _) as [l|]; [|discriminate].
        injection H as <- <-. eapply ST; eauto.
      + destruct (set_nth (l_cls st) j _) as [l|]; [|discriminate]. injection H as <- <-. destruct I.
    - destruct (cstep (l_c k) (l_st k) (l_pc k) (IStmt se)) as [[[s1 pc] e]|] eqn:E; [|discriminate].
      destruct (set_nth (l_cls st) j _) as [l|]; [|discriminate]. injection H as <- <-.
      apply ClientProofs.step_inv in E. inversion E as [| | |i se' st1 evs1 nx XC XE]; subst. pose proof (exec_no_done _ _ _ _ _ _ _ XC) as Q.
      cbn [fits] in F. apply andb_true_iff in F as [_ F].
      destruct nx as [| |s0].
      + rewrite app_nil_r in I. rewrite Forall_forall in Q. specialize (Q _ I). discriminate.
      + rewrite app_nil_r in I. rewrite Forall_forall in Q. specialize (Q _ I). discriminate.
      + destruct (FIN _ _ _ Q I) as (-> & R). inversion XC; subst; try discriminate R.
        * match goal with H : _ \/ _ |- _ => destruct H as [->| ->]; [discriminate R|reflexivity] end.
        * destruct r; try discriminate; match goal with H : NStop _ = NStop _ |- _ => injection H as <- end; cbn in R; [|discriminate R].
          match goal with H : connect _ _ _ _ = _ |- _ => rewrite (connect_plain _ n _ _ _ _ _ _ F H) in R end. discriminate.
  Qed.

  Lemma elapsed_from s a s' es : G.step sizes s a = Some (s', es) -> G.s_elapsed s' = true -> G.s_elapsed s = true \/ a = G.AElapse.
  Proof.
    intros H X. destruct a; cbn in H; auto.
    - left. unfold G.stage_step in H. destruct (G.s_pc s) as [g|g [|c todo]|g [|n]|g n ms|]; try discriminate H.
      + destruct (nth_error sizes g); [destruct (G.s_stopped s) eqn:E|]; injection H as <- <-; exact X.
      + destruct (nth_error sizes g); [|discriminate]. injection H as <- <-. exact X.
      + injection H as <- <-. exact X.
      + injection H as <- <-. exact X.
      + destruct ctx; [destruct (_ || _)%bool; [|discriminate]|destruct (G.s_chan s); [discriminate|]]; injection H as <- <-; exact X.
      + destruct n; [|destruct ms; [|destruct (G.s_chan s)]]; injection H as <- <-; exact X.
    - left. destruct (existsb _ _); [|discriminate]. injection H as <- <-. exact X.
    - left. destruct (_ && _)%bool; [|discriminate]. injection H as <- <-. exact X.
    - left. destruct (G.s_stopped s); [discriminate|]. injection H as <- <-. exact X.
  Qed.

  (** A runtime elapses only where there is one; a client whose context is not done returns because of a limit or with an error. *)
  Record cinv (st : wst V) (tr : list (wevent V)) : Prop := {
    x_elapsed : G.s_elapsed (w_stage st) = true -> C.s_runtime cfg <> ""%string;
    x_over : forall e g, w_over st e g = true -> runtime_of cfg out e g = true;
    x_done : forall c s, In (WC c (EvDone s None)) tr -> ctx_done out st c = true \/ s = StopLimit }.
  Lemma cinv_init : cinv (whole_init out) [].
  Proof. split; try discriminate. intros c s []. Qed.
  Lemma cinv_step st tr a st' es : cinv st tr -> whole_step cfg out st a = Some (st', es) -> cinv st' (tr ++ es).
  Proof.
    intros [X1 X2 X3] H. destruct a as [a|e g|c inp]; cbn in H.
    - destruct (match a with G.AFinish c => client_returned out st c | G.AElapse => _ | _ => true end) eqn:GD; [|discriminate].
      destruct (G.step sizes (w_stage st) a) as [[s es0]|] eqn:ST; [|discriminate]. injection H as <- <-.
      destruct (flags_step _ _ _ _ ST) as (F1 & F2). split; cbn [w_stage w_loop w_over]; auto.
      + intros E. destruct (elapsed_from _ _ _ _ ST E) as [E'| ->]; [auto|]. apply negb_true_iff in GD. now apply String.eqb_neq.
      + intros c s' I. apply in_app_or in I as [I|I]; [|apply in_map_iff in I as (y & Y & _); discriminate].
        destruct (X3 _ _ I) as [Y|Y]; [left|now right]. unfold ctx_done in *. cbn [w_stage w_over].
        apply orb_true_iff in Y as [Y|Y]; [|rewrite Y; now rewrite orb_true_r].
        apply orb_true_iff in Y as [Y|Y].
        * destruct (G.s_elapsed s); [reflexivity|]. rewrite (F1 eq_refl) in Y. discriminate.
        * destruct (G.s_stopped s); [now rewrite orb_true_r|]. rewrite (F2 eq_refl) in Y. discriminate.
    - destruct (runtime_of cfg out e g) eqn:RT; [|discriminate]. destruct (w_over st e g) eqn:OV; [discriminate|]. injection H as <- <-. rewrite app_nil_r. split; cbn [w_stage w_loop w_over]; auto.
      + intros e' g' Y. apply orb_true_iff in Y as [Y|Y]; [|auto]. apply andb_true_iff in Y as [Y1 Y2]. apply Nat.eqb_eq in Y1, Y2. now subst.
      + intros c s I. destruct (X3 _ _ I) as [Y|Y]; [left|now right]. unfold ctx_done in *. cbn [w_stage w_over].
        apply orb_true_iff in Y as [Y|Y]; [now rewrite Y|]. destruct (nth_error (labelled out) (idx c)) as [[[e1 g1] cl]|]; [|discriminate]. rewrite Y. now rewrite !orb_true_r.
    - destruct (existsb (G.client_eqb c) (G.s_run (w_stage st))) eqn:IN; [|discriminate]. cbn [andb] in H.
      destruct (fits _ _ _) eqn:FT; [|discriminate]. destruct (loop_step (w_loop st) (idx c) inp) as [[l es0]|] eqn:LS; [|discriminate].
      injection H as <- <-. split; cbn [w_stage w_loop w_over]; auto.
      intros c' s I. apply in_app_or in I as [I|I]; [exact (X3 _ _ I)|]. apply in_map_iff in I as (y & Y & I). injection Y as -> ->.
      change (ctx_done out _ c') with (ctx_done out st c'). destruct (ctx_done out st c') eqn:CD; [now left|right]. eapply loop_reports; eauto.
  Qed.
  Lemma cinv_run acts st tr : whole_run cfg out (whole_init out) acts = Some (st, tr) -> cinv st tr.
  Proof. intros H. exact (whole_ind cinv (fun st tr a st' es => cinv_step st tr a st' es) acts _ [] cinv_init _ _ H). Qed.

  (** ** When Stage.Run returns *)
  Lemma all_done st tr : winv st tr -> returned st -> undisturbed st -> forall c, valid c -> exists s, In (WC c (EvDone s (reported s))) tr.
  Proof.
    intros I R (U1 & U2) c VC. destruct c as [e i]. destruct (proj2 (SP.C57_all _ _ _ (w_reach _ _ I)) R U1 U2 e i VC) as (_ & F).
    apply (done_event _ _ _ I VC). apply (w_fin _ _ I). exact F.
  Qed.

  (** ** How many steps there are *)
  Definition mark (k : lcl V) : nat :=
    let n := length (c_stmts (l_c k)) in
    (N.to_nat (rc_iter (s_rc (l_st k))) * (n + 5) +
     match l_pc k with PcStart => 0 | PcStmt i => 1 + Nat.min i n | PcIter => 1 + n + Nat.min (l_chk k) 2 | PcDone => n + 4 end)%nat.
  Lemma exec_keeps (c : client) (st : cst V) i se st' evs nx : ClientProofs.exec_case c st i se st' evs nx -> rc_iter (s_rc st') = rc_iter (s_rc st).
  Proof.
    intros X. inversion X; subst; auto.
    match goal with H : connect _ _ _ _ = _ |- _ => destruct (ClientProofs.connect_inv _ _ _ _ _ _ _ H) as ((_ & R & _) & _) end.
    destruct r; cbn; auto; rewrite R; reflexivity.
  Qed.
  Lemma mark_step (st : lst V) j inp st' evs : loop_step st j inp = Some (st', evs) ->
    exists k k', nth_error (l_cls st) j = Some k /\ set_nth (l_cls st) j k' = Some (l_cls st') /\ (mark k < mark k')%nat.
  Proof.
    intros H. destruct (loop_inv _ _ _ _ _ H) as (k & k' & K & SN & C & LC). exists k, k'. split; [exact K|]. split; [exact SN|].
    unfold mark. rewrite C. set (n := length (c_stmts (l_c k))).
    assert (STOP : l_pc k = PcIter -> cstep (l_c k) (l_st k) PcIter IStop = Some (l_st k', l_pc k', evs) ->
      (N.to_nat (rc_iter (s_rc (l_st k))) * (n + 5) + match l_pc k with PcStart => 0 | PcStmt i => 1 + Nat.min i n | PcIter => 1 + n + Nat.min (l_chk k) 2 | PcDone => n + 4 end <
       N.to_nat (rc_iter (s_rc (l_st k'))) * (n + 5) + match l_pc k' with PcStart => 0 | PcStmt i => 1 + Nat.min i n | PcIter => 1 + n + Nat.min (l_chk k') 2 | PcDone => n + 4 end)%nat).
    { intros PC E. cbn in E. injection E as <- <- _. rewrite PC. lia. }
    destruct LC as [ci N1 N2 E _ CH|r PC CH _ E|r PC CH _ E|PC CH _ CH' E].
    - apply ClientProofs.step_inv in E. inversion E as [ce st1 evs1 r CO X1 X2 X3 X4| | |i se st1 evs1 nx XC XE X1 X2 X3 X4]; subst; try congruence.
      + destruct (ClientProofs.connect_inv _ _ _ _ _ _ _ CO) as ((_ & R & _) & _). rewrite R. destruct r; lia.
      + rewrite (exec_keeps _ _ _ _ _ _ _ XC). rewrite CH.
        assert (L : (i < n)%nat \/ match nx with NStop _ => True | _ => False end).
        { destruct (Nat.lt_ge_cases i n) as [L|L]; [now left|right]. unfold exec_stmt in XE. apply nth_error_None in L. rewrite L in XE. injection XE as _ _ <-. exact I. }
        unfold stmt_pc. fold n. destruct nx; [destruct (Nat.ltb_spec (S i) n)| |]; try (destruct L as [L|[]]); lia.
    - destruct r; [apply STOP; tauto|]. destruct E as (E1 & E2 & E3 & _). rewrite E1, E2, E3, PC, CH. lia.
    - destruct r; [apply STOP; tauto|]. destruct E as (E1 & E2 & E3 & _). rewrite E1, E2, E3, PC, CH. lia.
    - destruct (_ && _)%bool; [now apply STOP|]. apply ClientProofs.step_inv in E. inversion E as [| |X1 X2 X3|]; subst. cbn [s_rc rc_iter].
      rewrite N2Nat.inj_add, PC. unfold stmt_pc. fold n. destruct (_ <? _)%nat; rewrite ?CH'; nia.
  Qed.

  Definition marks (l : list (lcl V)) : nat := list_sum (map mark l).
  Lemma marks_set : forall (l : list (lcl V)) j k k' l', nth_error l j = Some k -> set_nth l j k' = Some l' -> (marks l' + mark k = marks l + mark k')%nat.
  Proof.
    unfold marks, list_sum. induction l as [|x l IH]; intros [|j] k k' l' K H; try discriminate; cbn in K, H.
    - injection K as ->. injection H as <-. cbn. lia.
    - destruct (set_nth l j k') as [l1|] eqn:E; [|discriminate]. injection H as <-. specialize (IH _ _ _ _ K E). cbn. lia.
  Qed.

  Definition is_client (a : waction V) : bool := match a with WClient _ _ => true | _ => false end.
  Definition stage_action (a : waction V) : list G.action := match a with WStage a => [a] | _ => [] end.
  Definition is_over (a : waction V) : bool := match a with WOver _ _ => true | _ => false end.
  Lemma action_kinds acts : length acts = (length (flat_map stage_action acts) + length (filter is_over acts) + length (filter is_client acts))%nat.
  Proof. induction acts as [|[] acts IH]; cbn; lia. Qed.

  (** Steps of clients. *)
  Lemma client_steps acts : forall st st' tr, whole_run cfg out st acts = Some (st', tr) ->
    (marks (l_cls (w_loop st)) + length (filter is_client acts) <= marks (l_cls (w_loop st')))%nat.
  Proof.
    induction acts as [|a acts IH]; intros st st' tr H; cbn [whole_run] in H; [injection H as <- <-; cbn; lia|].
    destruct (whole_step cfg out st a) as [[st1 es]|] eqn:E; [|discriminate].
    destruct (whole_run cfg out st1 acts) as [[st2 tr2]|] eqn:E2; [|discriminate]. injection H as <- <-. specialize (IH _ _ _ E2).
    destruct a as [a|e g|c inp]; cbn in E; cbn [filter is_client].
    - destruct (match a with G.AFinish c => client_returned out st c | G.AElapse => _ | _ => true end); [|discriminate].
      destruct (G.step sizes (w_stage st) a) as [[s es0]|]; [|discriminate]. injection E as <- <-. exact IH.
    - destruct (_ && _)%bool; [|discriminate]. injection E as <- <-. exact IH.
    - destruct (_ && _)%bool; [|discriminate]. destruct (loop_step (w_loop st) (idx c) inp) as [[l es0]|] eqn:LS; [|discriminate]. injection E as <- <-.
      destruct (mark_step _ _ _ _ _ LS) as (k & k' & K & SN & L). pose proof (marks_set _ _ _ _ _ K SN). cbn [w_loop] in IH. cbn [length]. lia.
  Qed.
  (** Steps of Stage.Run. *)
  Lemma stage_steps acts : forall st st' tr, whole_run cfg out st acts = Some (st', tr) ->
    G.run sizes (w_stage st) (flat_map stage_action acts) = Some (w_stage st', stage_events tr).
  Proof.
    induction acts as [|a acts IH]; intros st st' tr H; cbn [whole_run] in H; [injection H as <- <-; reflexivity|].
    destruct (whole_step cfg out st a) as [[st1 es]|] eqn:E; [|discriminate].
    destruct (whole_run cfg out st1 acts) as [[st2 tr2]|] eqn:E2; [|discriminate]. injection H as <- <-. specialize (IH _ _ _ E2).
    rewrite stage_events_app. destruct a as [a|e g|c inp]; cbn in E; cbn [flat_map stage_action app].
    - destruct (match a with G.AFinish c => client_returned out st c | G.AElapse => _ | _ => true end); [|discriminate].
      destruct (G.step sizes (w_stage st) a) as [[s es0]|] eqn:ST; [|discriminate]. injection E as <- <-. cbn [G.run]. rewrite ST. cbn [w_stage] in IH. rewrite IH, stage_of_ws. reflexivity.
    - destruct (_ && _)%bool; [|discriminate]. injection E as <- <-. exact IH.
    - destruct (_ && _)%bool; [|discriminate]. destruct (loop_step (w_loop st) (idx c) inp) as [[l es0]|] eqn:LS; [|discriminate]. injection E as <- <-.
      rewrite stage_of_wc. exact IH.
  Qed.
  (** Runtimes of client groups. *)
  Definition pairs : list (nat * nat) := concat (mapi_from (fun e (css : list (list client)) => map (fun g => (e, g)) (seq 0 (length css))) 0 out).
  Definition overs (st : wst V) : nat := length (filter (fun p => w_over st (fst p) (snd p)) pairs).
  Lemma filter_grows {A} (f g : A -> bool) (l : list A) x : (forall y, f y = true -> g y = true) -> In x l -> f x = false -> g x = true ->
    (length (filter f l) < length (filter g l))%nat.
  Proof.
    intros FG. assert (LE : forall l, (length (filter f l) <= length (filter g l))%nat).
    { induction l0 as [|y l0 IH]; cbn; [lia|]. destruct (f y) eqn:F; [rewrite (FG _ F); cbn; lia|]. destruct (g y); cbn; lia. }
    induction l as [|y l IH]; intros I FX GX; [destruct I|destruct I as [->|I]]; cbn.
    - rewrite FX, GX. cbn. specialize (LE l). lia.
    - specialize (IH I FX GX). destruct (f y) eqn:F; [rewrite (FG _ F); cbn; lia|]. destruct (g y); cbn; lia.
  Qed.
  Lemma over_steps acts : forall st st' tr, whole_run cfg out st acts = Some (st', tr) -> (overs st + length (filter is_over acts) <= overs st')%nat.
  Proof.
    induction acts as [|a acts IH]; intros st st' tr H; cbn [whole_run] in H; [injection H as <- <-; cbn; lia|].
    destruct (whole_step cfg out st a) as [[st1 es]|] eqn:E; [|discriminate].
    destruct (whole_run cfg out st1 acts) as [[st2 tr2]|] eqn:E2; [|discriminate]. injection H as <- <-. specialize (IH _ _ _ E2).
    destruct a as [a|e g|c inp]; cbn in E; cbn [filter is_over].
    - destruct (match a with G.AFinish c => client_returned out st c | G.AElapse => _ | _ => true end); [|discriminate].
      destruct (G.step sizes (w_stage st) a) as [[s es0]|]; [|discriminate]. injection E as <- <-. exact IH.
    - destruct (runtime_of cfg out e g) eqn:RT; [|discriminate]. destruct (w_over st e g) eqn:OV; [discriminate|]. cbn [andb negb] in E. injection E as <- <-.
      assert (X : (overs st < overs (WSt (w_stage st) (w_loop st) (fun e' g' => ((Nat.eqb e e' && Nat.eqb g g') || w_over st e' g')%bool)))%nat).
      { unfold overs. cbn [w_over]. apply (filter_grows _ _ _ (e, g)).
        - intros [e' g'] Y. cbn in *. rewrite Y. apply orb_true_r.
        - unfold runtime_of in RT. destruct (nth_error out e) as [css|] eqn:O; [|discriminate]. destruct (nth_error css g) as [cls|] eqn:O2; [|discriminate].
          unfold pairs. apply in_concat. exists (map (fun g => (e, g)) (seq 0 (length css))). split.
          + eapply nth_error_In with (n := e). rewrite nth_error_mapi_from, O. reflexivity.
          + apply in_map_iff. exists g. split; [reflexivity|]. apply in_seq. assert (g < length css)%nat by (apply nth_error_Some; congruence). lia.
        - exact OV.
        - cbn. now rewrite !Nat.eqb_refl. }
      cbn [length]. lia.
    - destruct (_ && _)%bool; [|discriminate]. destruct (loop_step (w_loop st) (idx c) inp) as [[l es0]|] eqn:LS; [|discriminate]. injection E as <- <-. exact IH.
  Qed.

  (** The clients start at most [n] iterations each: a run has at most so many steps. *)
  Definition max_steps (n : nat) : nat :=
    (3 + list_sum (map (fun m => 4 * m + 14) sizes) + length pairs + list_sum (map (fun x => (n + 1) * (length (c_stmts (snd x)) + 5)) (labelled out)))%nat.
  Lemma steps_bound acts (st : wst V) tr n : whole_run cfg out (whole_init out) acts = Some (st, tr) ->
    (forall j k, nth_error (l_cls (w_loop st)) j = Some k -> (N.to_nat (rc_iter (s_rc (l_st k))) <= n)%nat) -> (length acts <= max_steps n)%nat.
  Proof.
    intros H B. rewrite action_kinds. unfold max_steps. pose proof (client_steps _ _ _ _ H) as H1. pose proof (over_steps _ _ _ _ H) as H2.
    pose proof (proj2 (SP.C57_ends sizes G.init [] (SP.reach_init _)) _ _ _ (stage_steps _ _ _ _ H)) as H3.
    assert (H4 : (overs st <= length pairs)%nat) by (unfold overs; clear; induction pairs as [|p l IH]; cbn; [lia|destruct (w_over _ _ _); cbn; lia]).
    assert (H5 : (marks (l_cls (w_loop st)) <= list_sum (map (fun x => (n + 1) * (length (c_stmts (snd x)) + 5)) (labelled out)))%nat).
    { destruct (w_sched _ _ (winv_run _ _ _ H)) as (sched & R). destruct (sim_run _ _ _ _ R) as (CS & _).
      clear - CS B. unfold marks, list_sum. revert CS B. generalize (l_cls (w_loop st)) as ks. induction (labelled out) as [|x l IH]; intros [|k ks] CS B; try discriminate; [cbn; lia|].
      cbn in CS. injection CS as C1 C2. specialize (IH ks C2 (fun j => B (S j))). specialize (B 0%nat k eq_refl). cbn [map fold_right].
      assert (M : (mark k <= (n + 1) * (length (c_stmts (snd x)) + 5))%nat); [|lia].
      unfold mark. rewrite C1. destruct (l_pc k); nia. }
    lia.
  Qed.

  (** ** Something can happen until Stage.Run returns *)
  Lemma client_can (st : wst V) c k : In c (G.s_run (w_stage st)) -> nth_error (l_cls (w_loop st)) (idx c) = Some k -> l_pc k <> PcDone ->
    exists inp st' es, whole_step cfg out st (WClient c inp) = Some (st', es).
  Proof.
    intros I K P. set (ok := CEnv false None true false None (fun _ => None)).
    assert (OK : forall n, cenv_fits (ctx_done out st c) n ok = true).
    { intros n. unfold cenv_fits. cbn [ok ce_ctx0 ce_conn ce_ctx1 ce_rollback ce_use ce_prep err_fits]. rewrite !orb_true_r. cbn. induction (seq 0 n); auto. }
    assert (SET : forall k', exists l, set_nth (l_cls (w_loop st)) (idx c) k' = Some l).
    { intros k'. apply set_nth_some. apply nth_error_Some. congruence. }
    assert (X : exists inp l es, loop_step (w_loop st) (idx c) inp = Some (l, es) /\ forall n, fits (ctx_done out st c) n inp = true).
    { unfold loop_step. rewrite K. destruct (l_pc k) as [| |i|] eqn:PC; [| | |congruence].
      - exists (LConnect ok). cbn [cstep]. destruct (connect _ _ _ _) as [[st1 evs] r]. destruct r; edestruct SET as (l & ->); do 2 eexists; (split; [reflexivity|exact OK]).
      - exists LCheck. destruct (loop_check _ _) as [cnt [[|]|]]; cbn [cstep]; edestruct SET as (l & ->); do 2 eexists; (split; [reflexivity|reflexivity]).
      - exists (LStmt (SEnv [] (Some true) None None false ok)). cbn [cstep]. destruct (exec_stmt _ _ _ _) as [[st1 evs] nx].
        destruct nx; edestruct SET as (l & ->); do 2 eexists; (split; [reflexivity|]); intros n; cbn [fits v_ctx v_res v_scan v_conn err_fits]; rewrite OK, orb_true_r; reflexivity. }
    destruct X as (inp & l & es & LS & F). exists inp. cbn [whole_step].
    assert (E : existsb (G.client_eqb c) (G.s_run (w_stage st)) = true) by (apply existsb_exists; exists c; split; [exact I|now apply SP.client_eqb_eq]).
    rewrite E, F, LS. cbn. eauto.
  Qed.
  Lemma whole_goes_on st tr : winv st tr -> G.s_pc (w_stage st) <> G.Ended ->
    exists a st' es, whole_step cfg out st a = Some (st', es) /\ a <> WStage G.AElapse /\ a <> WStage G.AStop /\ (forall e g, a <> WOver e g).
  Proof.
    intros I P.
    assert (ST : forall a s' es, G.step sizes (w_stage st) a = Some (s', es) -> (forall c, a <> G.AFinish c) -> a <> G.AElapse -> a <> G.AStop ->
      exists a st' es, whole_step cfg out st a = Some (st', es) /\ a <> WStage G.AElapse /\ a <> WStage G.AStop /\ (forall e g, a <> WOver e g)).
    { intros a s' es H N1 N2 N3. exists (WStage a). cbn [whole_step]. rewrite H. destruct a; try congruence; try (destruct (N1 c eq_refl));
        (do 2 eexists; (split; [reflexivity|]); repeat split; intros; congruence). }
    destruct (G.s_elapsed (w_stage st) || G.s_stopped (w_stage st))%bool eqn:D.
    - pose proof (SP.reach_inv _ _ _ (w_reach _ _ I)) as [J _ _ _]. unfold SP.started in J.
      destruct (G.stage_step sizes (w_stage st) true) as [[s' es]|] eqn:S.
      + eapply (ST (G.AStage true)); [exact S| | |]; discriminate.
      + exfalso. unfold G.stage_step in S. destruct (G.s_pc (w_stage st)) as [g|g [|c todo]|g [|n]|g n ms|] eqn:Ep.
        * destruct (nth_error sizes g); [destruct (G.s_stopped (w_stage st))|]; discriminate.
        * destruct J as (J & _). apply nth_error_Some in J. destruct (nth_error sizes g); [discriminate|congruence].
        * discriminate.
        * discriminate.
        * rewrite D in S. discriminate.
        * destruct n; [|destruct ms; [|destruct (G.s_chan (w_stage st))]]; discriminate.
        * congruence.
    - apply orb_false_iff in D as [D1 D2].
      destruct (proj1 (SP.C57_ends _ _ _ (w_reach _ _ I)) P D1 D2) as (a & s' & es & H & N1 & N2).
      destruct a as [b|c|c| |]; try congruence; try (eapply ST; [exact H| | |]; discriminate).
      assert (IN : In c (G.s_run (w_stage st))).
      { cbn in H. destruct (existsb _ _) eqn:X; [|discriminate]. now apply SP.existsb_in in X. }
      pose proof (SP.reach_inv _ _ _ (w_reach _ _ I)) as [_ J2 _ _].
      assert (VC : valid c) by (eapply start_valid; [apply (w_reach _ _ I)|auto]).
      destruct (labelled_idx _ VC) as (g & cl & LB). destruct (w_sched _ _ I) as (sched & R).
      assert (LB' : nth_error (map snd (labelled out)) (idx c) = Some cl) by now rewrite nth_error_map, LB.
      destruct (loop_has _ _ _ _ _ _ R LB') as (k & K & _).
      destruct (client_returned out st c) eqn:CR.
      + exists (WStage (G.AFinish c)). cbn [whole_step]. rewrite CR, H. do 2 eexists. (split; [reflexivity|]). repeat split; intros; discriminate.
      + assert (NP : l_pc k <> PcDone) by (unfold client_returned in CR; rewrite K in CR; destruct (l_pc k); congruence).
        destruct (client_can st c k IN K NP) as (inp & st1 & es1 & W). exists (WClient c inp), st1, es1. split; [exact W|]. repeat split; intros; discriminate.
  Qed.
End Stage.
