(** Which slots of a client get a generator, and which of them are explicit calls. *)
From Verif Require Import Prelude ListAux ScopeModel ScopeSpec ScopeProofs StmtModel WorkloadModel
  WorkloadSpec WalkProofs FlatProofs InstanceProofs RunProofs.

Definition fills (sv : string -> bool) (s : stmt) (d : sdata) : Prop :=
  map snd (d_inputs d) = map snd (filter (fun kc => sv (fst kc)) (combine (st_inputs s) (st_calls s))) /\
  length (d_inputs d) = length (filter sv (st_inputs s)) /\
  length (d_outputs d) = length (st_outputs s) /\
  (forall n k, nth_error (st_outputs s) n = Some k ->
     exists r, nth_error (d_outputs d) n = Some r /\
     (r = None <-> k = st_insertId s \/ sv k = false)) /\
  (d_insertId d = None <-> st_insertId s = ""%string) /\
  (st_insertId s <> ""%string -> sv (st_insertId s) = true).

Lemma walk_inputs_fills sv st rl ins : forall sc calls sc' l,
  OKW sv sc st -> rl_stage rl = st -> (0 < st)%N ->
  walk_inputs sc rl ins calls = Some (sc', l) ->
  map snd l = map snd (filter (fun kc => sv (fst kc)) (combine ins calls)) /\
  length l = length (filter sv ins).
Proof.
  induction ins as [|k ins IH]; cbn [walk_inputs]; intros sc calls sc' l O E P H.
  - inv H. auto.
  - destruct (scopes_copy sc k rl) as [[sc1 [p|]]|] eqn:HC; try discriminate;
      destruct (copy_OKW _ _ _ _ _ _ _ O E P HC) as [O1 S1].
    + destruct calls as [|c calls]; [discriminate|].
      destruct (walk_inputs sc1 rl ins calls) as [[sc2 l2]|] eqn:HR; [|discriminate]. inv H.
      destruct (IH _ _ _ _ O1 eq_refl P HR) as [A B].
      destruct (sv k) eqn:SV; [|discriminate].
      cbn. rewrite SV. cbn. rewrite A, B. auto.
    + destruct (sv k) eqn:SV; [destruct S1; discriminate|].
      destruct (IH _ _ _ _ O1 E P H) as [A B]. cbn [filter]. rewrite SV. split; auto.
      rewrite A. destruct calls as [|c calls]; cbn.
      * now destruct ins.
      * now rewrite SV.
Qed.

Lemma walk_outputs_fills sv st rl iid outs : forall sc sc' l,
  OKW sv sc st -> rl_stage rl = st -> (0 < st)%N ->
  walk_outputs sc rl outs iid = Some (sc', l) ->
  forall n k, nth_error outs n = Some k ->
     exists r, nth_error l n = Some r /\ (r = None <-> k = iid \/ sv k = false).
Proof.
  induction outs as [|k outs IH]; cbn [walk_outputs]; intros sc sc' l O E P H n k0 Hn.
  - destruct n; discriminate.
  - destruct (String.eqb_spec k iid) as [EI|EI].
    + destruct (walk_outputs sc rl outs iid) as [[sc2 l2]|] eqn:HR; [|discriminate]. inv H.
      destruct n; cbn in Hn |- *; [inv Hn|eauto]. exists None. tauto.
    + destruct (scopes_copy sc k rl) as [[sc1 p]|] eqn:HC; [|discriminate].
      destruct (copy_OKW _ _ _ _ _ _ _ O E P HC) as [O1 S1].
      destruct (walk_outputs sc1 rl outs iid) as [[sc2 l2]|] eqn:HR; [|discriminate]. inv H.
      destruct n; cbn in Hn |- *; [inv Hn|eapply IH; eauto]. exists p. split; auto.
      destruct (sv k0) eqn:SV.
      * destruct S1 as [q ->]. split; [discriminate|]. intros [X|X]; congruence.
      * tauto.
Qed.

Lemma stmt_g_fills sv st sc rl s sc' d :
  OKW sv sc st -> rl_stage rl = st -> (0 < st)%N ->
  stmt_g sc rl s = Some (sc', d) -> OKW sv sc' st /\ fills sv s d.
Proof.
  intros O E P H. pose proof (stmt_g_copies _ _ _ _ _ _ _ O E P H) as (O' & L & _).
  split; auto. unfold stmt_g in H.
  destruct (walk_inputs sc rl (st_inputs s) (st_calls s)) as [[sc1 ins]|] eqn:H1; [|discriminate].
  destruct (walk_outputs sc1 rl (st_outputs s) (st_insertId s)) as [[sc2 outs]|] eqn:H2; [|discriminate].
  destruct (walk_insert_id sc2 rl (st_insertId s)) as [[sc3 iid]|] eqn:H3; [|discriminate]. inv H.
  destruct (walk_inputs_copies _ _ _ _ _ _ _ _ O eq_refl P H1) as [O1 _].
  destruct (walk_outputs_copies _ _ _ _ _ _ _ _ O1 eq_refl P H2) as [O2 _].
  destruct (walk_inputs_fills _ _ _ _ _ _ _ _ O eq_refl P H1) as [A B].
  unfold fills; cbn. split; [auto|]. split; [auto|]. split; [auto|].
  split; [exact (walk_outputs_fills _ _ _ _ _ _ _ _ O1 eq_refl P H2)|].
  unfold walk_insert_id in H3. destruct (String.eqb_spec (st_insertId s) "") as [->|N].
  { inv H3. split; [tauto|congruence]. }
  destruct (scopes_copy sc2 (st_insertId s) rl) as [[sc4 [p|]]|] eqn:HC; try discriminate. inv H3.
  destruct (copy_OKW _ _ _ _ _ _ _ O2 eq_refl P HC) as [_ S1].
  split; [split; congruence|]. intros _. destruct (sv (st_insertId s)); congruence.
Qed.

Lemma stmts_g_fills sv st ss : forall sc rl sc' ds,
  OKW sv sc st -> rl_stage rl = st -> (0 < st)%N ->
  stmts_g sc rl ss = Some (sc', ds) -> OKW sv sc' st /\ Forall2 (fills sv) ss ds.
Proof.
  induction ss as [|s ss IH]; intros sc rl sc' ds O E P H; cbn in H; [inv H; auto|].
  destruct (stmt_g sc (next_query rl) s) as [[sc1 d]|] eqn:HS; [|discriminate].
  destruct (stmts_g sc1 (next_query rl) ss) as [[sc2 ds2]|] eqn:HT; [|discriminate]. inv H.
  destruct (stmt_g_fills _ _ _ _ _ _ _ O (eq_refl : rl_stage (next_query rl) = _) P HS) as [O1 F1].
  destruct (IH _ _ _ _ O1 (eq_refl : rl_stage (next_query rl) = _) P HT) as [O2 F2].
  split; auto.
Qed.

Lemma flag_trx_fills sv ss ds : Forall2 (fills sv) ss ds -> Forall2 (fills sv) ss (flag_trx ds).
Proof.
  unfold flag_trx. generalize (length ds). intros L H.
  assert (X : forall n, Forall2 (fills sv) ss (mapi_from (fun i d => set_flags (Nat.eqb i 0) (Nat.eqb (S i) L) d) n ds)).
  { induction H as [|s d ss ds HS HF IH]; intros n; cbn; [constructor|]. constructor; [exact HS|apply IH]. }
  apply X.
Qed.

Lemma trxs_g_fills sv st ts trx : forall sc rl sc' ds,
  OKW sv sc st -> rl_stage rl = st -> (0 < st)%N ->
  trxs_g ts sc rl trx = Some (sc', ds) ->
  OKW sv sc' st /\ Forall2 (fills sv) (concat (map (ts_stmts ts) trx)) ds.
Proof.
  induction trx as [|t trx IH]; intros sc rl sc' ds O E P H; cbn in H; [inv H; split; [auto|constructor]|].
  destruct (stmts_g sc (next_trx rl) (ts_stmts ts t)) as [[sc1 d1]|] eqn:H1; [|discriminate].
  destruct (trxs_g ts sc1 (next_trx rl) trx) as [[sc2 d2]|] eqn:H2; [|discriminate]. inv H.
  destruct (stmts_g_fills _ _ _ _ _ _ _ O (eq_refl : rl_stage (next_trx rl) = _) P H1) as [O1 F1].
  destruct (IH _ _ _ _ O1 (eq_refl : rl_stage (next_trx rl) = _) P H2) as [O2 F2].
  split; auto. cbn. apply Forall2_app; [now apply flag_trx_fills|auto].
Qed.

Lemma walk_clients_fills sv st ts ws cg cp ep cq ct :
  (0 < st)%N -> Forall (fun t => ts_stmts ts t <> []) (cg_trx cg) ->
  forall todo k w rl w' rl' cs,
  walk_clients ts ws cg cp ep cq ct w rl k todo = Some (w', rl', cs) ->
  OKW sv (w_sc w) st -> rl_stage rl = st ->
  OKW sv (w_sc w') st /\ rl_stage rl' = st /\
  Forall (fun c => Forall2 (fills sv) (c_stmts c) (c_data c)) cs.
Proof.
  intros P NE. induction todo as [|todo IH]; intros k w rl w' rl' cs H O R; cbn [walk_clients] in H.
  - inv H. auto.
  - destruct (and_new w cq (cg_qps cg)) as [w1 qps] eqn:Q1.
    destruct (and_new w1 ct (cg_tps cg)) as [w2 tps] eqn:Q2.
    rewrite <- (and_new_sc _ _ _ _ _ Q1), <- (and_new_sc _ _ _ _ _ Q2) in O.
    pose proof (walk_trx_g ts (ws && negb (cg_disableStats cg)) (cg_trx cg) NE (w_sc w2)
      (RL (rl_stage rl) (rl_eg rl) (rl_cg rl) (k + 1) 0 (rl_query rl)) 0 []
      (repeat stmt_nil (count_stmts ts (cg_trx cg))) [] eq_refl eq_refl) as WT.
    rewrite repeat_length, count_stmts_eq in WT. specialize (WT eq_refl). cbn [app] in WT.
    cbn [rl_stage rl_eg rl_cg rl_client rl_trx rl_query] in H.
    rewrite count_stmts_eq in H. rewrite WT in H. clear WT.
    destruct (trxs_g ts (w_sc w2) (RL (rl_stage rl) (rl_eg rl) (rl_cg rl) (k + 1) 0 (rl_query rl)) (cg_trx cg))
      as [[sc3 dn]|] eqn:HT; [|discriminate].
    destruct (trxs_g_fills sv st ts (cg_trx cg) (w_sc w2) (RL (rl_stage rl) (rl_eg rl) (rl_cg rl) (k + 1) 0 (rl_query rl)) _ _ O R P HT) as [O3 F3].
    match type of H with
    | match walk_clients _ _ _ _ _ _ _ (WSt sc3 _) ?r _ _ with _ => _ end = _ => set (rl3 := r) in *
    end.
    assert (R3 : rl_stage rl3 = st). { subst rl3. destruct (rev (cg_trx cg)); cbn; auto. }
    clearbody rl3.
    destruct (walk_clients ts ws cg cp ep cq ct (WSt sc3 (w_next w2)) rl3 (k + 1) todo)
      as [[[w4 rl4] cs4]|] eqn:HC; [|discriminate].
    destruct (IH _ _ _ _ _ _ HC) as (O4 & R4 & F4); auto.
    inv H. auto.
Qed.

Lemma walk_cgs_fills sv st ts ws wl ep eq_ et :
  (0 < st)%N -> (forall r cg, nth_error wl r = Some cg -> Forall (fun t => ts_stmts ts t <> []) (cg_trx cg)) ->
  forall refs g w rl w' rl' css,
  walk_cgs ts ws wl ep eq_ et w rl g refs = Some (w', rl', css) ->
  OKW sv (w_sc w) st -> rl_stage rl = st ->
  OKW sv (w_sc w') st /\ rl_stage rl' = st /\
  Forall (Forall (fun c => Forall2 (fills sv) (c_stmts c) (c_data c))) css.
Proof.
  intros P HW. induction refs as [|r refs IH]; intros g w rl w' rl' css H O R; cbn [walk_cgs] in H.
  - inv H. auto.
  - destruct (nth_error wl r) as [cg|] eqn:HR; [|discriminate].
    destruct (and_new w eq_ (cg_qpsClients cg)) as [w1 qps] eqn:Q1.
    destruct (and_new w1 et (cg_tpsClients cg)) as [w2 tps] eqn:Q2.
    rewrite <- (and_new_sc _ _ _ _ _ Q1), <- (and_new_sc _ _ _ _ _ Q2) in O.
    destruct (walk_clients ts ws cg (w_next w2) ep qps tps (WSt (w_sc w2) (S (w_next w2)))
       (RL (rl_stage rl) (rl_eg rl) (N.of_nat (g + 1)) (rl_client rl) (rl_trx rl) (rl_query rl)) 0 (N.to_nat (cg_clients cg)))
       as [[[w4 rl4] cs]|] eqn:HC; [|discriminate].
    destruct (walk_cgs ts ws wl ep eq_ et w4 rl4 (S g) refs) as [[[w5 rl5] css5]|] eqn:HG; [|discriminate]. inv H.
    destruct (walk_clients_fills sv (rl_stage rl) _ _ _ _ _ _ _ P (HW _ _ HR) _ _ _ _ _ _ _ HC) as (O4 & R4 & F4); auto.
    destruct (IH _ _ _ _ _ _ HG) as (O5 & R5 & F5); auto.
Qed.

Lemma walk_egs_fills sv st ts ws wl sq stp :
  (0 < st)%N -> (forall r cg, nth_error wl r = Some cg -> Forall (fun t => ts_stmts ts t <> []) (cg_trx cg)) ->
  forall gs e w rl w' rl' out,
  walk_egs ts ws wl sq stp w rl e gs = Some (w', rl', out) ->
  OKW sv (w_sc w) st -> rl_stage rl = st ->
  OKW sv (w_sc w') st /\ rl_stage rl' = st /\
  Forall (Forall (Forall (fun c => Forall2 (fills sv) (c_stmts c) (c_data c)))) out.
Proof.
  intros P HW. induction gs as [|refs gs IH]; intros e w rl w' rl' out H O R; cbn [walk_egs] in H.
  - inv H. auto.
  - destruct refs as [|r0 refs]; [discriminate|].
    destruct (nth_error wl r0) as [cg0|] eqn:HR; [|discriminate].
    destruct (and_new w sq (cg_qpsExecGroup cg0)) as [w1 qps] eqn:Q1.
    destruct (and_new w1 stp (cg_tpsExecGroup cg0)) as [w2 tps] eqn:Q2.
    rewrite <- (and_new_sc _ _ _ _ _ Q1), <- (and_new_sc _ _ _ _ _ Q2) in O.
    destruct (walk_cgs ts ws wl (w_next w2) qps tps (WSt (w_sc w2) (S (w_next w2)))
       (RL (rl_stage rl) (N.of_nat (e + 1)) (rl_cg rl) (rl_client rl) (rl_trx rl) (rl_query rl)) 0 (r0 :: refs))
       as [[[w4 rl4] css]|] eqn:HC; [|discriminate].
    destruct (walk_egs ts ws wl sq stp w4 rl4 (S e) gs) as [[[w5 rl5] csss]|] eqn:HG; [|discriminate]. inv H.
    destruct (walk_cgs_fills sv (rl_stage rl) _ _ _ _ _ _ P HW _ _ _ _ _ _ _ HC) as (O4 & R4 & F4); auto.
    destruct (IH _ _ _ _ _ _ HG) as (O5 & R5 & F5); auto.
Qed.

Lemma prepare_stage_fills s ks n st nx w' out :
  RInv s ks n -> (n < sg_N st)%N ->
  (forall k ky, sg_keys st k = Some ky -> k_name ky = k) ->
  (forall wl gs cg t, groups (sg_ts st) (sg_wl st) = Some (wl, gs) ->
       In cg wl -> In t (cg_trx cg) -> ts_stmts (sg_ts st) t <> []) ->
  prepare_stage st (WSt s nx) = Some (w', out) ->
  Forall (Forall (Forall (fun c => Forall2 (fills (serves (stage_keys ks st))) (c_stmts c) (c_data c)))) out.
Proof.
  intros R LT NM NE H. unfold prepare_stage, allocate in H. cbn [w_sc w_next] in H.
  destruct (stage_start s ks n st R LT NM) as (I1 & NG1 & D1 & K1).
  set (s1 := load_keys (scopes_reset s) (sg_keys st)) in *.
  destruct (new_rate (WSt s1 nx) (sg_qps st)) as [w1 q] eqn:Q1.
  destruct (new_rate w1 (sg_tps st)) as [w2 t] eqn:Q2.
  assert (SC : w_sc w2 = s1).
  { unfold new_rate in *. destruct (sg_qps st =? 0)%N; inv Q1; destruct (sg_tps st =? 0)%N; inv Q2; reflexivity. }
  destruct (groups (sg_ts st) (sg_wl st)) as [[wl gs]|] eqn:HG; [|discriminate].
  unfold clients in H.
  destruct (walk_egs (sg_ts st) (sg_stats st) wl q t w2 (RL (sg_N st) 0 0 0 0 0) 0 gs) as [[[w3 rl3] o]|] eqn:HW; [|discriminate].
  inversion H; subst w3 o; clear H.
  apply (walk_egs_fills (serves (stage_keys ks st)) (sg_N st) _ _ _ _ _) in HW; [tauto|lia| | |reflexivity].
  - intros r cg X. apply Forall_forall. intros tt T. eapply NE; eauto. eapply nth_error_In; eauto.
  - rewrite SC. split.
    + constructor; auto.
      * apply (inv_name _ _ I1).
      * intros k ky X N Y. destruct (inv_key _ _ I1 k ky X N) as [_ Z]. now rewrite Y in Z.
    + intros k. apply serves_served. exact K1.
Qed.

Lemma prepare_all_fills sts : forall s ks n nx w' outs a out,
  RInv s ks n -> run_ok sts -> Forall (fun st => (n < sg_N st)%N) sts ->
  prepare_all sts (WSt s nx) = Some (w', outs) ->
  nth_error outs a = Some out ->
  Forall (Forall (Forall (fun c => Forall2 (fills (serves (keys_at ks sts a))) (c_stmts c) (c_data c)))) out.
Proof.
  induction sts as [|st sts IH]; intros s ks n nx w' outs a out R OK LT H A; cbn [prepare_all] in H.
  - inv H. destruct a; discriminate.
  - destruct (prepare_stage st (WSt s nx)) as [[w1 out1]|] eqn:H1; [|discriminate].
    destruct (prepare_all sts w1) as [[w2 outs2]|] eqn:H2; [|discriminate]. inv H.
    destruct OK as [INC OKS]. inversion OKS as [|? ? (P & NM & NE) OKS']; subst.
    inversion LT as [|? ? LT1 LT']; subst.
    destruct a as [|a]; cbn in A |- *.
    + inv A. eapply prepare_stage_fills; eauto.
    + destruct (stage_ok s ks n st nx w1 out1 R LT1 NM NE H1) as (R1 & _).
      destruct w1 as [s1 nx1]. cbn [w_sc] in *.
      eapply (IH s1 (stage_keys ks st) (sg_N st) nx1 w' outs2); eauto.
      { split; auto. intros a' b sa sb L A' B. apply (INC (S a') (S b) sa sb); auto. lia. }
      { apply Forall_forall. intros st' X. apply In_nth_error in X as [b X].
        apply (INC 0%nat (S b) st st'); auto. lia. }
Qed.

Lemma align_none sv ins : forall ps j key r,
  length ps = length (filter sv ins) ->
  nth_error (align sv ins ps) j = Some (key, r) -> (r = None <-> sv key = false).
Proof.
  induction ins as [|k ins IH]; intros ps j key r L H; cbn in *; [destruct j; discriminate|].
  destruct (sv k) eqn:SV.
  - destruct ps as [|p ps]; [discriminate|]. cbn in L.
    destruct j; cbn in H; [inv H; split; congruence|]. eapply IH; eauto.
  - destruct j; cbn in H; [inv H; tauto|]. eapply IH; eauto.
Qed.

Lemma fills_uses sv s d j key r :
  fills sv s d -> nth_error (uses_of sv s d) j = Some (key, r) ->
  (r = None <-> sv key = false \/
    (key = st_insertId s /\ (length (st_inputs s) <= j < length (st_inputs s) + length (st_outputs s))%nat)).
Proof.
  intros (A & B & C & D & E & F) H. unfold uses_of in H.
  assert (LA : length (align sv (st_inputs s) (map fst (d_inputs d))) = length (st_inputs s)).
  { rewrite <- (map_length fst). now rewrite align_fst. }
  destruct (Nat.lt_ge_cases j (length (st_inputs s))) as [J1|J1].
  { rewrite nth_error_app1 in H by lia. apply align_none in H; [|now rewrite map_length].
    rewrite H. split; [auto|]. intros [X|X]; auto. lia. }
  rewrite nth_error_app2 in H by lia. rewrite LA in H.
  set (n := (j - length (st_inputs s))%nat) in *.
  assert (NC : forall (l : list string) (l' : list (option nat)) m,
     nth_error (combine l l') m = match nth_error l m, nth_error l' m with Some a, Some b => Some (a, b) | _, _ => None end).
  { clear. induction l; intros l' m; [destruct m; auto|]. destruct l'; [destruct m; cbn; auto; destruct (nth_error l m); auto|].
    destruct m; cbn; auto. }
  assert (LC : length (combine (st_outputs s) (d_outputs d)) = length (st_outputs s)) by (rewrite combine_length; lia).
  destruct (Nat.lt_ge_cases n (length (st_outputs s))) as [J2|J2].
  { rewrite nth_error_app1 in H by lia. rewrite NC in H.
    destruct (nth_error (st_outputs s) n) as [k|] eqn:HK; [|discriminate].
    destruct (D _ _ HK) as (r' & R1 & R2). rewrite R1 in H. inv H. rewrite R2. split; [|tauto].
    intros [X|X]; auto. right; split; auto. lia. }
  rewrite nth_error_app2 in H by lia. rewrite LC in H.
  destruct (String.eqb_spec (st_insertId s) "") as [X|X].
  { destruct (n - length (st_outputs s))%nat; discriminate. }
  destruct (n - length (st_outputs s))%nat as [|m]; [|destruct m; discriminate]. cbn in H. inv H.
  split.
  - intros Y. apply E in Y. congruence.
  - intros [Y|[_ Y]]; [|lia]. rewrite F in Y; [discriminate|auto].
Qed.

Lemma every_key_served sts nx w' outs a out e g k c i s d :
  run_ok sts -> prepare_all sts (WSt scopes_new nx) = Some (w', outs) ->
  nth_error outs a = Some out -> client_at out e g k = Some c ->
  nth_error (c_stmts c) i = Some s -> nth_error (c_data c) i = Some d ->
  fills (serves (keys_at no_keys sts a)) s d.
Proof.
  intros OK H A C S D.
  assert (LT : Forall (fun st => (0 < sg_N st)%N) sts).
  { destruct OK as [_ F]. eapply Forall_impl; [|exact F]. cbn. tauto. }
  pose proof (prepare_all_fills sts _ _ _ _ _ _ _ _ RInv_new OK LT H A) as X.
  unfold client_at in C.
  destruct (nth_error out e) as [css|] eqn:E1; [|discriminate].
  destruct (nth_error css g) as [cs|] eqn:E2; [|discriminate].
  rewrite Forall_forall in X. specialize (X css (nth_error_In _ _ E1)).
  rewrite Forall_forall in X. specialize (X cs (nth_error_In _ _ E2)).
  rewrite Forall_forall in X. specialize (X c (nth_error_In _ _ C)).
  exact (Forall2_nth _ _ _ _ _ _ X S D).
Qed.
