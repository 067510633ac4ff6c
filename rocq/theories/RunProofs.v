(** Scope instances over a run of several stages. *)
From Coq Require Import Sorting.Sorted.
From Verif Require Import Prelude ListAux ScopeModel ScopeSpec ScopeProofs StmtModel WorkloadModel
  WorkloadSpec WalkProofs FlatProofs InstanceProofs.

Definition Dom (s : scopes) : Prop :=
  forall k, s_keys s k = None -> s_copyOf s k = None /\ s_copiedAt s k = rl_zero.
Definition Named (s : scopes) : Prop := forall k ky, s_keys s k = Some ky -> k_name ky = k.

Lemma copy_dom s k rl s' r : Named s -> Dom s -> scopes_copy s k rl = Some (s', r) -> Named s' /\ Dom s'.
Proof.
  intros NM D H. unfold scopes_copy in H.
  destruct (String.eqb k PREV); [inv H; auto|].
  destruct (s_keys s k) as [ky|] eqn:HK; [|discriminate].
  destruct (String.eqb (k_name ky) NOOP_COLUMN).
  { destruct (s_noop s); inv H; split; auto. }
  pose proof (NM _ _ HK) as E.
  cbn [s_copiedAt s_keys s_copyOf s_copyCount s_noop s_heap] in H. rewrite E in H.
  destruct (greater_than rl (s_copiedAt s k) (key_scope ky)); inversion H; subst s' r; clear H;
    split; intros k'; cbn; unfold supd;
    destruct (String.eqb_spec k k') as [<-|NE]; auto; try discriminate;
    intros ky0 X; inv X; reflexivity.
Qed.

Lemma copies_dom evs : forall s s' ps, Named s -> Dom s -> copies s evs = Some (s', ps) -> Named s' /\ Dom s'.
Proof.
  induction evs as [|[rl k] evs IH]; intros s s' ps NM D H; cbn in H; [inv H; auto|].
  destruct (scopes_copy s k rl) as [[s1 p]|] eqn:HC; [|discriminate].
  destruct (copies s1 evs) as [[s2 ps2]|] eqn:HR; [|discriminate]. inv H.
  destruct (copy_dom _ _ _ _ _ NM D HC). eauto.
Qed.

(** The state between two stages; [ks] are the keys of the last stage, [n] its number. *)
Record RInv (s : scopes) (ks : string -> option key) (n : N) : Prop := {
  r_inv : exists cur, rl_stage cur = n /\ Inv s cur;
  r_ng : NoGlobal s;
  r_dom : Dom s;
  r_ks : forall k, kscope s k = scope_in ks k }.

Lemma RInv_new : RInv scopes_new no_keys 0.
Proof.
  constructor.
  - exists rl_zero. split; auto. constructor; cbn; try discriminate;
      try (intros; destruct p; discriminate).
  - intros k. discriminate.
  - intros k _. auto.
  - reflexivity.
Qed.

Lemma kscope_scope_in s k : kscope s k = scope_in (s_keys s) k.
Proof. reflexivity. Qed.

Definition carries (o : option scope) : option scope :=
  match o with Some SStage => Some SStage | Some SGlobal => Some SGlobal | _ => None end.

Lemma kscope_reset s k : kscope (scopes_reset s) k = carries (kscope s k).
Proof.
  unfold kscope, scopes_reset; cbn. destruct (s_keys s k) as [ky|]; auto.
  unfold key_scope. destruct (k_scope ky) as [[]|] eqn:E; cbn; rewrite ?E; auto.
  destruct (String.eqb (k_gen ky) "column"); reflexivity.
Qed.

Lemma scope_in_carry ks k : scope_in (carry ks) k = carries (scope_in ks k).
Proof.
  unfold scope_in, carry. destruct (ks k) as [ky|]; auto.
  destruct (k_scope ky) as [[]|] eqn:E; rewrite ?E; auto.
  destruct (String.eqb (k_gen ky) "column"); reflexivity.
Qed.

Lemma kscope_load s ks st k :
  (forall k, kscope s k = scope_in ks k) ->
  kscope (load_keys (scopes_reset s) (sg_keys st)) k = scope_in (stage_keys ks st) k.
Proof.
  intros H.
  assert (A : kscope (load_keys (scopes_reset s) (sg_keys st)) k =
              match kscope (scopes_reset s) k with Some x => Some x | None => scope_in (sg_keys st) k end).
  { unfold kscope, load_keys; cbn. destruct (s_keys s k) as [ky|]; auto.
    destruct (k_scope ky) as [[]|]; reflexivity. }
  assert (B : scope_in (stage_keys ks st) k =
              match scope_in (carry ks) k with Some x => Some x | None => scope_in (sg_keys st) k end).
  { unfold scope_in, stage_keys. destruct (carry ks k); auto. }
  now rewrite A, B, kscope_reset, scope_in_carry, H.
Qed.

Lemma serves_served s ks : (forall k, kscope s k = scope_in ks k) -> forall k, served s k = serves ks k.
Proof. intros H k. unfold served, serves. now rewrite H. Qed.

Lemma stage_start s ks n st :
  RInv s ks n -> (n < sg_N st)%N ->
  (forall k ky, sg_keys st k = Some ky -> k_name ky = k) ->
  let s1 := load_keys (scopes_reset s) (sg_keys st) in
  Inv s1 (RL (sg_N st) 0 0 0 0 0) /\ NoGlobal s1 /\ Dom s1 /\
  (forall k, kscope s1 k = scope_in (stage_keys ks st) k).
Proof.
  intros [(cur & E & I) NG D K] LT NM s1.
  assert (KS := fun k => kscope_load s ks st k K). fold s1 in KS.
  destruct I as [I1 I2 I3 I4 I5].
  assert (OLD : forall k ky, s_keys s1 k = Some ky ->
      (s_keys s k = Some ky /\ s_copyOf s1 k = s_copyOf s k /\ s_copiedAt s1 k = s_copiedAt s k) \/
      (sg_keys st k = Some ky /\ s_copyOf s1 k = None /\ s_copiedAt s1 k = rl_zero)).
  { intros k ky. subst s1. unfold load_keys, scopes_reset; cbn.
    destruct (s_keys s k) as [ky0|] eqn:HK.
    - destruct (k_scope ky0) as [[]|]; intros X; try (now right; auto); left; inv X; auto.
    - intros X. right. destruct (D k HK). auto. }
  split; [constructor|split; [|split]].
  - intros k ky X. destruct (OLD k ky X) as [(A & _)|(A & _)]; eauto.
  - intros k ky X N. destruct (OLD k ky X) as [(A & B & C)|(A & B & C)]; rewrite B, C.
    + destruct (I2 k ky A N) as [P Q]. apply rl_le_stage in P.
      split; [left; unfold rl_lt; cbn; lia|].
      subst s1; cbn. destruct (s_copyOf s k); auto. cbn. lia.
    + split; [left; unfold rl_lt; cbn; lia|]. cbn. lia.
  - intros p X. subst s1. cbn in *. auto.
  - intros p i X NGi. subst s1. cbn in X |- *. destruct (I4 p i X NGi) as [A _]. split; [lia|]. lia.
  - intros p q i j. subst s1. cbn. apply I5.
  - intros k X. rewrite KS in X. subst s1. unfold load_keys, scopes_reset; cbn.
    destruct (s_keys s k) as [ky0|] eqn:HK.
    + destruct (k_scope ky0) as [[]|] eqn:E0; auto.
      * apply NG. unfold kscope. rewrite HK. unfold key_scope. now rewrite E0.
      * exfalso. rewrite <- KS in X. unfold kscope in X. cbn in X. rewrite HK, E0 in X.
        unfold key_scope in X. rewrite E0 in X. discriminate.
    + now destruct (D k HK).
  - intros k. subst s1. unfold load_keys, scopes_reset; cbn.
    destruct (s_keys s k) as [ky0|] eqn:HK.
    + destruct (k_scope ky0) as [[]|] eqn:E0; auto; discriminate.
    + intros _. exact (D k HK).
  - exact KS.
Qed.

Definition lensf_of (ts : trxset) (wl : list cgcfg) (gs : list (list nat)) (e g : nat) : list nat :=
  match cg_at wl gs e g with Some cg => trx_lens ts cg | None => [] end.

(** What a used generator looks like in a heap. *)
Definition good_ptr (heap : list sg_id) (ks : string -> option key) (rl : runlevel) (key : string) (p : nat) : Prop :=
  exists i sc, nth_error heap p = Some i /\ id_key i = key /\ id_scope i = sc /\
    scope_in ks key = Some sc /\ sc <> SGlobal /\ rl_stage (id_rl i) = rl_stage rl /\
    (sc <> SValue -> same_proj sc (id_rl i) rl).

Lemma good_ptr_mono heap l ks rl key p : good_ptr heap ks rl key p -> good_ptr (heap ++ l) ks rl key p.
Proof.
  intros (i & sc & A & B). exists i, sc. split; auto. now apply nth_error_app_some.
Qed.

(** One stage. *)
Lemma stage_ok s ks n st nx w' out :
  RInv s ks n -> (n < sg_N st)%N ->
  (forall k ky, sg_keys st k = Some ky -> k_name ky = k) ->
  (forall wl gs cg t, groups (sg_ts st) (sg_wl st) = Some (wl, gs) ->
       In cg wl -> In t (cg_trx cg) -> ts_stmts (sg_ts st) t <> []) ->
  prepare_stage st (WSt s nx) = Some (w', out) ->
  RInv (w_sc w') (stage_keys ks st) (sg_N st) /\
  (exists l, s_heap (w_sc w') = s_heap s ++ l) /\
  exists wl gs, groups (sg_ts st) (sg_wl st) = Some (wl, gs) /\
  let lensf := lensf_of (sg_ts st) wl gs in
  let sv := serves (stage_keys ks st) in
  (forall e g k i j key p c, client_at out e g k = Some c ->
     use_of_client sv c i j = Some (key, Some p) -> key <> NOOP_COLUMN ->
     good_ptr (s_heap (w_sc w')) (stage_keys ks st)
              (rl_of lensf (Place (sg_N st) e g k (block_index (lensf e g) i) i j)) key p) /\
  (forall e g k i j e' g' k' i' j' key p c c',
     client_at out e g k = Some c -> client_at out e' g' k' = Some c' ->
     use_of_client sv c i j = Some (key, Some p) -> use_of_client sv c' i' j' = Some (key, Some p) ->
     key <> NOOP_COLUMN -> scope_in (stage_keys ks st) key = Some SValue ->
     e = e' /\ g = g' /\ k = k' /\ i = i' /\ j = j') /\
  (forall e g k i j p c, client_at out e g k = Some c ->
     use_of_client sv c i j = Some (NOOP_COLUMN, Some p) ->
     exists x, nth_error (s_heap (w_sc w')) p = Some x /\ id_scope x = SGlobal).
Proof.
  intros R LT NM NE H. unfold prepare_stage, allocate in H. cbn [w_sc w_next] in H.
  destruct (stage_start s ks n st R LT NM) as (I1 & NG1 & D1 & K1).
  set (s1 := load_keys (scopes_reset s) (sg_keys st)) in *.
  destruct (new_rate (WSt s1 nx) (sg_qps st)) as [w1 q] eqn:Q1.
  destruct (new_rate w1 (sg_tps st)) as [w2 t] eqn:Q2.
  assert (SC : w_sc w2 = s1).
  { unfold new_rate in *. destruct (sg_qps st =? 0)%N; inv Q1; destruct (sg_tps st =? 0)%N; inv Q2; reflexivity. }
  destruct (groups (sg_ts st) (sg_wl st)) as [[wl gs]|] eqn:HG; [|discriminate].
  pose proof H as HCl.
  destruct (clients_of _ _ _ _ _ _ _ _ _ _ HCl) as [LO CO]; [intros; eapply NE; eauto|].
  unfold clients in H.
  destruct (walk_egs (sg_ts st) (sg_stats st) wl q t w2 (RL (sg_N st) 0 0 0 0 0) 0 gs) as [[[w3 rl3] o]|] eqn:HW; [|discriminate].
  inversion H; subst w3 o; clear H.
  set (lensf := lensf_of (sg_ts st) wl gs) in *. set (sv := serves (stage_keys ks st)) in *.
  assert (POS : (0 < sg_N st)%N) by lia.
  assert (OK0 : OKW sv (w_sc w2) (sg_N st)).
  { rewrite SC. split.
    - constructor; auto.
      + apply (inv_name _ _ I1).
      + intros k ky X N Y. destruct (inv_key _ _ I1 k ky X N) as [_ Z]. now rewrite Y in Z.
    - intros k. apply serves_served. exact K1. }
  destruct (walk_egs_flat sv (sg_N st) lensf POS (sg_ts st) (sg_stats st) wl q t gs 0%nat _ _ _ _ _ HW) as [OK1 CP]; auto.
  { intros e g cg X. cbn [plus]. split.
    - apply Forall_forall. intros tt T. eapply NE; eauto.
      unfold cg_at in X. destruct (nth_error gs e); [|discriminate]. destruct (nth_error l g); [|discriminate].
      eapply nth_error_In; eauto.
    - unfold lensf, lensf_of. now rewrite X. }
  rewrite SC in CP.
  assert (SORT : sorted_from (RL (sg_N st) 0 0 0 0 0) (map (ev lensf) (flat sv (sg_N st) lensf 0 out))).
  { apply (sorted_evs (sg_N st) lensf); auto.
    - apply flat_sorted.
    - intros x Hx. eapply flat_ok_place; eauto.
    - intros x Hx. destruct (flat_ok_place _ _ _ _ _ Hx) as [A _].
      left. unfold rl_lt, rl_of. cbn. rewrite A. lia. }
  destruct (copies_ok _ _ _ _ _ I1 NG1 POS SORT CP) as (cur' & ST & I2 & NG2 & HEAP & K2 & F2 & V2 & _).
  cbn in ST.
  destruct (copies_dom _ _ _ _ (inv_name _ _ I1) D1 CP) as [_ D2].
  assert (FLAT : forall e g k i j key r c, client_at out e g k = Some c ->
     use_of_client sv c i j = Some (key, Some r) ->
     exists n, nth_error (flat sv (sg_N st) lensf 0 out) n =
               Some (Place (sg_N st) e g k (block_index (lensf e g) i) i j, (key, Some r))).
  { intros e g k i j key r c HC HU. apply In_nth_error. eapply use_in_flat; eauto.
    intros i' ss d A B. pose proof HC as HC'. unfold client_at in HC'.
    destruct (nth_error out e) as [css|] eqn:E1; [|discriminate].
    destruct (nth_error css g) as [cs|] eqn:E2; [|discriminate].
    destruct (CO e css E1) as (refs & _ & _ & C2). destruct (C2 g cs E2) as (r0 & cg & _ & _ & _ & C3).
    destruct (C3 k c HC') as (_ & SH & _). exact (Forall2_nth _ _ _ _ _ _ SH A B). }
  split; [constructor; auto|].
  { exists cur'. auto. }
  { intros k. rewrite K2. apply K1. }
  split.
  { destruct HEAP as [l HL]. exists l. rewrite HL. reflexivity. }
  exists wl, gs. split; auto. cbn zeta. split; [|split].
  - intros e g k i j key p c HC HU NN.
    destruct (FLAT _ _ _ _ _ _ _ _ HC HU) as [m Hm].
    assert (A : nth_error (map (ev lensf) (flat sv (sg_N st) lensf 0 out)) m = Some (ev lensf (Place (sg_N st) e g k (block_index (lensf e g) i) i j, (key, Some p)))).
    { rewrite nth_error_map, Hm. reflexivity. }
    assert (B : nth_error (map ptr (flat sv (sg_N st) lensf 0 out)) m = Some (Some p)).
    { rewrite nth_error_map, Hm. reflexivity. }
    pose proof (Forall2_nth _ _ _ _ _ _ F2 A B) as GU. cbn [ev fst snd] in GU.
    unfold good_use in GU. destruct (served s1 key); [|discriminate].
    destruct GU as (p0 & i0 & X & Y & [[Z _]|(_ & sc & Z1 & Z2 & Z3 & Z4 & Z5 & Z6)]); [congruence|].
    inv X. exists i0, (id_scope i0). repeat (split; auto). now rewrite <- K1.
  - intros e g k i j e' g' k' i' j' key p c c' HC HC' HU HU' NN SV.
    destruct (FLAT _ _ _ _ _ _ _ _ HC HU) as [m Hm].
    destruct (FLAT _ _ _ _ _ _ _ _ HC' HU') as [m' Hm'].
    assert (m = m').
    { destruct (Nat.lt_trichotomy m m') as [L|[L|L]]; auto; exfalso.
      - assert (p < p)%nat; [|lia]. eapply (V2 m m' key); try eassumption.
        + rewrite nth_error_map, Hm. reflexivity.
        + rewrite nth_error_map, Hm'. reflexivity.
        + now rewrite K1.
        + rewrite nth_error_map, Hm. reflexivity.
        + rewrite nth_error_map, Hm'. reflexivity.
      - assert (p < p)%nat; [|lia]. eapply (V2 m' m key); try eassumption.
        + rewrite nth_error_map, Hm'. reflexivity.
        + rewrite nth_error_map, Hm. reflexivity.
        + now rewrite K1.
        + rewrite nth_error_map, Hm'. reflexivity.
        + rewrite nth_error_map, Hm. reflexivity. }
    subst m'. rewrite Hm in Hm'. inv Hm'. auto.
  - intros e g k i j p c HC HU.
    destruct (FLAT _ _ _ _ _ _ _ _ HC HU) as [m Hm].
    assert (A : nth_error (map (ev lensf) (flat sv (sg_N st) lensf 0 out)) m = Some (ev lensf (Place (sg_N st) e g k (block_index (lensf e g) i) i j, (NOOP_COLUMN, Some p)))).
    { rewrite nth_error_map, Hm. reflexivity. }
    assert (B : nth_error (map ptr (flat sv (sg_N st) lensf 0 out)) m = Some (Some p)).
    { rewrite nth_error_map, Hm. reflexivity. }
    pose proof (Forall2_nth _ _ _ _ _ _ F2 A B) as GU. cbn [ev fst snd] in GU.
    unfold good_use in GU. destruct (served s1 NOOP_COLUMN); [|discriminate].
    destruct GU as (p0 & i0 & X & Y & [[_ Z]|(Z & _)]); [|congruence]. inv X. eauto.
Qed.

(** All stages. *)
Definition used_from (prev : string -> option key) (sts : list stagecfg) (outs : list (list (list (list client))))
           (a : nat) (pl : place) (key : string) (p : nat) : Prop :=
  exists st out wl gs cg c,
    nth_error sts a = Some st /\ nth_error outs a = Some out /\
    groups (sg_ts st) (sg_wl st) = Some (wl, gs) /\
    cg_at wl gs (p_eg pl) (p_cg pl) = Some cg /\
    client_at out (p_eg pl) (p_cg pl) (p_client pl) = Some c /\
    p_stage pl = sg_N st /\
    p_trx pl = block_index (trx_lens (sg_ts st) cg) (p_stmt pl) /\
    use_of_client (serves (keys_at prev sts a)) c (p_stmt pl) (p_slot pl) = Some (key, Some p).

Definition stage_lensf (sts : list stagecfg) (a : nat) : nat -> nat -> list nat :=
  match nth_error sts a with
  | Some st => match groups (sg_ts st) (sg_wl st) with
               | Some (wl, gs) => lensf_of (sg_ts st) wl gs
               | None => fun _ _ => [] end
  | None => fun _ _ => []
  end.

Lemma place_eta pl : pl = Place (p_stage pl) (p_eg pl) (p_cg pl) (p_client pl) (p_trx pl) (p_stmt pl) (p_slot pl).
Proof. now destruct pl. Qed.

Lemma run_all sts : forall s ks n nx w' outs,
  RInv s ks n -> run_ok sts -> Forall (fun st => (n < sg_N st)%N) sts ->
  prepare_all sts (WSt s nx) = Some (w', outs) ->
  (exists cur, Inv (w_sc w') cur) /\
  (exists l, s_heap (w_sc w') = s_heap s ++ l) /\
  (forall a pl key p, used_from ks sts outs a pl key p -> key <> NOOP_COLUMN ->
     good_ptr (s_heap (w_sc w')) (keys_at ks sts a) (rl_of (stage_lensf sts a) pl) key p /\
     ok_place (p_stage pl) (stage_lensf sts a) pl) /\
  (forall a pl pl' key p, used_from ks sts outs a pl key p -> used_from ks sts outs a pl' key p ->
     key <> NOOP_COLUMN -> scope_in (keys_at ks sts a) key = Some SValue -> pl = pl') /\
  (forall a pl p, used_from ks sts outs a pl NOOP_COLUMN p ->
     exists x, nth_error (s_heap (w_sc w')) p = Some x /\ id_scope x = SGlobal).
Proof.
  induction sts as [|st sts IH]; intros s ks n nx w' outs R OK LT H; cbn [prepare_all] in H.
  - inv H. cbn. destruct R as [(cur & _ & I) _ _ _].
    split; [eauto|]. split; [exists []; now rewrite app_nil_r|].
    repeat split; intros; match goal with U : used_from _ _ _ _ _ _ _ |- _ => destruct U as (? & ? & ? & ? & ? & ? & X & _) end;
      destruct a; discriminate.
  - destruct (prepare_stage st (WSt s nx)) as [[w1 out]|] eqn:H1; [|discriminate].
    destruct (prepare_all sts w1) as [[w2 outs2]|] eqn:H2; [|discriminate]. inv H.
    destruct OK as [INC OKS]. inversion OKS as [|? ? (P & NM & NE) OKS']; subst.
    inversion LT as [|? ? LT1 LT']; subst.
    destruct (stage_ok s ks n st nx w1 out R LT1 NM NE H1) as (R1 & [l1 HL1] & wl & gs & HG & U1 & V1 & N1).
    destruct w1 as [s1 nx1]. cbn [w_sc] in *.
    destruct (IH s1 (stage_keys ks st) (sg_N st) nx1 w' outs2 R1) as (I2 & [l2 HL2] & U2 & V2 & N2); auto.
    { split; auto. intros a b sa sb L A B. apply (INC (S a) (S b) sa sb); auto. lia. }
    { apply Forall_forall. intros st' X. apply In_nth_error in X as [b X].
      apply (INC 0%nat (S b) st st'); auto. lia. }
    assert (USE0 : forall pl key p, used_from ks (st :: sts) (out :: outs2) 0 pl key p ->
      exists cg c, cg_at wl gs (p_eg pl) (p_cg pl) = Some cg /\
        client_at out (p_eg pl) (p_cg pl) (p_client pl) = Some c /\ p_stage pl = sg_N st /\
        p_trx pl = block_index (lensf_of (sg_ts st) wl gs (p_eg pl) (p_cg pl)) (p_stmt pl) /\
        use_of_client (serves (stage_keys ks st)) c (p_stmt pl) (p_slot pl) = Some (key, Some p)).
    { intros pl key p (st' & out' & wl' & gs' & cg & c & A1 & A2 & A3 & A4 & A5 & A6 & A7 & A8).
      cbn in A1, A2, A8. inv A1. inv A2. rewrite HG in A3. inv A3. exists cg, c.
      repeat (split; auto). unfold lensf_of. now rewrite A4. }
    split; auto. split; [exists (l1 ++ l2); now rewrite HL2, HL1, app_assoc|]. split; [|split].
    + intros [|a] pl key p U NN.
      * destruct (USE0 _ _ _ U) as (cg & c & B1 & B2 & B3 & B4 & B5).
        unfold stage_lensf. cbn [nth_error keys_at]. rewrite HG. split.
        -- rewrite HL2. apply good_ptr_mono.
           rewrite (place_eta pl), B3, B4. apply (U1 _ _ _ _ _ _ _ _ B2 B5 NN).
        -- split; auto.
      * apply (U2 a pl key p); auto.
    + intros [|a] pl pl' key p U U' NN SV.
      * destruct (USE0 _ _ _ U) as (cg & c & B1 & B2 & B3 & B4 & B5).
        destruct (USE0 _ _ _ U') as (cg' & c' & C1 & C2 & C3 & C4 & C5).
        destruct (V1 _ _ _ _ _ _ _ _ _ _ _ _ _ _ B2 C2 B5 C5 NN SV) as (X1 & X2 & X3 & X4 & X5).
        destruct pl, pl'; cbn in *. subst. reflexivity.
      * apply (V2 a pl pl' key p); auto.
    + intros [|a] pl p U.
      * destruct (USE0 _ _ _ U) as (cg & c & B1 & B2 & B3 & B4 & B5).
        destruct (N1 _ _ _ _ _ _ _ B2 B5) as (x & X & Y). exists x. split; auto. rewrite HL2. now apply nth_error_app_some.
      * apply (N2 a pl p); auto.
Qed.

Theorem one_generator_per_instance sts nx w' outs a b pl pl' key key' p p' :
  run_ok sts ->
  prepare_all sts (WSt scopes_new nx) = Some (w', outs) ->
  used_at sts outs a pl key p -> used_at sts outs b pl' key' p' ->
  key <> NOOP_COLUMN -> key' <> NOOP_COLUMN ->
  (p = p' <-> key = key' /\ exists s, scope_in (keys_at no_keys sts a) key = Some s /\ same_instance s pl pl').
Proof.
  intros OK H U U' NN NN'.
  assert (LT : Forall (fun st => (0 < sg_N st)%N) sts).
  { destruct OK as [_ F]. eapply Forall_impl; [|exact F]. cbn. tauto. }
  destruct (run_all sts _ _ _ _ _ _ RInv_new OK LT H) as ([cur I] & _ & G & V & _).
  destruct (G a pl key p U NN) as [(i & sc & A1 & A2 & A3 & A4 & A5 & A6 & A7) PL].
  destruct (G b pl' key' p' U' NN') as [(i' & sc' & B1 & B2 & B3 & B4 & B5 & B6 & B7) PL'].
  cbn in A6, B6.
  assert (SAME : p_stage pl = p_stage pl' -> a = b).
  { destruct U as (st & ? & ? & ? & ? & ? & C1 & _ & _ & _ & _ & C2 & _).
    destruct U' as (st' & ? & ? & ? & ? & ? & D1 & _ & _ & _ & _ & D2 & _).
    intros E. destruct OK as [INC _].
    destruct (Nat.lt_trichotomy a b) as [L|[L|L]]; auto.
    - pose proof (INC _ _ _ _ L C1 D1). lia.
    - pose proof (INC _ _ _ _ L D1 C1). lia. }
  split.
  - intros <-. rewrite A1 in B1. inv B1.
    split; auto. exists (id_scope i'). split; auto.
    assert (E : p_stage pl = p_stage pl') by congruence.
    pose proof (SAME E) as <-.
    destruct (scope_eqb (id_scope i') SValue) eqn:EV.
    + assert (SVE : id_scope i' = SValue) by (destruct (id_scope i'); cbn in EV; congruence).
      rewrite SVE in *. cbn. eapply (V a pl pl' (id_key i') p); eauto.
    + assert (NV : id_scope i' <> SValue) by (intros X; rewrite X in EV; discriminate).
      rewrite E in PL.
      apply (same_proj_instance (p_stage pl') (stage_lensf sts a)); auto.
      eapply same_proj_trans; [apply same_proj_sym; apply A7; auto|apply B7; auto].
  - intros (EK & s & SI & INST). rewrite A4 in SI. inversion SI; subst s; clear SI.
    rewrite <- A3 in A4, A5, A7, INST.
    assert (E : p_stage pl = p_stage pl').
    { destruct (id_scope i); cbn in INST; try tauto; try congruence. }
    pose proof (SAME E) as <-.
    rewrite <- EK in *. rewrite A4 in B4. inversion B4 as [EQSC]. rewrite <- B3 in EQSC.
    destruct (scope_eqb (id_scope i) SValue) eqn:EV.
    + assert (SVE : id_scope i = SValue) by (destruct (id_scope i); cbn in EV; congruence).
      rewrite SVE in INST. cbn in INST. subst pl'.
      destruct U as (st & ? & ? & ? & ? & ? & C1 & C2 & C3 & C4 & C5 & _ & _ & C6).
      destruct U' as (st' & ? & ? & ? & ? & ? & D1 & D2 & D3 & D4 & D5 & _ & _ & D6).
      congruence.
    + assert (NV : id_scope i <> SValue) by (intros X; rewrite X in EV; discriminate).
      destruct (Nat.lt_trichotomy p p') as [L|[L|L]]; auto; exfalso.
      * apply (inv_uniq _ _ I p p' i i' L A1 B1); [congruence|auto|congruence|].
        rewrite <- EQSC.
        rewrite E in PL.
        apply (same_proj_instance (p_stage pl') (stage_lensf sts a)) in INST; auto.
        eapply same_proj_trans; [apply A7; auto|]. eapply same_proj_trans; [exact INST|].
        apply same_proj_sym. rewrite EQSC, B3. apply B7. congruence.
      * apply (inv_uniq _ _ I p' p i' i L B1 A1); [congruence|congruence|auto|].
        rewrite E in PL.
        apply (same_proj_instance (p_stage pl') (stage_lensf sts a)) in INST; auto.
        apply same_proj_sym.
        eapply same_proj_trans; [apply A7; auto|]. eapply same_proj_trans; [exact INST|].
        apply same_proj_sym. rewrite EQSC, B3. apply B7. congruence.
Qed.
