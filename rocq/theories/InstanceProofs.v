(** One generator per scope instance. *)
From Coq Require Import Sorting.Sorted.
From Verif Require Import Prelude ListAux ScopeModel ScopeSpec ScopeProofs StmtModel WorkloadModel
  WorkloadSpec WalkProofs FlatProofs.

(** * Order of the places *)

Definition place_lt (a b : place) : Prop :=
  (p_eg a < p_eg b \/ p_eg a = p_eg b /\
  (p_cg a < p_cg b \/ p_cg a = p_cg b /\
  (p_client a < p_client b \/ p_client a = p_client b /\
  (p_stmt a < p_stmt b \/ p_stmt a = p_stmt b /\ p_slot a < p_slot b))))%nat.

Lemma SS_app {A} (R : A -> A -> Prop) l1 l2 :
  StronglySorted R l1 -> StronglySorted R l2 ->
  (forall x y, In x l1 -> In y l2 -> R x y) -> StronglySorted R (l1 ++ l2).
Proof.
  induction 1 as [|a l1 S IH F]; intros S2 C; cbn; auto.
  constructor; [apply IH; auto; intros; apply C; cbn; auto|].
  apply Forall_app. split; auto. apply Forall_forall. intros y Hy. apply C; cbn; auto.
Qed.

Lemma SS_concat_mapi {A B} (R : B -> B -> Prop) (f : nat -> A -> list B) l : forall n,
  (forall i a, nth_error l i = Some a -> StronglySorted R (f (n + i)%nat a)) ->
  (forall i i' a a' x y, (i < i')%nat -> In x (f (n + i)%nat a) -> In y (f (n + i')%nat a') -> R x y) ->
  StronglySorted R (concat (mapi_from f n l)).
Proof.
  induction l as [|a l IH]; intros n H1 H2; cbn; [constructor|].
  apply SS_app.
  - specialize (H1 0%nat a eq_refl). now rewrite Nat.add_0_r in H1.
  - apply IH.
    + intros i b Hb. specialize (H1 (S i) b Hb). now rewrite Nat.add_succ_comm in *.
    + intros i i' b b' x y Hi Hx Hy. apply (H2 (S i) (S i') b b' x y); [lia| |];
        now rewrite <- Nat.add_succ_comm.
  - intros x y Hx Hy. apply in_concat_mapi in Hy as (i & b & Hb & Hy).
    apply (H2 0%nat (S i) a b x y); [lia| |].
    + now rewrite Nat.add_0_r.
    + now rewrite <- Nat.add_succ_comm.
Qed.

Section Order.
  Context (sv : string -> bool) (st : N) (lensf : nat -> nat -> list nat).

  Definition lab_lt (a b : lab) := place_lt (fst a) (fst b).

  Lemma in_flat_stmt e g k lens i s d x :
    In x (flat_stmt sv st e g k lens i s d) ->
    exists j, fst x = Place st e g k (block_index lens i) i j.
  Proof.
    unfold flat_stmt. intros H. apply in_mapi_from in H as (j & kr & _ & ->). cbn. eauto.
  Qed.

  Lemma flat_stmt_sorted e g k lens i s d : StronglySorted lab_lt (flat_stmt sv st e g k lens i s d).
  Proof.
    unfold flat_stmt. generalize 0%nat. generalize (combine (stmt_keys s) (map snd (uses_of sv s d))).
    induction l as [|x l IH]; intros n; cbn; constructor; auto.
    apply Forall_forall. intros y Hy. apply in_mapi_from in Hy as (j & kr & _ & ->).
    unfold lab_lt, place_lt. cbn. lia.
  Qed.

  Lemma in_flat_client e g k lens c x :
    In x (flat_client sv st e g k lens c) ->
    exists i j, fst x = Place st e g k (block_index lens i) i j.
  Proof.
    unfold flat_client, flat_stmts. intros H. apply in_concat_mapi in H as (i & sd & _ & H).
    apply in_flat_stmt in H as [j H]. eauto.
  Qed.

  Lemma flat_client_sorted e g k lens c : StronglySorted lab_lt (flat_client sv st e g k lens c).
  Proof.
    unfold flat_client, flat_stmts. apply SS_concat_mapi.
    - intros. apply flat_stmt_sorted.
    - intros i i' a a' x y Hi Hx Hy. apply in_flat_stmt in Hx as [j Hx]. apply in_flat_stmt in Hy as [j' Hy].
      unfold lab_lt, place_lt. rewrite Hx, Hy. cbn. lia.
  Qed.

  Lemma in_flat_cg e g lens cs x :
    In x (flat_cg sv st e g lens 0 cs) ->
    exists k i j, fst x = Place st e g k (block_index lens i) i j.
  Proof.
    unfold flat_cg. intros H. apply in_concat_mapi in H as (k & c & _ & H).
    apply in_flat_client in H as (i & j & H). eauto.
  Qed.

  Lemma flat_cg_sorted e g lens cs : StronglySorted lab_lt (flat_cg sv st e g lens 0 cs).
  Proof.
    unfold flat_cg. apply SS_concat_mapi.
    - intros. apply flat_client_sorted.
    - intros i i' a a' x y Hi Hx Hy. apply in_flat_client in Hx as (? & j & Hx). apply in_flat_client in Hy as (? & j' & Hy).
      unfold lab_lt, place_lt. rewrite Hx, Hy. cbn. lia.
  Qed.

  Lemma in_flat_eg e css x :
    In x (flat_eg sv st lensf e 0 css) ->
    exists g k i j, fst x = Place st e g k (block_index (lensf e g) i) i j.
  Proof.
    unfold flat_eg. intros H. apply in_concat_mapi in H as (g & c & _ & H).
    apply in_flat_cg in H as (k & i & j & H). cbn in H. eauto.
  Qed.

  Lemma flat_eg_sorted e css : StronglySorted lab_lt (flat_eg sv st lensf e 0 css).
  Proof.
    unfold flat_eg. apply SS_concat_mapi.
    - intros. apply flat_cg_sorted.
    - intros i i' a a' x y Hi Hx Hy. apply in_flat_cg in Hx as (? & ? & j & Hx). apply in_flat_cg in Hy as (? & ? & j' & Hy).
      unfold lab_lt, place_lt. rewrite Hx, Hy. cbn. lia.
  Qed.

  Lemma in_flat out x :
    In x (flat sv st lensf 0 out) ->
    exists e g k i j, fst x = Place st e g k (block_index (lensf e g) i) i j.
  Proof.
    unfold flat. intros H. apply in_concat_mapi in H as (e & c & _ & H).
    apply in_flat_eg in H as (g & k & i & j & H). cbn in H. do 5 eexists. exact H.
  Qed.

  Lemma flat_sorted out : StronglySorted lab_lt (flat sv st lensf 0 out).
  Proof.
    unfold flat. apply SS_concat_mapi.
    - intros. apply flat_eg_sorted.
    - intros i i' a a' x y Hi Hx Hy. apply in_flat_eg in Hx as (? & ? & ? & j & Hx). apply in_flat_eg in Hy as (? & ? & ? & j' & Hy).
      unfold lab_lt, place_lt. rewrite Hx, Hy. cbn. lia.
  Qed.

  Lemma block_index_mono lens : forall i i', (i <= i')%nat -> (block_index lens i <= block_index lens i')%nat.
  Proof.
    induction lens as [|l lens IH]; intros i i' H; [reflexivity|].
    cbn [block_index]. destruct (Nat.ltb_spec i l), (Nat.ltb_spec i' l); try lia.
    apply le_n_S, IH. lia.
  Qed.
  Lemma block_start_le lens : forall i, (block_start lens (block_index lens i) <= i)%nat.
  Proof.
    unfold block_start. induction lens as [|l lens IH]; intros i; [cbn; lia|].
    cbn [block_index]. destruct (Nat.ltb_spec i l); [cbn; lia|].
    cbn [firstn]. change (list_sum (l :: firstn (block_index lens (i - l)) lens))
      with (l + list_sum (firstn (block_index lens (i - l)) lens))%nat.
    specialize (IH (i - l)%nat). lia.
  Qed.

  Definition ok_place (p : place) := p_stage p = st /\ p_trx p = block_index (lensf (p_eg p) (p_cg p)) (p_stmt p).

  Lemma rl_of_mono a b : ok_place a -> ok_place b -> place_lt a b -> rl_le (rl_of lensf a) (rl_of lensf b).
  Proof.
    destruct a as [sa e g k t i j], b as [sb e' g' k' t' i' j']. unfold ok_place, place_lt, rl_of, rl_le. cbn.
    intros [-> ->] [-> ->] L.
    destruct (Nat.lt_trichotomy e e') as [|[->|]]; [left; unfold rl_lt; cbn; lia| |lia].
    destruct (Nat.lt_trichotomy g g') as [|[->|]]; [left; unfold rl_lt; cbn; lia| |lia].
    destruct (Nat.lt_trichotomy k k') as [|[->|]]; [left; unfold rl_lt; cbn; lia| |lia].
    assert (Hi : (i <= i')%nat) by lia.
    pose proof (block_index_mono (lensf e' g') i i' Hi) as M.
    destruct (Nat.eq_dec i i') as [->|NE]; [right; reflexivity|].
    left. unfold rl_lt. cbn.
    pose proof (block_start_le (lensf e' g') i).
    pose proof (block_start_le (lensf e' g') i').
    set (x := block_index (lensf e' g') i) in *. set (y := block_index (lensf e' g') i') in *.
    clearbody x y. destruct (Nat.eq_dec x y) as [E|NE']; [subst y|]; lia.
  Qed.

  Lemma flat_ok_place out x : In x (flat sv st lensf 0 out) -> ok_place (fst x).
  Proof. intros H. apply in_flat in H as (e & g & k & i & j & ->). split; reflexivity. Qed.

  Lemma same_proj_instance s a b : s <> SValue -> s <> SGlobal -> ok_place a -> ok_place b ->
    same_proj s (rl_of lensf a) (rl_of lensf b) <-> same_instance s a b.
  Proof.
    destruct a as [sa e g k t i j], b as [sb e' g' k' t' i' j']. unfold ok_place, rl_of. cbn.
    intros NV NG [-> ->] [-> ->].
    pose proof (block_start_le (lensf e g) i).
    pose proof (block_start_le (lensf e' g') i').
    destruct s; try congruence; cbn; try lia;
      (split; [|intros (_ & -> & -> & -> & _ & ->); reflexivity];
       intros X; injection X as X1 X2 X3 X4 X5;
       assert (e = e') by lia; assert (g = g') by lia; subst e' g';
       assert (BE : block_index (lensf e g) i' = block_index (lensf e g) i) by lia;
       rewrite BE in H0, X5; lia).
  Qed.

  Lemma sorted_evs l : forall cur,
    StronglySorted lab_lt l -> (forall x, In x l -> ok_place (fst x)) ->
    rl_stage cur = st ->
    (forall x, In x l -> rl_le cur (rl_of lensf (fst x))) ->
    sorted_from cur (map (ev lensf) l).
  Proof.
    induction l as [|a l IH]; intros cur S P E L; cbn; auto.
    apply StronglySorted_inv in S as [S F].
    split; [apply L; cbn; auto|]. split.
    { destruct (P a (or_introl eq_refl)) as [X _]. cbn. now rewrite X. }
    apply IH; auto.
    - intros x Hx. apply P. cbn; auto.
    - destruct (P a (or_introl eq_refl)) as [X _]. cbn. exact X.
    - intros x Hx. rewrite Forall_forall in F. apply rl_of_mono; [apply P; cbn; auto|apply P; cbn; auto|apply F; auto].
  Qed.
End Order.

(** * From a client's slots to the flat list *)

Lemma use_in_flat sv st lensf out e g k i j key r c :
  client_at out e g k = Some c ->
  use_of_client sv c i j = Some (key, Some r) ->
  (forall i' s d, nth_error (c_stmts c) i' = Some s -> nth_error (c_data c) i' = Some d ->
       length (d_outputs d) = length (st_outputs s) /\
       (forall n, nth_error (st_outputs s) n = Some (st_insertId s) -> nth_error (d_outputs d) n = Some None)) ->
  In (Place st e g k (block_index (lensf e g) i) i j, (key, Some r)) (flat sv st lensf 0 out).
Proof.
  intros HC HU HO. unfold client_at in HC.
  destruct (nth_error out e) as [css|] eqn:H1; [|discriminate].
  destruct (nth_error css g) as [cs|] eqn:H2; [|discriminate].
  unfold flat. apply in_concat_mapi. exists e, css. split; auto.
  unfold flat_eg. apply in_concat_mapi. exists g, cs. split; auto.
  unfold flat_cg. apply in_concat_mapi. exists k, c. split; auto. cbn [plus].
  unfold use_of_client in HU.
  destruct (nth_error (c_stmts c) i) as [s|] eqn:H3; [|discriminate].
  destruct (nth_error (c_data c) i) as [d|] eqn:H4; [|discriminate].
  unfold flat_client, flat_stmts. apply in_concat_mapi. exists i, (s, d). split.
  { clear - H3 H4. revert i H3 H4. generalize (c_data c). generalize (c_stmts c).
    induction l as [|a l IH]; intros [|b l'] [|i] H3 H4; cbn in *; try discriminate; [congruence|auto]. }
  cbn [plus fst snd]. unfold flat_stmt. apply in_mapi_from. exists j, (key, Some r). split; auto.
  destruct (HO i s d H3 H4) as [LO IO].
  (* the masked keys agree with the slots that have a generator *)
  unfold stmt_keys, uses_of in *.
  assert (LA : length (align sv (st_inputs s) (map fst (d_inputs d))) = length (st_inputs s)).
  { rewrite <- (map_length fst). now rewrite align_fst. }
  rewrite !map_app.
  assert (CA : forall {A B} (a1 a2 : list A) (b1 b2 : list B), length a1 = length b1 ->
            combine (a1 ++ a2) (b1 ++ b2) = combine a1 b1 ++ combine a2 b2).
  { clear. induction a1; intros a2 [|b b1] b2 L; cbn in *; try discriminate; auto. f_equal; auto. }
  rewrite CA by (rewrite map_length; auto).
  rewrite CA by (rewrite !map_length, combine_length; lia).
  assert (CFS : forall {A B} (l : list (A * B)), combine (map fst l) (map snd l) = l).
  { clear. induction l as [|[a b] l IH]; cbn; congruence. }
  assert (E1 : combine (st_inputs s) (map snd (align sv (st_inputs s) (map fst (d_inputs d)))) =
               align sv (st_inputs s) (map fst (d_inputs d))).
  { rewrite <- (align_fst sv (st_inputs s) (map fst (d_inputs d))) at 1. apply CFS. }
  rewrite E1. clear E1.
  destruct (Nat.lt_ge_cases j (length (st_inputs s))) as [J1|J1].
  { rewrite nth_error_app1 in HU |- * by lia. exact HU. }
  rewrite nth_error_app2 in HU |- * by lia. rewrite LA in *.
  set (n := (j - length (st_inputs s))%nat) in *.
  rewrite map_snd_combine by lia.
  assert (LC : length (combine (st_outputs s) (d_outputs d)) = length (st_outputs s)) by (rewrite combine_length; lia).
  destruct (Nat.lt_ge_cases n (length (st_outputs s))) as [J2|J2].
  { rewrite nth_error_app1 in HU by lia.
    rewrite nth_error_app1 by (rewrite combine_length, map_length; lia).
    assert (NC : forall (l : list string) (l' : list (option nat)) m,
       nth_error (combine l l') m = match nth_error l m, nth_error l' m with Some a, Some b => Some (a, b) | _, _ => None end).
    { clear. induction l; intros l' m; [destruct m; auto|]. destruct l'; [destruct m; cbn; auto; destruct (nth_error l m); auto|].
      destruct m; cbn; auto. }
    rewrite NC in HU |- *. rewrite nth_error_map.
    destruct (nth_error (st_outputs s) n) as [kk|] eqn:HK; [|discriminate]. cbn.
    destruct (nth_error (d_outputs d) n) as [rr|] eqn:HR; [|discriminate]. inv HU.
    destruct (String.eqb_spec key (st_insertId s)) as [->|NE]; auto.
    rewrite (IO n HK) in HR. discriminate. }
  rewrite nth_error_app2 in HU by lia. rewrite LC in HU.
  rewrite nth_error_app2 by (rewrite combine_length, map_length; lia).
  rewrite combine_length, map_length, LO, Nat.min_id.
  destruct (String.eqb (st_insertId s) ""); [destruct (n - length (st_outputs s))%nat; discriminate|].
  cbn in *. exact HU.
Qed.

(** * The slots reserved for insert ids stay empty, and output lists have the right length *)

Lemma walk_outputs_shape rl iid outs : forall sc sc' l,
  walk_outputs sc rl outs iid = Some (sc', l) ->
  length l = length outs /\
  (forall n, nth_error outs n = Some iid -> nth_error l n = Some None).
Proof.
  induction outs as [|k outs IH]; intros sc sc' l H; cbn in H.
  - inv H. split; auto. intros [|n] X; discriminate.
  - destruct (String.eqb_spec k iid) as [->|NE].
    + destruct (walk_outputs sc rl outs iid) as [[sc2 l2]|] eqn:HR; [|discriminate]. inv H.
      destruct (IH _ _ _ HR) as [A B]. split; [cbn; lia|]. intros [|n] X; cbn in *; auto.
    + destruct (scopes_copy sc k rl) as [[sc1 p]|]; [|discriminate].
      destruct (walk_outputs sc1 rl outs iid) as [[sc2 l2]|] eqn:HR; [|discriminate]. inv H.
      destruct (IH _ _ _ HR) as [A B]. split; [cbn; lia|]. intros [|n] X; cbn in *; auto. congruence.
Qed.

Definition shape (s : stmt) (d : sdata) : Prop :=
  length (d_outputs d) = length (st_outputs s) /\
  (forall n, nth_error (st_outputs s) n = Some (st_insertId s) -> nth_error (d_outputs d) n = Some None).

Lemma stmts_g_shape ss : forall sc rl sc' ds,
  stmts_g sc rl ss = Some (sc', ds) -> Forall2 shape ss ds.
Proof.
  induction ss as [|s ss IH]; intros sc rl sc' ds H; cbn in H; [inv H; constructor|].
  destruct (stmt_g sc (next_query rl) s) as [[sc1 d]|] eqn:HS; [|discriminate].
  destruct (stmts_g sc1 (next_query rl) ss) as [[sc2 ds2]|] eqn:HT; [|discriminate]. inv H.
  constructor; eauto. unfold stmt_g in HS.
  destruct (walk_inputs sc (next_query rl) (st_inputs s) (st_calls s)) as [[sc3 ins]|]; [|discriminate].
  destruct (walk_outputs sc3 (next_query rl) (st_outputs s) (st_insertId s)) as [[sc4 outs]|] eqn:H2; [|discriminate].
  destruct (walk_insert_id sc4 (next_query rl) (st_insertId s)) as [[sc5 iid]|]; [|discriminate]. inv HS.
  apply walk_outputs_shape in H2. exact H2.
Qed.

Lemma flag_trx_shape ss ds : Forall2 shape ss ds -> Forall2 shape ss (flag_trx ds).
Proof.
  unfold flag_trx. generalize (length ds). intros L H.
  assert (X : forall n, Forall2 shape ss (mapi_from (fun i d => set_flags (Nat.eqb i 0) (Nat.eqb (S i) L) d) n ds)).
  { induction H as [|s d ss ds HS HF IH]; intros n; cbn; [constructor|]. constructor; [exact HS|apply IH]. }
  apply X.
Qed.

Lemma trxs_g_shape ts trx : forall sc rl sc' ds,
  trxs_g ts sc rl trx = Some (sc', ds) -> Forall2 shape (concat (map (ts_stmts ts) trx)) ds.
Proof.
  induction trx as [|t trx IH]; intros sc rl sc' ds H; cbn in H; [inv H; constructor|].
  destruct (stmts_g sc (next_trx rl) (ts_stmts ts t)) as [[sc1 d1]|] eqn:H1; [|discriminate].
  destruct (trxs_g ts sc1 (next_trx rl) trx) as [[sc2 d2]|] eqn:H2; [|discriminate]. inv H.
  cbn. apply Forall2_app; [apply flag_trx_shape; eapply stmts_g_shape; eauto|eauto].
Qed.

(** What every allocated client is made of. *)
Definition client_of (ts : trxset) (ws : bool) (stage : N) (e g k : nat) (cg : cgcfg) (c : client) : Prop :=
  c_stmts c = concat (map (ts_stmts ts) (cg_trx cg)) /\
  Forall2 shape (c_stmts c) (c_data c) /\
  (rl_stage (c_rl c), rl_eg (c_rl c), rl_cg (c_rl c), rl_client (c_rl c)) =
    (stage, N.of_nat (e + 1), N.of_nat (g + 1), N.of_nat (k + 1)) /\
  map (fun d => (d_begin d, d_end d)) (c_data c) =
    concat (map (fun t => mapi_from (fun i _ => (Nat.eqb i 0, Nat.eqb (S i) (length (ts_stmts ts t)))) 0 (ts_stmts ts t)) (cg_trx cg)) /\
  c_stats c = map (fun t => if ws && negb (cg_disableStats cg) then Some t else None) (cg_trx cg) /\
  c_iter c = cg_iter cg /\ c_defaultDb c = cg_db cg.

Lemma mapi_from_flags ss : forall n L (ds : list sdata), length ds = length ss ->
  map (fun d => (d_begin d, d_end d)) (mapi_from (fun i d => set_flags (Nat.eqb i 0) (Nat.eqb (S i) L) d) n ds) =
  mapi_from (fun i (_ : stmt) => (Nat.eqb i 0, Nat.eqb (S i) L)) n ss.
Proof.
  induction ss as [|s ss IH]; intros n L [|d ds] H; cbn in *; try discriminate; auto.
  f_equal. apply IH. lia.
Qed.

Lemma trxs_g_flags ts trx : forall sc rl sc' ds,
  trxs_g ts sc rl trx = Some (sc', ds) ->
  map (fun d => (d_begin d, d_end d)) ds =
  concat (map (fun t => mapi_from (fun i _ => (Nat.eqb i 0, Nat.eqb (S i) (length (ts_stmts ts t)))) 0 (ts_stmts ts t)) trx).
Proof.
  induction trx as [|t trx IH]; intros sc rl sc' ds H; cbn in H; [inv H; auto|].
  destruct (stmts_g sc (next_trx rl) (ts_stmts ts t)) as [[sc1 d1]|] eqn:H1; [|discriminate].
  destruct (trxs_g ts sc1 (next_trx rl) trx) as [[sc2 d2]|] eqn:H2; [|discriminate]. inv H.
  rewrite map_app, (IH _ _ _ _ H2). cbn. f_equal. unfold flag_trx.
  pose proof (stmts_g_length _ _ _ _ _ H1) as L. rewrite L. apply mapi_from_flags. auto.
Qed.

Lemma walk_clients_of ts ws cg cp ep cq ct e g :
  Forall (fun t => ts_stmts ts t <> []) (cg_trx cg) ->
  forall todo k w rl w' rl' cs,
  walk_clients ts ws cg cp ep cq ct w rl (N.of_nat k) todo = Some (w', rl', cs) ->
  rl_eg rl = N.of_nat (e + 1) -> rl_cg rl = N.of_nat (g + 1) ->
  length cs = todo /\
  rl_stage rl' = rl_stage rl /\ rl_eg rl' = rl_eg rl /\ rl_cg rl' = rl_cg rl /\
  (forall k' c, nth_error cs k' = Some c -> client_of ts ws (rl_stage rl) e g (k + k') cg c).
Proof.
  intros NE. induction todo as [|todo IH]; intros k w rl w' rl' cs H R2 R3; cbn [walk_clients] in H.
  - inv H. repeat split; auto; destruct k'; discriminate.
  - destruct (and_new w cq (cg_qps cg)) as [w1 qps] eqn:Q1.
    destruct (and_new w1 ct (cg_tps cg)) as [w2 tps] eqn:Q2.
    pose proof (walk_trx_g ts (ws && negb (cg_disableStats cg)) (cg_trx cg) NE (w_sc w2)
      (RL (rl_stage rl) (rl_eg rl) (rl_cg rl) (N.of_nat k + 1) 0 (rl_query rl)) 0 []
      (repeat stmt_nil (count_stmts ts (cg_trx cg))) [] eq_refl eq_refl) as WT.
    rewrite repeat_length, count_stmts_eq in WT. specialize (WT eq_refl). cbn [app] in WT.
    cbn [rl_stage rl_eg rl_cg rl_client rl_trx rl_query] in H.
    rewrite count_stmts_eq in H. rewrite WT in H. clear WT.
    destruct (trxs_g ts (w_sc w2) (RL (rl_stage rl) (rl_eg rl) (rl_cg rl) (N.of_nat k + 1) 0 (rl_query rl)) (cg_trx cg))
      as [[sc3 dn]|] eqn:HT; [|discriminate].
    match type of H with
    | match walk_clients _ _ _ _ _ _ _ (WSt sc3 _) ?r _ _ with _ => _ end = _ => set (rl3 := r) in *
    end.
    assert (R : rl_stage rl3 = rl_stage rl /\ rl_eg rl3 = rl_eg rl /\ rl_cg rl3 = rl_cg rl).
    { subst rl3. destruct (rev (cg_trx cg)); cbn; auto. }
    destruct R as (R4 & R5 & R6). clearbody rl3.
    assert (K1 : (N.of_nat k + 1)%N = N.of_nat (S k)) by lia.
    destruct (walk_clients ts ws cg cp ep cq ct (WSt sc3 (w_next w2)) rl3 (N.of_nat k + 1) todo)
      as [[[w4 rl4] cs4]|] eqn:HC; [|discriminate].
    rewrite K1 in HC.
    destruct (IH (S k) _ _ _ _ _ HC) as (L4 & R7 & R8 & R9 & C4); try congruence.
    inv H. split; auto. split; [congruence|]. split; [congruence|]. split; [congruence|].
    intros [|k'] c Hc.
    + cbn in Hc. inv Hc. rewrite Nat.add_0_r. unfold client_of. cbn.
      split; auto. split; [eapply trxs_g_shape; eauto|].
      split; [rewrite R2, R3; repeat f_equal; lia|].
      split; [eapply trxs_g_flags; eauto|]. auto.
    + cbn in Hc. replace (k + S k')%nat with (S k + k')%nat by lia. rewrite <- R4. auto.
Qed.

Lemma walk_cgs_of ts ws wl ep eq_ et e : forall refs g w rl w' rl' css,
  walk_cgs ts ws wl ep eq_ et w rl g refs = Some (w', rl', css) ->
  (forall r cg, In r refs -> nth_error wl r = Some cg -> Forall (fun t => ts_stmts ts t <> []) (cg_trx cg)) ->
  rl_eg rl = N.of_nat (e + 1) ->
  length css = length refs /\
  rl_stage rl' = rl_stage rl /\ rl_eg rl' = rl_eg rl /\
  (forall g' cs, nth_error css g' = Some cs ->
     exists r cg, nth_error refs g' = Some r /\ nth_error wl r = Some cg /\
       length cs = N.to_nat (cg_clients cg) /\
       (forall k c, nth_error cs k = Some c -> client_of ts ws (rl_stage rl) e (g + g') k cg c)).
Proof.
  induction refs as [|r refs IH]; intros g w rl w' rl' css H HW R2; cbn [walk_cgs] in H.
  - inv H. repeat split; auto. intros [|g'] cs X; discriminate.
  - destruct (nth_error wl r) as [cg|] eqn:HR; [|discriminate].
    destruct (and_new w eq_ (cg_qpsClients cg)) as [w1 qps] eqn:Q1.
    destruct (and_new w1 et (cg_tpsClients cg)) as [w2 tps] eqn:Q2.
    destruct (walk_clients ts ws cg (w_next w2) ep qps tps (WSt (w_sc w2) (S (w_next w2)))
       (RL (rl_stage rl) (rl_eg rl) (N.of_nat (g + 1)) (rl_client rl) (rl_trx rl) (rl_query rl)) 0 (N.to_nat (cg_clients cg)))
       as [[[w4 rl4] cs]|] eqn:HC; [|discriminate].
    destruct (walk_cgs ts ws wl ep eq_ et w4 rl4 (S g) refs) as [[[w5 rl5] css5]|] eqn:HG; [|discriminate]. inv H.
    assert (NE : Forall (fun t => ts_stmts ts t <> []) (cg_trx cg)) by (eapply HW; eauto; left; auto).
    destruct (walk_clients_of ts ws cg _ ep qps tps e g NE (N.to_nat (cg_clients cg)) 0%nat _ _ _ _ _ HC) as (L4 & R4 & R5 & R6 & C4); auto.
    cbn in R4, R5.
    destruct (IH (S g) w4 rl4 w' rl' css5 HG) as (L5 & R7 & R8 & C5); auto.
    { intros r' cg' A B. eapply HW; eauto. right; auto. }
    { congruence. }
    split; [cbn; lia|]. split; [congruence|]. split; [congruence|].
    intros [|g'] cs' X; cbn in X.
    + inv X. exists r, cg. rewrite Nat.add_0_r. cbn. auto.
    + destruct (C5 g' cs' X) as (r' & cg' & A & B & C & D). exists r', cg'. cbn. split; [auto|]. split; [auto|]. split; [auto|].
      intros k c Y. replace (g + S g')%nat with (S g + g')%nat by lia. rewrite <- R4. auto.
Qed.

Lemma walk_egs_of ts ws wl sq stp : forall gs e w rl w' rl' out,
  walk_egs ts ws wl sq stp w rl e gs = Some (w', rl', out) ->
  (forall r cg, nth_error wl r = Some cg -> Forall (fun t => ts_stmts ts t <> []) (cg_trx cg)) ->
  length out = length gs /\
  (forall e' css, nth_error out e' = Some css ->
     exists refs, nth_error gs e' = Some refs /\ length css = length refs /\
     (forall g cs, nth_error css g = Some cs ->
       exists r cg, nth_error refs g = Some r /\ nth_error wl r = Some cg /\
         length cs = N.to_nat (cg_clients cg) /\
         (forall k c, nth_error cs k = Some c -> client_of ts ws (rl_stage rl) (e + e') g k cg c))).
Proof.
  induction gs as [|refs gs IH]; intros e w rl w' rl' out H HW; cbn [walk_egs] in H.
  - inv H. split; auto. intros [|e'] css X; discriminate.
  - destruct refs as [|r0 refs]; [discriminate|].
    destruct (nth_error wl r0) as [cg0|] eqn:HR; [|discriminate].
    destruct (and_new w sq (cg_qpsExecGroup cg0)) as [w1 qps] eqn:Q1.
    destruct (and_new w1 stp (cg_tpsExecGroup cg0)) as [w2 tps] eqn:Q2.
    destruct (walk_cgs ts ws wl (w_next w2) qps tps (WSt (w_sc w2) (S (w_next w2)))
       (RL (rl_stage rl) (N.of_nat (e + 1)) (rl_cg rl) (rl_client rl) (rl_trx rl) (rl_query rl)) 0 (r0 :: refs))
       as [[[w4 rl4] css]|] eqn:HC; [|discriminate].
    destruct (walk_egs ts ws wl sq stp w4 rl4 (S e) gs) as [[[w5 rl5] csss]|] eqn:HG; [|discriminate]. inv H.
    destruct (walk_cgs_of ts ws wl _ qps tps e (r0 :: refs) 0%nat _ _ _ _ _ HC) as (L4 & R4 & R5 & C4); eauto.
    cbn in R4.
    destruct (IH (S e) w4 rl4 w' rl' csss HG HW) as (L5 & C5).
    split; [cbn; lia|].
    intros [|e'] css' X; cbn in X.
    + inv X. exists (r0 :: refs). split; auto. split; auto. rewrite Nat.add_0_r. exact C4.
    + destruct (C5 e' css' X) as (refs' & A & B & C). exists refs'. split; auto. split; auto.
      intros g cs Y. destruct (C g cs Y) as (r & cg & D1 & D2 & D3 & D4). exists r, cg. split; [auto|]. split; [auto|]. split; [auto|].
      intros k c Z. replace (e + S e')%nat with (S e + e')%nat by lia. rewrite <- R4. apply D4; auto.
Qed.

(** The allocation of one stage, client by client. *)
Lemma clients_of ts ws stage wl sq stp gs w w' out :
  clients ts ws stage wl sq stp gs w = Some (w', out) ->
  (forall cg t, In cg wl -> In t (cg_trx cg) -> ts_stmts ts t <> []) ->
  length out = length gs /\
  (forall e css, nth_error out e = Some css ->
     exists refs, nth_error gs e = Some refs /\ length css = length refs /\
     (forall g cs, nth_error css g = Some cs ->
       exists r cg, nth_error refs g = Some r /\ nth_error wl r = Some cg /\
         length cs = N.to_nat (cg_clients cg) /\
         (forall k c, nth_error cs k = Some c -> client_of ts ws stage e g k cg c))).
Proof.
  unfold clients. intros H NE.
  destruct (walk_egs ts ws wl sq stp w (RL stage 0 0 0 0 0) 0 gs) as [[[w1 rl1] o]|] eqn:HW; [|discriminate]. inv H.
  destruct (walk_egs_of _ _ _ _ _ _ _ _ _ _ _ _ HW) as [A B].
  - intros r cg X. apply Forall_forall. intros t T. eapply NE; eauto. eapply nth_error_In; eauto.
  - split; auto.
Qed.
