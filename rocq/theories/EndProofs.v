(** From data keys to the values of executions. *)
From Verif Require Import Prelude ListAux ScopeModel ScopeSpec StmtModel WorkloadModel WorkloadSpec ScopeProofs RunProofs ServedProofs
  ClientModel ClientSpec ClientProps ValueModel ValueSpec ValueProofs ValueCallProofs ValueProps EndSpec.
From Verif Require PipeRunProofs.
#[local] Open Scope list_scope.

(** * Slots and inputs *)

Lemma slot_input sv ins : forall calls (dins : list (nat * bool)) j key,
  map snd dins = map snd (filter (fun kc => sv (fst kc)) (combine ins calls)) -> length dins = length (filter sv ins) ->
  nth_error ins j = Some key -> sv key = true ->
  exists p ex, nth_error dins (length (filter sv (firstn j ins))) = Some (p, ex) /\
    nth_error (align sv ins (map fst dins)) j = Some (key, Some p) /\ nth_error calls j = Some ex.
Proof.
  induction ins as [|k ins IH]; intros calls dins j key M L N S; [destruct j; discriminate|]. cbn [filter align] in *.
  destruct (sv k) eqn:SK.
  - destruct dins as [|[p ex] dins]; [discriminate|]. destruct calls as [|c calls]; [discriminate|].
    cbn [combine filter fst] in M. rewrite SK in M. cbn [map snd] in M. injection M as -> M. cbn [List.length] in L. injection L as L.
    destruct j as [|j].
    + cbn in N. injection N as ->. exists p, c. cbn. auto.
    + cbn [nth_error] in N. destruct (IH calls dins j key M L N S) as (p' & ex' & A & B & C). exists p', ex'.
      cbn [firstn filter]. rewrite SK. cbn [List.length nth_error map fst]. auto.
  - destruct j as [|j]; [cbn in N; congruence|]. cbn [nth_error] in N.
    destruct calls as [|c calls].
    + exfalso. cbn [combine filter map] in M. apply map_eq_nil in M. subst dins. cbn in L.
      assert (I : In key (filter sv ins)) by (apply filter_In; split; [eapply nth_error_In; eauto|exact S]).
      destruct (filter sv ins); [destruct I|discriminate].
    + cbn [combine filter fst] in M. rewrite SK in M. destruct (IH calls dins j key M L N S) as (p' & ex' & A & B & C). exists p', ex'.
      cbn [firstn filter]. rewrite SK. cbn [nth_error]. auto.
Qed.

Lemma input_slot sv ins : forall calls (dins : list (nat * bool)) p ex,
  map snd dins = map snd (filter (fun kc => sv (fst kc)) (combine ins calls)) -> length dins = length (filter sv ins) ->
  In (p, ex) dins ->
  exists j key, nth_error (align sv ins (map fst dins)) j = Some (key, Some p) /\ nth_error ins j = Some key /\ nth_error calls j = Some ex.
Proof.
  induction ins as [|k ins IH]; intros calls dins p ex M L I; cbn [filter align] in *.
  - destruct dins; [destruct I|discriminate].
  - destruct (sv k) eqn:SK.
    + destruct dins as [|[p0 ex0] dins]; [discriminate|]. destruct calls as [|c calls]; [discriminate|].
      cbn [combine filter fst] in M. rewrite SK in M. cbn [map snd] in M. injection M as -> M. cbn [List.length] in L. injection L as L.
      destruct I as [I|I].
      * injection I as -> ->. exists 0%nat, k. cbn. auto.
      * destruct (IH calls dins p ex M L I) as (j & key & A & B & C). exists (S j), key. auto.
    + destruct calls as [|c calls].
      * cbn [combine filter map] in M. apply map_eq_nil in M. subst dins. destruct I.
      * cbn [combine filter fst] in M. rewrite SK in M. destruct (IH calls dins p ex M L I) as (j & key & A & B & C). exists (S j), key. auto.
Qed.

(** * Placeholders *)

Definition plain (k : string) : bool := negb (String.eqb k PREV).

Lemma placed_prevs {V} ins : forall (vs : list (list V)) cur, length cur = fst (arities ins) ->
  firstn (prevs ins) (placed ins vs cur) = map Some cur.
Proof.
  induction ins as [|k ins IH]; intros vs cur L; cbn [arities prevs placed] in *.
  - destruct cur; [reflexivity|discriminate].
  - destruct (arities ins) as [n l] eqn:E. destruct (String.eqb k PREV).
    + cbn [fst] in L. destruct cur as [|x cur]; [discriminate|]. cbn [firstn map]. f_equal. apply IH. cbn [fst]. cbn in L. lia.
    + cbn [fst] in L. destruct cur; [reflexivity|discriminate].
Qed.

Lemma placed_slot {V} ins : forall (vs : list (list V)) cur j key,
  length cur = fst (arities ins) -> map (@List.length V) vs = snd (arities ins) ->
  nth_error ins j = Some key -> key <> PREV ->
  exists v, nth_error vs (length (filter plain (firstn j ins))) = Some v /\
    firstn (S (prevs (skipn (S j) ins))) (skipn j (placed ins vs cur)) = map Some v.
Proof.
  induction ins as [|k ins IH]; intros vs cur j key L M N NP; [destruct j; discriminate|]. cbn [arities placed] in *.
  destruct (arities ins) as [n l] eqn:E. cbn [fst snd] in *. destruct (String.eqb_spec k PREV) as [KP|KP].
  - cbn [fst snd] in *. destruct j as [|j]; [cbn in N; congruence|]. cbn [nth_error] in N.
    destruct cur as [|x cur]; [discriminate|]. cbn in L.
    destruct (IH vs cur j key) as (v & A & B); auto. exists v. cbn [firstn filter skipn]. unfold plain at 1. rewrite KP, String.eqb_refl. cbn [negb]. auto.
  - cbn [fst snd] in *. destruct vs as [|v vs]; [discriminate|]. cbn [map] in M. injection M as M1 M2.
    destruct v as [|x v]; [discriminate|]. cbn in M1. destruct j as [|j].
    + exists (x :: v). cbn [firstn filter List.length nth_error skipn map]. split; [reflexivity|]. f_equal.
      apply placed_prevs. rewrite E. cbn. lia.
    + cbn [nth_error] in N. destruct (IH vs v j key) as (v' & A & B); auto; try lia. exists v'. cbn [firstn filter skipn]. unfold plain at 1.
      destruct (String.eqb_spec k PREV); [congruence|]. cbn [negb List.length nth_error]. auto.
Qed.

(** * Generators of a client *)

Section Client.
  Context (sts : list stagecfg) (nx : nat) (w' : wst) (outs : list (list (list (list client)))).
  Hypothesis OK : run_ok sts.
  Hypothesis PR : prepare_all sts (WSt scopes_new nx) = Some (w', outs).
  Context (a e g k : nat) (n : N) (c : client) (lens : list nat).
  Hypothesis CL : client_of sts outs a e g k n c lens.
  Notation ks := (keys_at no_keys sts a).
  Notation sv := (serves ks).

  Lemma stages_positive : Forall (fun st => (0 < sg_N st)%N) sts.
  Proof. destruct OK as [_ F]. eapply Forall_impl; [|exact F]. cbn. tauto. Qed.

  Lemma client_has_trx : has_trx c lens.
  Proof.
    destruct CL as (st & out & wl & gs & cg & A1 & A2 & A3 & A4 & A5 & A6 & A7). subst lens.
    destruct (PipeRunProofs.prepare_nth _ _ _ _ _ _ PR A1) as (w1 & w2 & out' & B1 & B2). rewrite A2 in B1. injection B1 as <-.
    refine (proj1 (C30_clients_have_trx _ _ _ _ _ _ _ _ _ _ _ _ _ _ _ _ B2 A3 _ A5 A4)).
    destruct OK as [_ F]. rewrite Forall_forall in F. destruct (F st (nth_error_In _ _ A1)) as (_ & _ & NE).
    intros cg0 t I1 I2. exact (NE _ _ _ _ A3 I1 I2).
  Qed.

  Lemma client_fills i s d : nth_error (c_stmts c) i = Some s -> nth_error (c_data c) i = Some d -> fills sv s d.
  Proof.
    intros S D. destruct CL as (st & out & wl & gs & cg & A1 & A2 & A3 & A4 & A5 & A6 & A7).
    exact (every_key_served _ _ _ _ _ _ _ _ _ _ _ _ _ OK PR A2 A5 S D).
  Qed.

  (** The place of slot [j] of statement [i]. *)
  #[local] Notation place_of := (place_of e g k n lens).
  Lemma client_used i s d j key p : nth_error (c_stmts c) i = Some s -> nth_error (c_data c) i = Some d ->
    nth_error (uses_of sv s d) j = Some (key, Some p) -> used_at sts outs a (place_of i j) key p.
  Proof.
    intros S D U. destruct CL as (st & out & wl & gs & cg & A1 & A2 & A3 & A4 & A5 & A6 & A7).
    exists st, out, wl, gs, cg, c. cbn. rewrite <- A7. repeat (split; [assumption || reflexivity|]). unfold use_of_client. now rewrite S, D.
  Qed.

  Lemma used_scope a' pl key p : used_at sts outs a' pl key p -> key <> NOOP_COLUMN -> scope_in (keys_at no_keys sts a') key = Some (scope_of w' p).
  Proof.
    intros U N. destruct (run_all sts _ _ _ _ _ _ RInv_new OK stages_positive PR) as (_ & _ & G & _).
    destruct (G a' pl key p U N) as [(i & sc & A1 & A2 & A3 & A4 & _) _]. unfold scope_of. rewrite A1. congruence.
  Qed.
  Lemma used_heap a' pl key p : used_at sts outs a' pl key p -> key <> NOOP_COLUMN -> exists i, nth_error (s_heap (w_sc w')) p = Some i /\ id_key i = key.
  Proof.
    intros U N. destruct (run_all sts _ _ _ _ _ _ RInv_new OK stages_positive PR) as (_ & _ & G & _).
    destruct (G a' pl key p U N) as [(i & sc & A1 & A2 & _) _]. eauto.
  Qed.
  Lemma noop_scope a' pl p : used_at sts outs a' pl NOOP_COLUMN p -> scope_of w' p = SGlobal.
  Proof.
    intros U. destruct (run_all sts _ _ _ _ _ _ RInv_new OK stages_positive PR) as (_ & _ & _ & _ & N).
    destruct (N a' pl p U) as (x & A & B). unfold scope_of. now rewrite A.
  Qed.

  (** A generator of single client scope serves one key. *)
  Lemma one_key a1 a2 pl pl' key key' p : used_at sts outs a1 pl key p -> used_at sts outs a2 pl' key' p -> key <> NOOP_COLUMN ->
    single_client (scope_of w' p) ->
    key' <> NOOP_COLUMN /\ key' = key /\ same_instance (scope_of w' p) pl pl'.
  Proof.
    intros U U' N S.
    assert (N' : key' <> NOOP_COLUMN).
    { intros ->. apply noop_scope in U'. rewrite U' in S. destruct S as [S|[S|[S|S]]]; discriminate. }
    split; [exact N'|]. destruct (one_generator_per_instance sts nx w' outs a1 a2 pl pl' key key' p p OK PR U U' N N') as [X _].
    destruct (X eq_refl) as [E (s & S1 & S2)]. split; [congruence|]. rewrite (used_scope _ _ _ _ U N) in S1. congruence.
  Qed.

  Lemma single_own p : single_client (scope_of w' p) -> own_of w' p = true.
  Proof. unfold own_of. intros [->|[->|[->| ->]]]; reflexivity. Qed.

  Lemma saves_slot i s d p : nth_error (c_stmts c) i = Some s -> nth_error (c_data c) i = Some d -> scans_into s d p ->
    exists j key', nth_error (uses_of sv s d) j = Some (key', Some p) /\ (In key' (st_outputs s) \/ key' = st_insertId s).
  Proof.
    intros S D I. rewrite <- save_ptrs_ok in I.
    destruct (client_fills i s d S D) as (F1 & F2 & F3 & F4 & F5 & F6). unfold save_ptrs in I. unfold uses_of.
    assert (IO : forall q, In q (somes (d_outputs d)) -> exists m key', nth_error (combine (st_outputs s) (d_outputs d)) m = Some (key', Some q) /\ In key' (st_outputs s)).
    { intros q Q. apply in_flat_map in Q as (o & O1 & O2). destruct o as [x|]; [|destruct O2]. destruct O2 as [->|[]].
      apply In_nth_error in O1 as [m O1]. assert (LT : (m < length (d_outputs d))%nat) by (apply nth_error_Some; congruence).
      destruct (nth_error (st_outputs s) m) as [key'|] eqn:EO; [|apply nth_error_None in EO; lia].
      exists m, key'. split; [|eapply nth_error_In; eauto]. clear - O1 EO. revert O1 EO. generalize (d_outputs d) (st_outputs s). clear. revert m.
      induction m as [|m IH]; intros [|b bs] [|a0 as0] O1 EO; try discriminate; cbn in *; [congruence|auto]. }
    destruct (st_resultset s).
    - destruct (IO _ I) as (m & key' & E & J). exists (length (align sv (st_inputs s) (map fst (d_inputs d))) + m)%nat, key'.
      split; [|auto]. rewrite nth_error_app2, Nat.add_comm, Nat.add_sub by lia. rewrite nth_error_app1; [exact E|]. apply nth_error_Some. congruence.
    - destruct (d_insertId d) as [q|] eqn:EI; cbn in I; [|destruct I]. destruct I as [->|[]].
      assert (NE : st_insertId s <> ""%string) by (intros X; apply F5 in X; congruence).
      destruct (String.eqb_spec (st_insertId s) "") as [X|_]; [congruence|].
      exists (length (align sv (st_inputs s) (map fst (d_inputs d)) ++ combine (st_outputs s) (d_outputs d)))%nat, (st_insertId s).
      split; [|auto]. rewrite app_assoc, nth_error_app2, Nat.sub_diag by lia. reflexivity.
  Qed.

  Lemma inputs_slot i d p ex : nth_error (c_data c) i = Some d -> In (p, ex) (d_inputs d) ->
    exists s j key', nth_error (c_stmts c) i = Some s /\ nth_error (st_inputs s) j = Some key' /\ nth_error (st_calls s) j = Some ex /\
      used_at sts outs a (place_of i j) key' p.
  Proof.
    intros D I.
    assert (LS : exists s, nth_error (c_stmts c) i = Some s).
    { destruct client_has_trx as (_ & L & M & _). apply (f_equal (@List.length _)) in M. rewrite map_length in M.
      assert (LT : (i < length (c_data c))%nat) by (apply nth_error_Some; congruence).
      destruct (nth_error (c_stmts c) i) eqn:E; [eauto|]. apply nth_error_None in E. exfalso. rewrite L in E. rewrite M in LT.
      assert (LM : length (marks lens) = list_sum lens).
      { clear. unfold marks. induction lens as [|x l IH]; [reflexivity|]. cbn [map concat]. rewrite app_length, map_length, seq_length, IH. reflexivity. }
      lia. }
    destruct LS as [s S]. destruct (client_fills i s d S D) as (F1 & F2 & _).
    destruct (input_slot sv _ _ _ _ _ F1 F2 I) as (j & key' & A & B & C).
    assert (U' : used_at sts outs a (place_of i j) key' p).
    { eapply client_used; eauto. unfold uses_of. rewrite nth_error_app1; [exact A|]. apply nth_error_Some. congruence. }
    exists s, j, key'. auto.
  Qed.

  Section Key.
    Context (key : string) (sc : scope).
    Hypothesis NN : key <> NOOP_COLUMN.
    Hypothesis NP : key <> PREV.
    Hypothesis SC : scope_in ks key = Some sc.
    Hypothesis SG : single_client sc.

    Lemma key_served : sv key = true.
    Proof using NP SC SG.
      unfold serves. destruct (String.eqb_spec key PREV) as [E|_]; [congruence|]. rewrite SC. cbn.
      destruct SG as [->|[->|[->| ->]]]; apply orb_true_r.
    Qed.

    (** The input for slot [j]. *)
    Lemma key_input i s d j : nth_error (c_stmts c) i = Some s -> nth_error (c_data c) i = Some d -> nth_error (st_inputs s) j = Some key ->
      exists p ex, nth_error (d_inputs d) (length (filter sv (firstn j (st_inputs s)))) = Some (p, ex) /\
        used_at sts outs a (place_of i j) key p /\ nth_error (st_calls s) j = Some ex /\ scope_of w' p = sc.
    Proof using OK PR CL NN NP SC SG.
      intros S D J. destruct (client_fills i s d S D) as (F1 & F2 & _).
      destruct (slot_input sv _ _ _ _ _ F1 F2 J key_served) as (p & ex & A & B & C). exists p, ex.
      assert (U : used_at sts outs a (place_of i j) key p).
      { eapply client_used; eauto. unfold uses_of. rewrite nth_error_app1; [exact B|]. apply nth_error_Some. congruence. }
      split; [exact A|]. split; [exact U|]. split; [exact C|]. apply used_scope in U; auto. congruence.
    Qed.

    Lemma key_not_saved pl p : used_at sts outs a pl key p -> never_saved c key -> forall i, ~ saves_at c i p.
    Proof using OK PR CL NN NP SC SG.
      intros U NS i (s & d & S & D & I). assert (SCO : scope_of w' p = sc) by (apply used_scope in U; auto; congruence).
      destruct (saves_slot _ _ _ _ S D I) as (j & key' & X & W). pose proof (client_used _ _ _ _ _ _ S D X) as U'. rewrite <- SCO in SG.
      destruct (one_key _ _ _ _ _ _ _ U U' NN SG) as (_ & -> & _). destruct (NS s (nth_error_In _ _ S)) as [A B]. destruct W; [auto|congruence].
    Qed.

    Lemma key_not_called pl p : used_at sts outs a pl key p -> never_called c key -> forall i, ~ inputs_at c i p true.
    Proof using OK PR CL NN NP SC SG.
      intros U NC i (d & D & I). assert (SCO : scope_of w' p = sc) by (apply used_scope in U; auto; congruence).
      destruct (inputs_slot _ _ _ _ D I) as (s & j & key' & S & B & C & U').
      rewrite <- SCO in SG. destruct (one_key _ _ _ _ _ _ _ U U' NN SG) as (_ & -> & _).
      exact (NC s j (nth_error_In _ _ S) B C).
    Qed.
  End Key.
End Client.
