(** The number of values that the executions of a client get, and what they are. *)
From Verif Require Import Prelude ListAux ScopeModel ScopeSpec StmtModel WorkloadModel WorkloadSpec ClientModel ClientSpec
  ValueModel ValueSpec ValueProofs ValueCallProofs EndSpec EndProofs EndValueProofs DataModel DataSpec DataProofs DataRunProofs.
From Verif Require ConfigModel TrxModel PipeModel ServedProofs IterSpec InstanceProofs PipeRunProofs DataKeyProofs.
#[local] Open Scope string_scope.
#[local] Open Scope list_scope.

(** ** Slots *)
Lemma plain_slot ins : forall m, (m < length (filter plain ins))%nat ->
  exists j key, nth_error ins j = Some key /\ key <> PREV /\ m = length (filter plain (firstn j ins)).
Proof.
  induction ins as [|k ins IH]; intros m H; cbn [filter] in H; [cbn in H; lia|].
  destruct (plain k) eqn:P.
  - destruct m as [|m].
    + exists 0%nat, k. split; [reflexivity|]. split; [|reflexivity]. intros ->. discriminate P.
    + cbn in H. destruct (IH m) as (j & key & A & B & C); [lia|]. exists (S j), key. cbn [nth_error firstn filter]. rewrite P. cbn [List.length]. auto.
  - destruct (IH m H) as (j & key & A & B & C). exists (S j), key. cbn [nth_error firstn filter]. rewrite P. auto.
Qed.

Lemma arities_fst ins : fst (arities ins) = prevs ins.
Proof. induction ins as [|k ins IH]; cbn; [reflexivity|]. destruct (arities ins). cbn [fst] in IH. destruct (String.eqb k PREV); cbn; congruence. Qed.
Lemma arities_len ins : length (snd (arities ins)) = length (filter plain ins).
Proof.
  induction ins as [|k ins IH]; cbn; [reflexivity|]. destruct (arities ins). cbn [snd] in IH. unfold plain at 1.
  destruct (String.eqb k PREV); cbn; congruence.
Qed.
Lemma arities_nth ins : forall j key, nth_error ins j = Some key -> key <> PREV ->
  nth_error (snd (arities ins)) (length (filter plain (firstn j ins))) = Some (S (prevs (skipn (S j) ins))).
Proof.
  induction ins as [|k ins IH]; intros j key N NP; [destruct j; discriminate|]. cbn [arities].
  pose proof (arities_fst ins) as AF. destruct (arities ins) as [n l] eqn:E. cbn [fst snd] in *. destruct j as [|j].
  - cbn in N. injection N as ->. destruct (String.eqb_spec key PREV); [congruence|]. cbn. now rewrite AF.
  - cbn [nth_error] in N. specialize (IH j key N NP). cbn [firstn filter skipn]. unfold plain at 1.
    destruct (String.eqb k PREV); cbn [negb snd List.length nth_error]; exact IH.
Qed.

Lemma placed_full {V} ins : forall (vs : list (list V)) cur, length cur = fst (arities ins) -> map (@List.length V) vs = snd (arities ins) ->
  length (placed ins vs cur) = length ins /\ ~ In None (placed ins vs cur).
Proof.
  induction ins as [|k ins IH]; intros vs cur L M; cbn [arities placed] in *; [split; [reflexivity|intros []]|].
  destruct (arities ins) as [n l] eqn:E. cbn [fst snd] in *. destruct (String.eqb k PREV); cbn [fst snd] in *.
  - destruct cur as [|x cur]; [discriminate|]. cbn in L. destruct (IH vs cur) as [A B]; [lia|auto|].
    cbn. split; [lia|]. intros [X|X]; [discriminate|auto].
  - destruct vs as [|v vs]; [discriminate|]. cbn [map] in M. injection M as M1 M2. destruct v as [|x v]; [discriminate|]. cbn in M1.
    destruct (IH vs v) as [A B]; [lia|auto|]. cbn. split; [lia|]. intros [X|X]; [discriminate|auto].
Qed.

(** ** The uses of each group *)
Lemma group_shape {G V} (gvalues : G -> runcount -> G * list V) own gscope gen0 c inps st pc w evs log :
  vrun gvalues own gscope gen0 c inps = Some (st, pc, w, evs, log) ->
  forall i rc us, In (i, rc, us) (groups log) ->
  exists s d, nth_error (c_stmts c) i = Some s /\ nth_error (c_data c) i = Some d /\ map (fun u => (u_ptr u, u_explicit u)) us = d_inputs d.
Proof.
  intros H. refine (proj1 (vrun_ind gvalues own gscope gen0 c (fun st pc w evs l => forall i rc us, In (i, rc, us) (groups l) ->
    exists s d, nth_error (c_stmts c) i = Some s /\ nth_error (c_data c) i = Some d /\ map (fun u => (u_ptr u, u_explicit u)) us = d_inputs d) _ _ inps st pc w evs log H)).
  - intros ? ? ? [].
  - clear. intros st0 pc0 w0 e0 l0 st1 pc1 w1 e1 l1 _ IH X i rc us I. rewrite groups_app in I. apply in_app_or in I as [I|I]; [eauto|].
    inv X; [destruct I|].
    match goal with H1 : save_all _ _ _ _ = _ |- _ => destruct (save_all_ok _ _ _ _ _ _ H1) as (E & _) end.
    match type of I with In _ (groups (LUses ?a ?b ?u :: ?x)) => change (groups (LUses a b u :: x)) with ((a, b, u) :: groups x) in I end.
    rewrite E in I. destruct I as [[= <- <- <-]|[]].
    match goal with H1 : use_inputs _ _ _ _ _ _ = _ |- _ => destruct (use_inputs_ok _ _ _ _ _ _ _ _ H1) as [A _] end.
    eauto 6.
Qed.

Lemma client_numbers sts nx w' outs a e g k n c lens : run_ok sts -> prepare_all sts (WSt scopes_new nx) = Some (w', outs) ->
  client_of sts outs a e g k n c lens ->
  (rl_stage (c_rl c), rl_eg (c_rl c), rl_cg (c_rl c), rl_client (c_rl c)) = (n, N.of_nat (e + 1), N.of_nat (g + 1), N.of_nat (k + 1)).
Proof.
  intros OK PR (st & out & wl & gs & cg & A1 & A2 & A3 & A4 & A5 & A6 & A7).
  destruct (PipeRunProofs.prepare_nth _ _ _ _ _ _ PR A1) as (w1 & w2 & out' & B1 & B2). rewrite A2 in B1. injection B1 as <-.
  assert (NE : IterSpec.no_empty_trx (sg_ts st) wl).
  { destruct OK as [_ F]. rewrite Forall_forall in F. destruct (F st (nth_error_In _ _ A1)) as (_ & _ & NE).
    intros cg0 t I1 I2. exact (NE _ _ _ _ A3 I1 I2). }
  unfold prepare_stage, allocate in B2.
  destruct (new_rate _ (sg_qps st)) as [w3 sq]. destruct (new_rate w3 (sg_tps st)) as [w4 stp]. rewrite A3 in B2.
  destruct (InstanceProofs.clients_of _ _ _ _ _ _ _ _ _ _ B2 NE) as [LO CO].
  unfold client_at in A5. destruct (nth_error out e) as [css|] eqn:H1; [|discriminate].
  destruct (nth_error css g) as [cs|] eqn:H2; [|discriminate].
  destruct (CO _ _ H1) as (refs & R1 & R2 & R3). destruct (R3 _ _ H2) as (r & cg' & Q1 & Q2 & Q3 & Q4).
  destruct (Q4 _ _ A5) as (_ & _ & C1 & _). subst n. exact C1.
Qed.

Section Data.
  Context (fl : string -> bool) (P : PipeModel.penv) (cs : list ConfigModel.stage) (l : list (ConfigModel.stage * TrxModel.tset)).
  Notation sts := (map (fun x => PipeModel.stage_of P (fst x) (snd x)) l).
  Context (w' : wst) (outs : list (list (list (list client)))).
  Hypothesis PM : PipeModel.pe_make P = data_make fl.
  Hypothesis LD : PipeModel.load_stages P cs [] = Some l.
  Hypothesis OK : run_ok sts.
  Hypothesis PR : prepare_all sts (WSt scopes_new 0) = Some (w', outs).
  Context (a e g k : nat) (n : N) (c : client) (lens : list nat).
  Hypothesis CL : client_of sts outs a e g k n c lens.
  Hypothesis TS : trx_start_with_query c lens.
  Notation ks := (keys_at no_keys sts a).
  Context (gen0 : nat -> dgen) (inps : list (cinput dval * (nat -> option dgen))) (st : cst dval) (pc : cpc) (w : world (G := dgen) (V := dval))
    (evs : list (event dval)) (log : list (vlog dgen dval)).
  Hypothesis R : vrun dgen_values (own_of w') (EndSpec.scope_of w') gen0 c inps = Some (st, pc, w, evs, log).
  Hypothesis GM : gens_made fl l sts outs a gen0.

  Notation me := (client_counters e g k n).

  Lemma me_own rc : own_rc c rc -> same_client me rc.
  Proof using OK PR CL.
    intros (A & B & C & D). pose proof (client_numbers _ _ _ _ _ _ _ _ _ _ _ OK PR CL) as E. injection E as E1 E2 E3 E4.
    repeat split; cbn; congruence.
  Qed.

  (** Every use of a configured key. *)
  Lemma config_use key d pl p i rc us u : configured l a key d -> own_key sts a key -> never_saved c key ->
    sane (ConfigModel.d_gen d) (ConfigModel.d_params d) -> ConfigModel.d_gen d <> "column" -> key <> NOOP_COLUMN -> key <> PREV ->
    used_at sts outs a pl key p -> In (i, rc, us) (groups log) -> In u us -> u_ptr u = p ->
    allowed me (ConfigModel.d_gen d) (ConfigModel.d_params d) (u_vals u).
  Proof using PM LD OK PR CL TS R GM.
    intros CF OW NS SN NC NN NP U I1 I2 I3.
    destruct (DataKeyProofs.config_made fl P cs l a key d PM LD CF OW) as [g0 M].
    destruct (GM _ _ _ _ _ CF U M) as [CP LE]. pose proof (copy_make fl _ _ _ M) as CM. rewrite CM in CP. injection CP as CP.
    destruct OW as (sc & SC & SG). pose proof (used_scope sts 0 w' outs OK PR a pl key p U NN) as US. rewrite SC in US. injection US as US.
    assert (NE : c_stmts c <> []).
    { destruct (group_shape _ _ _ _ _ _ _ _ _ _ _ R _ _ _ I1) as (s & d0 & S & _). intros X. rewrite X in S. destruct i; discriminate. }
    refine (run_fine dgen_values (own_of w') (EndSpec.scope_of w') gen0 c lens _ TS NE p
      (fun y => from_params fl (ConfigModel.d_gen d) (ConfigModel.d_params d) (fst y) /\ letters_end y)
      (allowed me (ConfigModel.d_gen d) (ConfigModel.d_params d)) _ _ _ _ inps st pc w evs log R _ i rc us u I1 I2 I3).
    - exact (client_has_trx sts 0 w' outs OK PR a e g k n c lens CL).
    - intros y rcx [F L] O. destruct (step_ok fl me _ _ y rcx F L SN NC (me_own _ O)) as (A & B & C). auto.
    - split; [|exact LE]. rewrite <- CP. now apply made_from.
    - apply single_own. now rewrite <- US.
    - now rewrite <- US.
    - intros i' y X. exfalso.
      refine (key_not_saved sts 0 w' outs OK PR a e g k n c lens CL key sc NN NP SC SG pl p U NS i' _).
      exact (log_saves dgen_values gen0 w' c inps st pc w evs log R i' p y X).
  Qed.

  (** Every use of a saved column. *)
  Lemma column_use key pl p i rc us u : own_key sts a key -> key <> NOOP_COLUMN ->
    (forall pl p, used_at sts outs a pl key p -> is_col (gen0 p) /\ forall i g, In (LSave i p g) log -> is_col g) ->
    used_at sts outs a pl key p -> In (i, rc, us) (groups log) -> In u us -> u_ptr u = p -> length (u_vals u) = 1%nat.
  Proof using OK PR CL TS R.
    intros (sc & SC & SG) NN COL U I1 I2 I3. destruct (COL _ _ U) as [C1 C2].
    pose proof (used_scope sts 0 w' outs OK PR a pl key p U NN) as US. rewrite SC in US. injection US as US.
    assert (NE : c_stmts c <> []).
    { destruct (group_shape _ _ _ _ _ _ _ _ _ _ _ R _ _ _ I1) as (s & d0 & S & _). intros X. rewrite X in S. destruct i; discriminate. }
    refine (run_fine dgen_values (own_of w') (EndSpec.scope_of w') gen0 c lens _ TS NE p is_col (fun v => length v = 1%nat) _ C1 _ _ inps st pc w evs log R C2 i rc us u I1 I2 I3).
    - exact (client_has_trx sts 0 w' outs OK PR a e g k n c lens CL).
    - intros [y src] rcx (q & v & F) O. cbn [fst] in F. subst y. cbn. rewrite map_length. split; [eexists _, _; reflexivity|]. unfold GenModel.column_values. destruct (GenModel.co_useBytes v); reflexivity.
    - apply single_own. now rewrite <- US.
    - now rewrite <- US.
  Qed.

  Hypothesis NG : no_global ks c.
  Hypothesis FIT : forall i s j key, nth_error (c_stmts c) i = Some s -> nth_error (st_inputs s) j = Some key -> key <> PREV ->
    key <> NOOP_COLUMN /\ fitting l sts outs a c gen0 log s j key.
  Hypothesis FIRST : forall i s, nth_error (c_stmts c) i = Some s -> nth_error (st_inputs s) 0 <> Some PREV.

  Lemma use_len i rc us s d j key u : In (i, rc, us) (groups log) -> nth_error (c_stmts c) i = Some s -> nth_error (c_data c) i = Some d ->
    map (fun u => (u_ptr u, u_explicit u)) us = d_inputs d ->
    nth_error (st_inputs s) j = Some key -> key <> PREV -> nth_error us (length (filter plain (firstn j (st_inputs s)))) = Some u ->
    length (u_vals u) = wants s j.
  Proof using PM LD OK PR CL TS R GM NG FIT.
    intros I S D M J NP U. destruct (FIT i s j key S J NP) as [NN FT].
    destruct (client_fills sts 0 w' outs OK PR a e g k n c lens CL i s d S D) as (F1 & F2 & _).
    assert (SV : serves ks key = true).
    { rewrite (serves_plain sts a c NG s key (nth_error_In _ _ S) (nth_error_In _ _ J)). unfold plain. destruct (String.eqb_spec key PREV); [congruence|reflexivity]. }
    destruct (slot_input (serves ks) _ _ _ _ _ F1 F2 J SV) as (p & exp & A & B & C).
    assert (UA : used_at sts outs a (place_of e g k n lens i j) key p).
    { eapply client_used; eauto. unfold uses_of. rewrite nth_error_app1; [exact B|]. apply nth_error_Some. congruence. }
    assert (EM : length (filter (serves ks) (firstn j (st_inputs s))) = length (filter plain (firstn j (st_inputs s)))).
    { f_equal. apply filter_same. intros y Y. apply (serves_plain sts a c NG s); [eapply nth_error_In; eauto|]. rewrite <- (firstn_skipn j). apply in_or_app. now left. }
    rewrite EM, <- M, nth_error_map, U in A. cbn in A. injection A as A _.
    inversion FT as [d0 CF OW NS SN NC AR|OW W1 COL|SH].
    - apply (allowed_arity me (ConfigModel.d_gen d0) (ConfigModel.d_params d0)); [|exact AR].
      eapply config_use; eauto. eapply nth_error_In; eauto.
    - rewrite W1. eapply column_use; eauto. eapply nth_error_In; eauto.
    - eapply SH; eauto. eapply nth_error_In; eauto.
  Qed.

  Lemma all_sized : sized c log.
  Proof using PM LD OK PR CL TS R GM NG FIT FIRST.
    intros i rc us s I S. destruct (group_shape _ _ _ _ _ _ _ _ _ _ _ R _ _ _ I) as (s0 & d & S0 & D & M). rewrite S in S0. injection S0 as <-. split.
    - rewrite arities_fst. specialize (FIRST i s S). destruct (st_inputs s) as [|k0 ins]; [reflexivity|]. cbn in *.
      destruct (String.eqb_spec k0 PREV); [congruence|reflexivity].
    - destruct (client_fills sts 0 w' outs OK PR a e g k n c lens CL i s d S D) as (_ & F2 & _).
      assert (EM : length us = length (filter plain (st_inputs s))).
      { rewrite <- (map_length (fun u => (u_ptr u, u_explicit u)) us), M, F2. f_equal. apply filter_same. intros y Y. apply (serves_plain sts a c NG s); [eapply nth_error_In; eauto|exact Y]. }
      apply PipeRunProofs.nth_ext_list. intros m. destruct (Nat.ltb_spec m (length us)) as [LT|GE].
      + destruct (plain_slot (st_inputs s) m) as (j & key & J & NP & ->); [lia|]. rewrite (arities_nth _ _ _ J NP), nth_error_map.
        destruct (nth_error us _) as [u|] eqn:U; [|apply nth_error_None in U; lia]. cbn. f_equal. exact (use_len _ _ _ _ _ _ _ _ I S D M J NP U).
      + rewrite (proj2 (nth_error_None _ m)); [|rewrite map_length; exact GE]. symmetry. apply nth_error_None. rewrite arities_len. lia.
  Qed.

  Lemma all_full ex s : In ex (execs evs) -> nth_error (c_stmts c) (ex_stmt ex) = Some s ->
    length (ex_vals ex) = length (st_inputs s) /\ ~ In None (ex_vals ex).
  Proof using PM LD OK PR CL TS R GM NG FIT FIRST.
    intros E S. pose proof all_sized as SZ. apply In_nth_error in E as [m E].
    destruct (groups_match dgen_values (own_of w') (EndSpec.scope_of w') gen0 c _ _ _ _ _ _ R) as (rest & F & EQ & _).
    destruct (nth_error (firstn (length (execs evs)) (groups log)) m) as [[[i rc] us]|] eqn:NG0.
    2: { exfalso. assert (L : length (execs evs) = length (firstn (length (execs evs)) (groups log))) by exact (forall2_len F). apply nth_error_None in NG0. assert (m < length (execs evs))%nat by (apply nth_error_Some; congruence). lia. }
    pose proof (Forall2_nth _ _ _ _ _ _ F E NG0) as (M1 & M2 & s' & d & S' & D & M3 & M4).
    apply nth_of_firstn in NG0 as [NG1 _]. subst i. rewrite S in S'. injection S' as <-.
    destruct (SZ _ _ _ _ (nth_error_In _ _ NG1) S) as [Z1 Z2]. rewrite (M4 Z1 Z2). apply placed_full; [cbn; congruence|]. rewrite map_map. exact Z2.
  Qed.
End Data.
