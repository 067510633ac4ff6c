(** The values of executions by key names. *)
From Verif Require Import Prelude ListAux ScopeModel ScopeSpec StmtModel WorkloadModel WorkloadSpec ScopeProofs RunProofs ServedProofs
  ClientModel ClientSpec ClientProps ValueModel ValueSpec ValueProofs ValueCallProofs ValueProps EndSpec EndProofs.
#[local] Open Scope list_scope.

Lemma forall2_len {A B} {P : A -> B -> Prop} {x y} : Forall2 P x y -> length x = length y.
Proof. induction 1; cbn; congruence. Qed.

Lemma same_block {V} c lens inps st pc (evs : list (event V)) :
  has_trx c lens -> trx_start_with_query c lens -> c_stmts c <> [] -> client_run c inps = Some (st, pc, evs) ->
  forall mid pre e1 e2 post, execs evs = pre ++ e1 :: mid ++ e2 :: post ->
  Forall (fun e => starts_trx lens e = false) (mid ++ [e2]) -> block_index lens (ex_stmt e2) = block_index lens (ex_stmt e1).
Proof.
  intros T S N R. induction mid as [|x mid IH] using rev_ind; intros pre e1 e2 post E F.
  - cbn [app] in E, F. inversion F as [|? ? F1 _]; subst.
    assert (I : In e2 (execs evs)) by (rewrite E; apply in_or_app; right; right; now left). apply filter_In in I as [_ I].
    unfold starts_trx in F1. rewrite I in F1. cbn in F1. change (pre ++ e1 :: e2 :: post) with (pre ++ [e1] ++ e2 :: post) in E. rewrite app_assoc in E.
    destruct (C30_trx_boundaries_partial c lens inps st pc evs (pre ++ [e1]) e2 post T S N R E) as (_ & B & _).
    destruct (B F1) as (pre' & e' & P1 & P2 & _). apply app_inj_tail in P1 as [_ <-]. auto.
  - assert (I : In e2 (execs evs)) by (rewrite E; apply in_or_app; right; right; apply in_or_app; right; now left). apply filter_In in I as [_ I].
    apply Forall_app in F as [F1 F2]. inversion F2 as [|? ? F3 _]; subst. unfold starts_trx in F3. rewrite I in F3. cbn in F3.
    assert (E' : execs evs = (pre ++ e1 :: mid ++ [x]) ++ e2 :: post) by (rewrite E, <- (app_assoc pre); reflexivity).
    destruct (C30_trx_boundaries_partial c lens inps st pc evs _ e2 post T S N R E') as (_ & B & _).
    destruct (B F3) as (pre' & e' & P1 & P2 & _). change (pre ++ e1 :: mid ++ [x]) with (pre ++ (e1 :: mid) ++ [x]) in P1. rewrite app_assoc in P1.
    apply app_inj_tail in P1 as [_ <-]. rewrite <- P2. apply (IH pre e1 x (e2 :: post)); auto. rewrite E, <- app_assoc. reflexivity.
Qed.

Section Run.
  Context {G V : Type} (gvalues : G -> runcount -> G * list V) (gen0 : nat -> G).
  Context (sts : list stagecfg) (nx : nat) (w' : wst) (outs : list (list (list (list client)))).
  Hypothesis OK : run_ok sts.
  Hypothesis PR : prepare_all sts (WSt scopes_new nx) = Some (w', outs).
  Context (a e g k : nat) (n : N) (c : client) (lens : list nat).
  Hypothesis CL : client_of sts outs a e g k n c lens.
  Hypothesis TS : trx_start_with_query c lens.
  Notation ks := (keys_at no_keys sts a).
  Hypothesis NG : no_global ks c.
  Context (inps : list (cinput V * (nat -> option G))) (st : cst V) (pc : cpc) (w : world (G := G) (V := V)) (evs : list (event V)) (l : list (vlog G V)).
  Hypothesis R : vrun gvalues (own_of w') (scope_of w') gen0 c inps = Some (st, pc, w, evs, l).
  Hypothesis SZ : sized c l.
  Context (key : string) (sc : scope).
  Hypothesis NN : key <> NOOP_COLUMN.
  Hypothesis NP : key <> PREV.
  Hypothesis SC : scope_in ks key = Some sc.
  Hypothesis SG : single_client sc.

  Lemma serves_plain s k0 : In s (c_stmts c) -> In k0 (st_inputs s) -> serves ks k0 = plain k0.
  Proof using NG.
    intros S K. unfold serves, plain. destruct (String.eqb k0 PREV); [reflexivity|]. cbn. destruct (scope_in ks k0) as [[]|] eqn:E; try apply orb_true_r.
    exfalso. exact (NG s k0 S K E).
  Qed.

  Lemma filter_same {A} (f h : A -> bool) (x : list A) : (forall y, In y x -> f y = h y) -> filter f x = filter h x.
  Proof. induction x as [|y x IH]; intros H; [reflexivity|]. cbn. rewrite (H y (or_introl eq_refl)), IH by (intros; apply H; now right). reflexivity. Qed.

  Lemma nonempty (ex : event V) s j : exec_uses c ex s j key -> c_stmts c <> [].
  Proof. intros [A _] X. rewrite X in A. destruct (ex_stmt ex); discriminate. Qed.

  Lemma run_client : exists inps', client_run c inps' = Some (st, pc, evs).
  Proof using R. exact (proj2 (vrun_ind gvalues (own_of w') (scope_of w') gen0 c (fun _ _ _ _ _ => True) I (fun _ _ _ _ _ _ _ _ _ _ _ _ _ => I) _ _ _ _ _ _ R)). Qed.

  (** The use behind the values of an execution. *)
  Lemma exec_use pre ex post s j : execs evs = pre ++ ex :: post -> exec_uses c ex s j key ->
    exists rc us m u, nth_error (groups l) (length pre) = Some (ex_stmt ex, rc, us) /\ nth_error us m = Some u /\
      used_at sts outs a (place_of e g k n lens (ex_stmt ex) j) key (u_ptr u) /\ scope_of w' (u_ptr u) = sc /\
      vals_at s j ex = map Some (u_vals u).
  Proof using OK PR CL NG R SZ NN NP SC SG.
    intros E [S J]. destruct (groups_match gvalues (own_of w') (scope_of w') gen0 c _ _ _ _ _ _ R) as (rest & F & EQ & _).
    assert (NE : nth_error (execs evs) (length pre) = Some ex) by (rewrite E, nth_error_app2, Nat.sub_diag by lia; reflexivity).
    destruct (nth_error (firstn (length (execs evs)) (groups l)) (length pre)) as [[[i rc] us]|] eqn:NG0.
    2: { exfalso. assert (L : length (execs evs) = length (firstn (length (execs evs)) (groups l))) by exact (forall2_len F). apply nth_error_None in NG0. assert (length pre < length (execs evs))%nat by (apply nth_error_Some; congruence). lia. }
    pose proof (Forall2_nth _ _ _ _ _ _ F NE NG0) as (M1 & M2 & s' & d & S' & D & M3 & M4).
    apply nth_of_firstn in NG0 as [NG1 _]. subst i. rewrite S in S'. injection S' as <-.
    destruct (key_input sts nx w' outs OK PR a e g k n c lens CL key sc NN NP SC SG _ _ _ _ S D J) as (p & exp & K1 & K2 & K3 & K4).
    set (m := length (filter (serves ks) (firstn j (st_inputs s)))) in *.
    rewrite <- M3, nth_error_map in K1. destruct (nth_error us m) as [u|] eqn:U; [|discriminate]. cbn in K1. injection K1 as <- <-.
    exists rc, us, m, u. split; [exact NG1|]. split; [exact U|]. split; [exact K2|]. split; [exact K4|].
    destruct (SZ _ _ _ _ (nth_error_In _ _ NG1) S) as [Z1 Z2]. unfold vals_at. rewrite (M4 Z1 Z2).
    destruct (placed_slot (st_inputs s) (map u_vals us) [] j key) as (v & V1 & V2); auto.
    { rewrite map_map. exact Z2. }
    rewrite V2. f_equal. rewrite nth_error_map in V1.
    assert (EM : length (filter plain (firstn j (st_inputs s))) = m).
    { unfold m. f_equal. apply filter_same. intros y Y. symmetry. apply (serves_plain s); [eapply nth_error_In; eauto|]. rewrite <- (firstn_skipn j). apply in_or_app. now left. }
    rewrite EM, U in V1. cbn in V1. congruence.
  Qed.

  Section Two.
    Context (pre : list (event V)) (e1 : event V) (mid : list (event V)) (e2 : event V) (post : list (event V)) (s1 s2 : stmt) (j1 j2 : nat).
    Hypothesis E : execs evs = pre ++ e1 :: mid ++ e2 :: post.
    Hypothesis U1 : exec_uses c e1 s1 j1 key.
    Hypothesis U2 : exec_uses c e2 s2 j2 key.
    Hypothesis NS : never_saved c key.

    Lemma second : execs evs = (pre ++ e1 :: mid) ++ e2 :: post.
    Proof using E. rewrite E, <- app_assoc. reflexivity. Qed.

    Lemma values_same : never_called c key -> same_scope sc lens e1 mid e2 -> vals_at s1 j1 e1 = vals_at s2 j2 e2.
    Proof using OK PR CL TS NG R SZ NN NP SC SG E U1 U2 NS.
      intros NC SM. destruct (exec_use _ _ _ _ _ E U1) as (rc1 & us1 & m1 & u1 & A1 & A2 & A3 & A4 & A5).
      destruct (exec_use _ _ _ _ _ second U2) as (rc2 & us2 & m2 & u2 & B1 & B2 & B3 & B4 & B5).
      rewrite app_length in B1. cbn [List.length] in B1.
      pose proof (client_has_trx sts nx w' outs OK PR a e g k n c lens CL) as T. pose proof (nonempty _ _ _ U1) as NE.
      destruct run_client as [inps' RC].
      assert (P : u_ptr u2 = u_ptr u1).
      { symmetry. apply (one_generator_per_instance sts nx w' outs a a _ _ key key _ _ OK PR A3 B3 NN NN). split; [reflexivity|]. exists sc. split; [exact SC|].
        destruct SG as [->|[->|[->| ->]]]; cbn in SM |- *; try contradiction; repeat split; auto.
        symmetry. exact (same_block c lens inps' st pc evs T TS NE RC mid pre e1 e2 post E SM). }
      rewrite A5, B5. f_equal.
      apply (C99_same_partial gvalues (own_of w') (scope_of w') gen0 c lens inps st pc w evs l pre e1 mid e2 post (ex_stmt e1) rc1 us1 (ex_stmt e2) rc2 us2 m1 m2 u1 u2); auto.
      - apply single_own. now rewrite A4.
      - now rewrite A4.
      - eapply key_not_saved; eauto.
      - eapply key_not_called; eauto.
      - now rewrite A4.
    Qed.

    Lemma values_new : (forall pl p, used_at sts outs a pl key p -> never_repeats gvalues (gen0 p)) ->
      same_instance sc (place_of e g k n lens (ex_stmt e1) j1) (place_of e g k n lens (ex_stmt e2) j2) ->
      ~ same_scope sc lens e1 mid e2 -> vals_at s1 j1 e1 <> vals_at s2 j2 e2.
    Proof using OK PR CL TS NG R SZ NN NP SC SG E U1 U2 NS.
      intros NR SI SM. destruct (exec_use _ _ _ _ _ E U1) as (rc1 & us1 & m1 & u1 & A1 & A2 & A3 & A4 & A5).
      destruct (exec_use _ _ _ _ _ second U2) as (rc2 & us2 & m2 & u2 & B1 & B2 & B3 & B4 & B5).
      rewrite app_length in B1. cbn [List.length] in B1.
      pose proof (client_has_trx sts nx w' outs OK PR a e g k n c lens CL) as T. pose proof (nonempty _ _ _ U1) as NE.
      assert (P : u_ptr u2 = u_ptr u1).
      { symmetry. apply (one_generator_per_instance sts nx w' outs a a _ _ key key _ _ OK PR A3 B3 NN NN). split; [reflexivity|]. exists sc. auto. }
      rewrite A5, B5. intros X.
      assert (INJ : forall x y : list V, map Some x = map Some y -> x = y).
      { induction x as [|v x IH]; intros [|v' y] M; try discriminate; [reflexivity|]. cbn in M. injection M as -> M. f_equal. auto. }
      apply INJ in X. revert X.
      apply (C99_new_partial gvalues (own_of w') (scope_of w') gen0 c lens inps st pc w evs l pre e1 mid e2 post (ex_stmt e1) rc1 us1 (ex_stmt e2) rc2 us2 m1 m2 u1 u2); auto.
      - apply single_own. now rewrite A4.
      - now rewrite A4.
      - eapply key_not_saved; eauto.
      - eauto.
      - now rewrite A4.
    Qed.
  End Two.

  Lemma values_one pre ex post s j1 j2 : execs evs = pre ++ ex :: post -> exec_uses c ex s j1 key -> exec_uses c ex s j2 key ->
    never_saved c key -> never_called c key -> vals_at s j1 ex = vals_at s j2 ex.
  Proof using OK PR CL TS NG R SZ NN NP SC SG.
    intros E U1 U2 NS NC. destruct (exec_use _ _ _ _ _ E U1) as (rc1 & us1 & m1 & u1 & A1 & A2 & A3 & A4 & A5).
    destruct (exec_use _ _ _ _ _ E U2) as (rc2 & us2 & m2 & u2 & B1 & B2 & B3 & B4 & B5).
    rewrite A1 in B1. injection B1 as <- <-.
    pose proof (client_has_trx sts nx w' outs OK PR a e g k n c lens CL) as T.
    assert (P : u_ptr u2 = u_ptr u1).
    { symmetry. apply (one_generator_per_instance sts nx w' outs a a _ _ key key _ _ OK PR A3 B3 NN NN). split; [reflexivity|]. exists sc. split; [exact SC|].
      destruct SG as [->|[->|[->| ->]]]; cbn; repeat split; auto. }
    rewrite A5, B5. f_equal.
    apply (C99_statement_partial gvalues (own_of w') (scope_of w') gen0 c lens inps st pc w evs l (length pre) (ex_stmt ex) rc1 us1 m1 m2 u1 u2); auto.
    - apply single_own. now rewrite A4.
    - now rewrite A4.
    - eapply key_not_saved; eauto.
    - eapply key_not_called; eauto.
  Qed.

  (** Saved columns. *)
  Lemma groups_at (x : list (vlog G V)) : forall m i rc us, nth_error (groups x) m = Some (i, rc, us) ->
    exists y z, x = y ++ LUses i rc us :: z /\ length (groups y) = m.
  Proof.
    induction x as [|[i0 rc0 us0|i0 p0 g0] x IH]; intros m i rc us H; [destruct m; discriminate| |].
    - destruct m as [|m]; cbn in H.
      + injection H as -> -> ->. exists [], x. auto.
      + destruct (IH _ _ _ _ H) as (y & z & -> & L). exists (LUses i0 rc0 us0 :: y), z. split; [reflexivity|]. cbn. now f_equal.
    - cbn in H. destruct (IH _ _ _ _ H) as (y & z & -> & L). exists (LSave i0 p0 g0 :: y), z. auto.
  Qed.

  Lemma log_saves i p g0 : In (LSave i p g0) l -> saves_at c i p.
  Proof using R.
    refine (proj1 (vrun_ind gvalues (own_of w') (scope_of w') gen0 c (fun st pc w evs l => In (LSave i p g0) l -> saves_at c i p) _ _ inps st pc w evs l R)).
    - intros [].
    - clear. intros st pc w evs l st' pc' w0 evs' l' _ IH X I. apply in_app_or in I as [I|I]; [auto|]. inv X; [destruct I|].
      destruct I as [I|I]; [discriminate|].
      match goal with H : save_all _ _ _ _ = _ |- _ => apply save_all_ok in H as (_ & _ & H); destruct (H _ I) as (q & g1 & Q1 & Q2 & _); injection Q1 as <- <- <- end.
      eexists _, _. rewrite <- save_ptrs_ok. eauto.
  Qed.

  Lemma column_key held pre ex post s j : sc = STrx ->
    (forall pl p, used_at sts outs a pl key p -> is_column gvalues held (gen0 p) /\ forall i g0, In (LSave i p g0) l -> is_column gvalues held g0) ->
    saved_before_use c lens key -> execs evs = pre ++ ex :: post -> exec_uses c ex s j key ->
    exists p x rc us y, used_at sts outs a (place_of e g k n lens (ex_stmt ex) j) key p /\
      l = x ++ LUses (ex_stmt ex) rc us :: y /\ length (groups x) = length pre /\
      vals_at s j ex = map Some (held (last_saved p x (gen0 p))) /\
      (forall i g0, In (LSave i p g0) x -> exists t, nth_error (c_stmts c) i = Some t /\ saves_key t key /\ block_index lens i = block_index lens (ex_stmt ex)).
  Proof using OK PR CL TS NG R SZ NN NP SC SG.
    intros TRX COL ORD E U. destruct (exec_use _ _ _ _ _ E U) as (rc & us & m & u & A1 & A2 & A3 & A4 & A5).
    destruct (groups_at l _ _ _ _ A1) as (x & y & L1 & L2). exists (u_ptr u), x, rc, us, y. split; [exact A3|]. split; [exact L1|]. split; [exact L2|].
    rewrite TRX in A4.
    assert (SV : forall i, saves_at c i (u_ptr u) -> exists t, nth_error (c_stmts c) i = Some t /\ saves_key t key /\ block_index lens i = block_index lens (ex_stmt ex)).
    { intros i (t & d & S & D & I). destruct (saves_slot sts nx w' outs OK PR a e g k n c lens CL _ _ _ _ S D I) as (j' & key' & X & W).
      pose proof (client_used sts outs a e g k n c lens CL _ _ _ _ _ _ S D X) as U'.
      destruct (one_key sts nx w' outs OK PR _ _ _ _ _ _ _ A3 U' NN) as (_ & -> & SI); [rewrite A4; right; now left|].
      exists t. split; [exact S|]. split; [destruct W; [now left|now right]|]. rewrite A4 in SI. cbn in SI. symmetry. tauto. }
    split.
    - rewrite A5. f_equal. destruct (COL _ _ A3) as [C1 C2]. rewrite L1 in C2, R.
      refine (C100_column_partial gvalues (own_of w') (scope_of w') gen0 c held (u_ptr u) lens inps st pc w evs x (ex_stmt ex) rc us y u _ TS _ A4 C1 _ R C2 (nth_error_In _ _ A2) eq_refl).
      + exact (client_has_trx sts nx w' outs OK PR a e g k n c lens CL).
      + apply single_own. rewrite A4. right. now left.
      + intros i1 i2 exp (d & D & I) SA. destruct (SV i2 SA) as (t & T1 & T2 & T3).
        destruct (inputs_slot sts nx w' outs OK PR a e g k n c lens CL _ _ _ _ D I) as (s1 & j' & key' & S & B & C & U').
        destruct (one_key sts nx w' outs OK PR _ _ _ _ _ _ _ A3 U' NN) as (_ & -> & SI); [rewrite A4; right; now left|].
        rewrite A4 in SI. cbn in SI. destruct SI as (_ & _ & _ & _ & SI). apply (ORD i1 i2 s1 t); auto; [congruence|]. eapply nth_error_In; eauto.
    - intros i g0 I. apply SV. apply (log_saves i _ g0). rewrite L1. apply in_or_app. now left.
  Qed.
End Run.
