(** Properties C01-C05: data scopes. *)
From Verif Require Import Prelude ListAux ScopeModel ScopeSpec StmtModel WorkloadModel WorkloadSpec
  InstanceProofs RunProofs ServedProofs CallProofs.
#[local] Open Scope string_scope.
#[local] Open Scope list_scope.

(* ------------------------------------------------------------------------------------ *)
(** * C01 *)

(** Two uses of data keys anywhere in a run are served by the same generator exactly if they use
    the same key in the same instance of its scope. *)
Theorem C01_one_generator_per_scope_instance sts nx w' outs a b pl pl' key key' p p' :
  run_ok sts ->
  prepare_all sts (WSt scopes_new nx) = Some (w', outs) ->
  used_at sts outs a pl key p -> used_at sts outs b pl' key' p' ->
  key <> NOOP_COLUMN -> key' <> NOOP_COLUMN ->
  (p = p' <-> key = key' /\ exists s, scope_in (keys_at no_keys sts a) key = Some s /\ same_instance s pl pl').
Proof. exact (one_generator_per_instance sts nx w' outs a b pl pl' key key' p p'). Qed.

(** Every data key slot of every statement has a generator, except @PREV, global scope (C02) and
    the column slot standing for the insert id, whose generator is a slot of its own. *)
Theorem C01_every_use_is_served sts nx w' outs a out e g k c i s d j key r :
  run_ok sts -> prepare_all sts (WSt scopes_new nx) = Some (w', outs) ->
  nth_error outs a = Some out -> client_at out e g k = Some c ->
  nth_error (c_stmts c) i = Some s -> nth_error (c_data c) i = Some d ->
  nth_error (uses_of (serves (keys_at no_keys sts a)) s d) j = Some (key, r) ->
  (r = None <->
   (key = PREV \/ (key <> NOOP_COLUMN /\ scope_in (keys_at no_keys sts a) key = Some SGlobal)) \/
   (key = st_insertId s /\ (length (st_inputs s) <= j < length (st_inputs s) + length (st_outputs s))%nat)).
Proof.
  intros OK H A C S D U.
  rewrite (fills_uses _ _ _ _ _ _ (every_key_served _ _ _ _ _ _ _ _ _ _ _ _ _ OK H A C S D) U).
  assert (E : serves (keys_at no_keys sts a) key = false <->
              (key = PREV \/ (key <> NOOP_COLUMN /\ scope_in (keys_at no_keys sts a) key = Some SGlobal))).
  { unfold serves. destruct (String.eqb_spec key PREV) as [->|N]; cbn; [tauto|].
    destruct (String.eqb_spec key NOOP_COLUMN) as [->|N']; cbn.
    - split; [discriminate|]. intros [X|[X _]]; congruence.
    - destruct (scope_in (keys_at no_keys sts a) key) as [[]|]; split; try discriminate; try tauto;
        intros [X|[_ X]]; try congruence. }
  tauto.
Qed.

(** The explicit calls [@d()] of a statement are wired as such, in order. *)
Theorem C01_explicit_calls_wired sts nx w' outs a out e g k c i s d :
  run_ok sts -> prepare_all sts (WSt scopes_new nx) = Some (w', outs) ->
  nth_error outs a = Some out -> client_at out e g k = Some c ->
  nth_error (c_stmts c) i = Some s -> nth_error (c_data c) i = Some d ->
  map snd (d_inputs d) =
  map snd (filter (fun kc => serves (keys_at no_keys sts a) (fst kc)) (combine (st_inputs s) (st_calls s))).
Proof.
  intros OK H A C S D. exact (proj1 (every_key_served _ _ _ _ _ _ _ _ _ _ _ _ _ OK H A C S D)).
Qed.

Ltac vsplit := repeat match goal with |- _ /\ _ => split; [vm_compute; reflexivity|] end; vm_compute.

(** The allocated clients of a run (for examples). *)
Definition outs_of (sts : list stagecfg) : list (list (list (list client))) :=
  match prepare_all sts (WSt scopes_new 0) with Some (_, o) => o | None => [] end.
Definition run_defined (sts : list stagecfg) : bool :=
  match prepare_all sts (WSt scopes_new 0) with Some _ => true | None => false end.
Lemma outs_of_ok sts : run_defined sts = true -> exists w, prepare_all sts (WSt scopes_new 0) = Some (w, outs_of sts).
Proof.
  unfold run_defined, outs_of. destruct (prepare_all sts (WSt scopes_new 0)) as [[w o]|]; [eauto|discriminate].
Qed.

(** A computable [used_at] (for examples). *)
Definition used_b sts outs (a : nat) (pl : place) (key : string) (p : nat) : bool :=
  match nth_error sts a, nth_error outs a with
  | Some st, Some out =>
    match groups (sg_ts st) (sg_wl st) with
    | Some (wl, gs) =>
      match cg_at wl gs (p_eg pl) (p_cg pl), client_at out (p_eg pl) (p_cg pl) (p_client pl) with
      | Some cg, Some c =>
        N.eqb (p_stage pl) (sg_N st) &&
        Nat.eqb (p_trx pl) (block_index (trx_lens (sg_ts st) cg) (p_stmt pl)) &&
        match use_of_client (serves (keys_at no_keys sts a)) c (p_stmt pl) (p_slot pl) with
        | Some (key', Some p') => String.eqb key' key && Nat.eqb p' p
        | _ => false
        end
      | _, _ => false
      end
    | None => false
    end
  | _, _ => false
  end.
Lemma used_b_ok sts outs a pl key p : used_b sts outs a pl key p = true -> used_at sts outs a pl key p.
Proof.
  unfold used_b, used_at. intros H.
  destruct (nth_error sts a) as [st|] eqn:E1; [|discriminate].
  destruct (nth_error outs a) as [out|] eqn:E2; [|discriminate].
  destruct (groups (sg_ts st) (sg_wl st)) as [[wl gs]|] eqn:E3; [|discriminate].
  destruct (cg_at wl gs (p_eg pl) (p_cg pl)) as [cg|] eqn:E4; [|discriminate].
  destruct (client_at out (p_eg pl) (p_cg pl) (p_client pl)) as [c|] eqn:E5; [|discriminate].
  destruct (use_of_client (serves (keys_at no_keys sts a)) c (p_stmt pl) (p_slot pl)) as [[key' [p'|]]|] eqn:E6;
    try (rewrite andb_false_r in H; discriminate).
  apply andb_true_iff in H as [H H3]. apply andb_true_iff in H as [H1 H2]. apply andb_true_iff in H3 as [H3 H4].
  apply N.eqb_eq in H1. apply Nat.eqb_eq in H2. apply String.eqb_eq in H3. apply Nat.eqb_eq in H4. subst.
  exists st, out, wl, gs, cg, c. repeat (split; auto).
Qed.

(** A run: two stages, the first with two exec groups; a client group with two clients; keys of
    several scopes. *)
Module Ex.
  Definition q1 := Stmt "t1" "q1" false false 0 false false false false 0%Z
                        ["@a"; "@b"; "@PREV"; "@b"] [] "" None [false; false; false; true].
  Definition q2 := Stmt "t1" "q2" true false 0 false false false false 0%Z
                        ["@a"; "@c"] ["@d"; "_"] "" None [false; false].
  Definition q3 := Stmt "t2" "q3" false false 0 false false true false 0%Z
                        ["@a"; "@b"; "@d"] ["@e"] "@e" None [false; false; false].
  Definition stmts (t : string) : list stmt :=
    if String.eqb t "t1" then [q1; q2] else if String.eqb t "t2" then [q3] else [].
  Definition ts := TrxSet ["t1"; "t2"] stmts (fun _ => false).
  Definition keys (k : string) : option key :=
    if String.eqb k "@a" then Some (Key k (-1) (Some STrx) "int")
    else if String.eqb k "@b" then Some (Key k (-1) (Some SClientGroup) "int")
    else if String.eqb k "@c" then Some (Key k (-1) (Some SStage) "int")
    else if String.eqb k "@d" then Some (Key k 0 None "column")
    else if String.eqb k "@e" then Some (Key k 0 (Some SIter) "column")
    else if String.eqb k "_" then Some (Key k 1 None "column")
    else None.
  Definition cg (name : string) (trx : list string) (n : N) : cgcfg :=
    CgCfg name trx n "" false 0 0 0 0 0 0 0 0 0.
  Definition st1 := StageCfg 1 keys ts true [cg "A" ["t1"; "t2"] 2; cg "A" ["t1"] 1; cg "B" ["t2"; "t1"] 1] 0 0.
  Definition st2 := StageCfg 2 keys ts true [cg "" [] 1] 0 0.
  Definition sts := [st1; st2].

  Lemma keys_named k ky : keys k = Some ky -> k_name ky = k.
  Proof.
    unfold keys. repeat match goal with |- context [String.eqb k ?x] => destruct (String.eqb k x) end;
      intros H; inv H; reflexivity.
  Qed.

  Lemma ok : run_ok sts.
  Proof.
    split.
    - intros [|[|a]] [|[|b]] sa sb L A B; cbn in A, B; try lia; try discriminate;
        try (destruct a; discriminate); try (destruct b; discriminate). inv A. inv B. reflexivity.
    - repeat constructor; cbn; try (intros; apply keys_named; assumption);
        intros wl gs c t H; vm_compute in H; inv H; cbn; intros X Y;
        repeat (destruct X as [X|X]; [subst c; cbn in Y; repeat (destruct Y as [<-|Y]; [discriminate|]); destruct Y|]);
        destruct X.
  Qed.

  Definition outs := outs_of sts.
  Lemma result_ok : exists w, prepare_all sts (WSt scopes_new 0) = Some (w, outs).
  Proof. apply outs_of_ok. vm_compute. reflexivity. Qed.
End Ex.

(** @b (client group scope) at client 0 of group A/0 and at client 1 of the same group: the same
    generator; at group A/1: another one.  The hypotheses of C01 hold for these uses. *)
Example C01_example :
  run_ok Ex.sts /\ (exists w, prepare_all Ex.sts (WSt scopes_new 0) = Some (w, Ex.outs)) /\
  exists p q,
    used_at Ex.sts Ex.outs 0 (Place 1 0 0 0 0 0 1) "@b" p /\
    used_at Ex.sts Ex.outs 0 (Place 1 0 0 1 1 2 1) "@b" p /\
    used_at Ex.sts Ex.outs 0 (Place 1 0 1 0 0 0 1) "@b" q /\ p <> q.
Proof.
  split; [exact Ex.ok|]. split; [exact Ex.result_ok|].
  exists 1%nat, 14%nat. repeat split; try discriminate; apply used_b_ok; vm_compute; reflexivity.
Qed.

(** An insert id output slot, a saved column, the no-op column and @PREV in the same run. *)
Example C01_served_example :
  exists out c d, nth_error Ex.outs 0 = Some out /\ client_at out 0 0 0 = Some c /\
    nth_error (c_stmts c) 2 = Some Ex.q3 /\ nth_error (c_data c) 2 = Some d /\
    d_outputs d = [None] /\ (exists p, d_insertId d = Some p) /\ length (d_inputs d) = 3%nat.
Proof.
  do 3 eexists.
  do 5 (split; [vm_compute; reflexivity|]). split; [eexists; vm_compute; reflexivity|vm_compute; reflexivity].
Qed.

Print Assumptions C01_one_generator_per_scope_instance.
Print Assumptions C01_every_use_is_served.
Print Assumptions C01_explicit_calls_wired.

(* ------------------------------------------------------------------------------------ *)
(** * C02 *)

(** Finding: a globally scoped key never gets a generator, in any run, at any use. *)
Theorem C02_global_never_served sts nx w' outs a out e g k c i s d j key r :
  run_ok sts -> prepare_all sts (WSt scopes_new nx) = Some (w', outs) ->
  nth_error outs a = Some out -> client_at out e g k = Some c ->
  nth_error (c_stmts c) i = Some s -> nth_error (c_data c) i = Some d ->
  nth_error (uses_of (serves (keys_at no_keys sts a)) s d) j = Some (key, r) ->
  key <> NOOP_COLUMN -> scope_in (keys_at no_keys sts a) key = Some SGlobal ->
  r = None.
Proof.
  intros OK H A C S D U N G.
  apply (C01_every_use_is_served _ _ _ _ _ _ _ _ _ _ _ _ _ _ _ _ OK H A C S D U). auto.
Qed.

Module ExG.
  Definition q := plain_stmt "q" ["@g"].
  Definition ts := TrxSet ["t"] (fun t => if String.eqb t "t" then [q] else []) (fun _ => false).
  Definition keys (k : string) : option key :=
    if String.eqb k "@g" then Some (Key k (-1) (Some SGlobal) "int") else None.
  Definition sts := [StageCfg 1 keys ts true [] 0 0].
  Lemma ok : run_ok sts.
  Proof.
    split.
    - intros [|a] [|b] sa sb L A B; cbn in A, B; try lia; try discriminate;
        try (destruct a; discriminate); try (destruct b; discriminate).
    - repeat constructor; cbn.
      + intros k ky. unfold keys. destruct (String.eqb k "@g"); intros H; inv H. reflexivity.
      + intros wl gs c t H. vm_compute in H. inv H. cbn. intros [<-|[]] Y. cbn in Y.
        destruct Y as [<-|[]]. discriminate.
  Qed.
End ExG.

(** The property fails: a statement with one globally scoped input has no generator at all. *)
Theorem C02_refuted :
  run_ok ExG.sts /\
  (exists w, prepare_all ExG.sts (WSt scopes_new 0) = Some (w, outs_of ExG.sts)) /\
  exists out c d, nth_error (outs_of ExG.sts) 0 = Some out /\
    scope_in (keys_at no_keys ExG.sts 0) "@g" = Some SGlobal /\
    client_at out 0 0 0 = Some c /\ nth_error (c_stmts c) 0 = Some ExG.q /\
    nth_error (c_data c) 0 = Some d /\ st_inputs ExG.q = ["@g"%string] /\ d_inputs d = [].
Proof.
  split; [exact ExG.ok|]. split; [apply outs_of_ok; vm_compute; reflexivity|].
  do 3 eexists. vsplit. reflexivity.
Qed.

Print Assumptions C02_global_never_served.
Print Assumptions C02_refuted.

(* ------------------------------------------------------------------------------------ *)
(** * C03 *)

(** Single client scopes: the generator is called by exactly the uses [calling] names, in order,
    and every use returns the newest value. *)
Theorem C03_called_once_per_scope_iteration {G V} (gvalues : G -> runcount -> G * list V) sc g us :
  single_client sc -> counting (scope_counter sc) us ->
  let '(s', outs) := sg_uses _ _ gvalues (sg_new sc g) (map to_use us) in
  let '(g', vs) := gen_run gvalues g (calling (scope_counter sc) [] us) in
  sg_g _ _ s' = g' /\ outs = returns (scope_counter sc) [] [] us vs.
Proof. exact (single_client_ok gvalues sc g us). Qed.

(** A generator counting its calls; two statements, the second with an explicit call. *)
Definition counter_gen (g : N) (_ : runcount) : N * list N := ((g + 1)%N, [(g + 1)%N]).
Definition rc_at (stmt trx iter client cg : N) : runcount := RC stmt trx iter 1 client cg 1 1.

(** A computable check that counters do not decrease (for examples). *)
Fixpoint sorted_b (l : list N) : bool :=
  match l with
  | a :: l' => forallb (fun b => (a <=? b)%N) l' && sorted_b l'
  | [] => true
  end.
Lemma sorted_b_ok {A} (f : A -> N) (us : list A) : sorted_b (map f us) = true ->
  forall i j u u', (i < j)%nat -> nth_error us i = Some u -> nth_error us j = Some u' -> (f u <= f u')%N.
Proof.
  induction us as [|a us IH]; intros H i j u u' L A1 A2; [destruct i; discriminate|].
  cbn in H. apply andb_true_iff in H as [H1 H2].
  destruct j as [|j]; [lia|]. destruct i as [|i]; cbn in A1, A2.
  - inv A1. rewrite forallb_forall in H1. apply N.leb_le, H1, in_map. eapply nth_error_In; eauto.
  - apply (IH H2 i j); auto. lia.
Qed.

Example C03_example :
  let us := [(false, rc_at 1 1 1 1 1); (false, rc_at 1 1 1 1 1);
             (false, rc_at 2 1 1 1 1); (true, rc_at 2 1 1 1 1); (false, rc_at 2 1 1 1 1)] in
  single_client SStatement /\ counting (scope_counter SStatement) us /\
  snd (sg_uses _ _ counter_gen (sg_new SStatement 0%N) (map to_use us)) = [[1]; [1]; [2]; [3]; [3]]%N.
Proof.
  split; [left; reflexivity|]. split; [|reflexivity]. split.
  - intros u H. cbn in H. repeat (destruct H as [<-|H]; [cbn; lia|]). destruct H.
  - apply sorted_b_ok. reflexivity.
Qed.

Print Assumptions C03_called_once_per_scope_iteration.

(* ------------------------------------------------------------------------------------ *)
(** * C04 *)

(** Clients with pairwise different client numbers (the clients of one client group) sharing a
    generator: in every interleaving each client's uses call the generator exactly on its first
    use in each of its iterations (or explicitly), and it keeps seeing the newest value generated
    for it.  The generator is called exactly for these calls. *)
Theorem C04_each_client_iteration_partial {G V} (gvalues : G -> runcount -> G * list V) num g0 ls s tr :
  (forall t t', num t = num t' -> t = t') ->
  m_run _ _ gvalues (m_init g0) ls = Some (s, tr) ->
  trace_ok num tr ->
  gen_run gvalues g0 (all_calls tr) = (m_g _ _ s, all_values tr) /\
  forall t, m_ph _ _ s t = MIdle _ ->
    map fst (calls_by t tr) = calling rc_iter [] (uses_by t tr) /\
    rets_by t tr = returns rc_iter [] [] (uses_by t tr) (map snd (calls_by t tr)).
Proof. exact (multi_client_ok gvalues num g0 ls s tr). Qed.

(** Two clients of one client group, interleaved. *)
Definition C04_labels : list mlabel :=
  [LUse 0 false (rc_at 1 1 1 1 1); LUse 1 false (rc_at 1 1 1 2 1); LGo 1; LGo 0; LGo 0; LGo 1;
   LUse 0 false (rc_at 2 1 1 1 1); LUse 1 false (rc_at 2 2 2 2 1); LGo 1; LGo 1;
   LUse 0 false (rc_at 3 1 1 1 1)].

Example C04_example :
  exists s tr, m_run _ _ counter_gen (m_init 0%N) C04_labels = Some (s, tr) /\
    trace_ok (fun t => N.of_nat (t + 1)) tr /\
    rets_by 0 tr = [[2]; [2]; [2]]%N /\ rets_by 1 tr = [[1]; [3]]%N.
Proof.
  do 2 eexists. split; [vm_compute; reflexivity|]. split; [|split; reflexivity]. split.
  - intros [|[|t]] ex c H; cbn in H; repeat (destruct H as [H|H]; [inv H; reflexivity|]); destruct H.
  - intros [|[|t]] i j; [apply sorted_b_ok; reflexivity|apply sorted_b_ok; reflexivity|].
    intros u u' _ A. cbn in A. destruct i; discriminate.
Qed.

(** Finding: with exec-group or workload scope two clients of different client groups have the
    same client number; the second one's first use then calls nothing and returns the first
    one's value. *)
Theorem C04_refuted :
  exists ls s tr,
    m_run _ _ counter_gen (m_init 0%N) ls = Some (s, tr) /\
    uses_by 0 tr = [(false, rc_at 1 1 1 1 1)] /\       (* client 1 of client group 1 *)
    uses_by 1 tr = [(false, rc_at 1 1 1 1 2)] /\       (* client 1 of client group 2 *)
    calls_by 1 tr = [] /\ rets_by 1 tr = rets_by 0 tr /\
    calling rc_iter [] (uses_by 1 tr) <> [].
Proof.
  exists [LUse 0 false (rc_at 1 1 1 1 1); LGo 0; LGo 0; LUse 1 false (rc_at 1 1 1 1 2)].
  do 2 eexists. split; [vm_compute; reflexivity|]. repeat split; try reflexivity. discriminate.
Qed.

(** ... and the allocator does give both clients that generator: @b with exec-group scope. *)
Module ExE.
  Definition q := plain_stmt "q" ["@b"].
  Definition ts := TrxSet ["t"] (fun t => if String.eqb t "t" then [q] else []) (fun _ => false).
  Definition keys (k : string) : option key :=
    if String.eqb k "@b" then Some (Key k (-1) (Some SExecGroup) "int") else None.
  Definition sts := [StageCfg 1 keys ts true [Ex.cg "A" ["t"] 1; Ex.cg "A" ["t"] 1] 0 0].
End ExE.
Example C04_refuted_reachable :
  (exists w, prepare_all ExE.sts (WSt scopes_new 0) = Some (w, outs_of ExE.sts)) /\
  exists out c c' p,
    nth_error (outs_of ExE.sts) 0 = Some out /\
    client_at out 0 0 0 = Some c /\ client_at out 0 1 0 = Some c' /\
    map d_inputs (c_data c) = [[(p, false)]] /\ map d_inputs (c_data c') = [[(p, false)]] /\
    rl_client (c_rl c) = rl_client (c_rl c') /\ rl_cg (c_rl c) <> rl_cg (c_rl c').
Proof.
  split; [apply outs_of_ok; vm_compute; reflexivity|].
  do 4 eexists. vsplit. discriminate.
Qed.

Print Assumptions C04_each_client_iteration_partial.
Print Assumptions C04_refuted.

(* ------------------------------------------------------------------------------------ *)
(** * C05 *)

(** What holds: explicit calls of a one-time key always generate and return a new value. *)
Theorem C05_explicit_call_partial {G V} (gvalues : G -> runcount -> G * list V) sc s cnt :
  sc = SStage \/ sc = SGlobal ->
  sg_cls _ _ s = sg_class sc ->
  let '(s', v) := sg_use _ _ gvalues s (Use true cnt) in
  (sg_g _ _ s', v) = gvalues (sg_g _ _ s) cnt.
Proof.
  intros [-> | ->] C; cbn in *; unfold sg_call; destruct (gvalues (sg_g _ _ s) cnt); rewrite C; reflexivity.
Qed.
Example C05_example :
  let s := sg_new (V:=N) SStage 4%N in
  sg_cls _ _ s = sg_class SStage /\ snd (sg_use _ _ counter_gen s (Use true (rc_at 1 1 1 1 1))) = [5%N].
Proof. split; reflexivity. Qed.

(** Finding: without explicit calls nothing is ever generated ... *)
Theorem C05_refuted {G V} (gvalues : G -> runcount -> G * list V) sc g us :
  sc = SStage \/ sc = SGlobal ->
  (forall u, In u us -> fst u = false) ->
  let '(s', outs) := sg_uses _ _ gvalues (sg_new sc g) (map to_use us) in
  sg_g _ _ s' = g /\ outs = map (fun _ => []) us.
Proof.
  intros SC. assert (X : forall s, sg_cls _ _ s = COneTime -> sg_vals _ _ s = None -> 
    (forall u, In u us -> fst u = false) ->
    let '(s', outs) := sg_uses _ _ gvalues s (map to_use us) in
    sg_g _ _ s' = sg_g _ _ s /\ outs = map (fun _ => @nil V) us).
  { induction us as [|[ex c] us IH]; intros s C N I; cbn [map sg_uses]; [auto|].
    pose proof (I (ex, c) (or_introl eq_refl)) as E. cbn in E. subst ex.
    change (to_use (false, c)) with (Use false c). cbn [sg_use]. unfold sg_values. rewrite C, N.
    specialize (IH s C N). destruct (sg_uses _ _ gvalues s (map to_use us)) as [s2 o].
    destruct IH as [A B]; [intros; apply I; right; auto|]. split; auto. cbn. now rewrite B. }
  intros I. apply X; auto. destruct SC as [-> | ->]; reflexivity.
Qed.
Example C05_refuted_example :
  snd (sg_uses _ _ counter_gen (sg_new SStage 0%N) (map to_use [(false, rc_at 1 1 1 1 1); (false, rc_at 2 1 1 1 1)]))
  = [[]; []].
Proof. reflexivity. Qed.

(** ... and after an explicit call every implicit use generates again. *)
Theorem C05_refuted_after_call {G V} (gvalues : G -> runcount -> G * list V) sc s cnt v0 :
  sc = SStage \/ sc = SGlobal ->
  sg_cls _ _ s = sg_class sc -> sg_vals _ _ s = Some v0 ->
  let '(s', v) := sg_use _ _ gvalues s (Use false cnt) in
  (sg_g _ _ s', v) = gvalues (sg_g _ _ s) cnt /\ sg_vals _ _ s' = Some v.
Proof.
  intros [-> | ->] C N; cbn in *; unfold sg_values, sg_call; rewrite C, N;
    destruct (gvalues (sg_g _ _ s) cnt); split; reflexivity.
Qed.

Print Assumptions C05_explicit_call_partial.
Print Assumptions C05_refuted.
Print Assumptions C05_refuted_after_call.
