(** Properties of exec groups and client allocation: C23-C27, C59. *)
From Verif Require Import Prelude ListAux ScopeModel StmtModel WorkloadModel WorkloadSpec
  WalkProofs FlatProofs InstanceProofs GroupProofs WireProofs.
#[local] Open Scope string_scope.
#[local] Open Scope list_scope.

(* ------------------------------------------------------------------------------------ *)
(** * C23 *)

(** Grouping never panics, and its exec groups are the maximal runs of equally named client groups. *)
Theorem C23_exec_groups_partition ts w : exists wl gs,
  groups ts w = Some (wl, gs) /\ (w <> [] -> length wl = length w) /\
  concat gs = seq 0 (length wl) /\ Forall (fun g => g <> []) gs /\
  (forall g a b, In g gs -> In a g -> In b g -> name_of wl a = name_of wl b) /\
  (forall e g g' a b, nth_error gs e = Some g -> nth_error gs (S e) = Some g' -> In a g -> In b g' ->
     name_of wl a <> name_of wl b) /\
  (forall c, In c wl -> cg_group c <> "").
Proof.
  destruct (groups_spec ts w) as (w0 & wl & gs & W1 & _ & G & F & _).
  exists wl, gs. split; [exact G|]. split; [intros X; rewrite F, fill_length, (W1 X); reflexivity|].
  exact (groups_partition ts w wl gs G).
Qed.

(** Names and trx lists given by the user are kept. *)
Theorem C23_configuration_kept ts w wl gs i c :
  groups ts w = Some (wl, gs) -> nth_error w i = Some c ->
  exists name iter, nth_error wl i = Some (cg_with c name (trx_of ts c) iter) /\
    name <> "" /\ (cg_group c <> "" -> name = cg_group c).
Proof.
  intros H Hc. destruct (groups_fill ts w wl gs i c H Hc) as (n & A & B & C). eauto 6.
Qed.

Module ExW.
  Definition s1 := plain_stmt "t" [].
  Definition ts := TrxSet ["create"; "load"; "read"; "write"] (fun t => if String.eqb t "create" then [s1] else [s1; s1])
                          (fun t => String.eqb t "create").
  Definition cg (name : string) (trx : list string) (n : N) : cgcfg :=
    CgCfg name trx n "" false 0 0 0 0 0 0 0 0 0.
  Definition w := [cg "" ["create"] 1; cg "" ["load"] 4; cg "" ["write"] 2; cg "x" ["read"] 3; cg "x" [] 1; cg "" ["read"] 1;
                   cg "" ["create"; "read"] 1].
End ExW.

Example C23_example : option_map (fun p => (map cg_group (fst p), snd p)) (groups ExW.ts ExW.w) =
  Some (["ddl1"; "dml1"; "dml1"; "x"; "x"; "dml1"; "ddl2"], [[0]; [1; 2]; [3; 4]; [5]; [6]])%nat.
Proof. vm_compute. reflexivity. Qed.

(* ------------------------------------------------------------------------------------ *)
(** * C24 *)

(** The name of an unnamed client group with DDL differs from that of every other unnamed group. *)
Theorem C24_ddl_name_unique ts w wl gs i j ci cj :
  groups ts w = Some (wl, gs) -> nth_error w i = Some ci -> nth_error w j = Some cj -> i <> j ->
  cg_group ci = "" -> cg_group cj = "" -> runs_ddl ts ci -> name_of wl i <> name_of wl j.
Proof. exact (groups_unnamed ts w wl gs i j ci cj). Qed.

(** It is alone in its exec group, provided the user chose no name like [ddl1] or [dml1] (see
    [C24_refuted] for the general case). *)
Theorem C24_ddl_alone_partial ts w wl gs i c e refs :
  groups ts w = Some (wl, gs) -> nth_error w i = Some c -> cg_group c = "" -> runs_ddl ts c ->
  (forall c', In c' w -> ~ auto_name (cg_group c')) ->
  nth_error gs e = Some refs -> In i refs -> refs = [i].
Proof. exact (groups_ddl_alone ts w wl gs i c e refs). Qed.

(** Consecutive unnamed client groups without DDL share an exec group. *)
Theorem C24_dml_together ts w wl gs i ci cj :
  groups ts w = Some (wl, gs) -> nth_error w i = Some ci -> nth_error w (S i) = Some cj ->
  cg_group ci = "" -> cg_group cj = "" -> ~ runs_ddl ts ci -> ~ runs_ddl ts cj ->
  exists e, in_group gs i e /\ in_group gs (S i) e.
Proof. exact (groups_dml_together ts w wl gs i ci cj). Qed.

(** A client group with DDL and no iter limit runs one iteration; otherwise iter is as configured. *)
Theorem C24_ddl_iter ts w wl gs i c :
  groups ts w = Some (wl, gs) -> nth_error w i = Some c ->
  exists c', nth_error wl i = Some c' /\
    (runs_ddl ts c -> cg_iter c = 0%N -> cg_iter c' = 1%N) /\
    (~ runs_ddl ts c \/ cg_iter c <> 0%N -> cg_iter c' = cg_iter c).
Proof.
  intros H Hc. destruct (groups_fill ts w wl gs i c H Hc) as (n & A & _ & _).
  eexists. split; [exact A|]. cbn. unfold runs_ddl. rewrite <- has_ddl_iff.
  destruct (has_ddl ts (trx_of ts c)) eqn:D; cbn [andb]; split.
  - intros _ ->. reflexivity.
  - intros [X|X]; [congruence|]. apply N.eqb_neq in X. now rewrite X.
  - discriminate.
  - auto.
Qed.

Example C24_example : exists wl gs,
  groups ExW.ts ExW.w = Some (wl, gs) /\ runs_ddl ExW.ts (ExW.cg "" ["create"; "read"] 1) /\
  (forall c', In c' ExW.w -> ~ auto_name (cg_group c')) /\
  nth_error gs 4 = Some [6%nat] /\ option_map cg_iter (nth_error wl 6) = Some 1%N /\
  option_map cg_iter (nth_error wl 4) = Some 1%N /\ option_map cg_iter (nth_error wl 5) = Some 0%N.
Proof.
  eexists _, _. split; [vm_compute; reflexivity|]. split; [exists "create"; cbn; auto|].
  split; [|vm_compute; auto].
  intros c' H [k [E|E]]; cbn in H; repeat (destruct H as [<-|H]; [discriminate|]); destruct H.
Qed.

(** A user may name a client group without DDL [ddl1]; the unnamed group with DDL after it gets
    the same name and runs concurrently with it. *)
Theorem C24_refuted : ~ (forall ts w wl gs i c e refs,
  groups ts w = Some (wl, gs) -> nth_error w i = Some c -> cg_group c = "" -> runs_ddl ts c ->
  nth_error gs e = Some refs -> In i refs -> refs = [i]).
Proof.
  intros H.
  assert (X := H ExW.ts [ExW.cg "ddl1" ["read"] 1; ExW.cg "" ["create"] 1] _ _ 1%nat (ExW.cg "" ["create"] 1) 0%nat [0; 1]%nat
    ltac:(vm_compute; reflexivity) eq_refl eq_refl).
  assert (Y : runs_ddl ExW.ts (ExW.cg "" ["create"] 1)) by (exists "create"; cbn; auto).
  specialize (X Y eq_refl). cbn in X. specialize (X (or_intror (or_introl eq_refl))). discriminate.
Qed.

(* ------------------------------------------------------------------------------------ *)
(** * C25 *)

(** The default workload: all trx in stage order, one exec group per client group, one client
    each (no database, no limits but iter); a trx with DDL alone with one iteration; no two neighbouring groups without DDL. *)
Theorem C25_default_workload ts : exists wl gs,
  groups ts [] = Some (wl, gs) /\
  concat (map cg_trx wl) = ts_order ts /\
  gs = map (fun i => [i]) (seq 0 (length wl)) /\
  Forall (fun c => cg_trx c <> [] /\
     ((exists t name, c = CgCfg name [t] 1 "" false 1 0 0 0 0 0 0 0 0 /\ ts_ddl ts t = true) \/
      (exists name, c = CgCfg name (cg_trx c) 1 "" false 0 0 0 0 0 0 0 0 0 /\ Forall (fun t => ts_ddl ts t = false) (cg_trx c)))) wl /\
  (forall i a b, nth_error wl i = Some a -> nth_error wl (S i) = Some b ->
     (exists t, In t (cg_trx a ++ cg_trx b) /\ ts_ddl ts t = true)).
Proof. exact (auto_workload ts). Qed.

Example C25_example :
  option_map (fun p => (map (fun c => (cg_trx c, cg_clients c, cg_iter c)) (fst p), snd p))
    (groups (TrxSet ["create"; "load"; "read"; "create"; "create"; "write"] (fun _ => []) (fun t => String.eqb t "create")) []) =
  Some ([(["create"], 1, 1); (["load"; "read"], 1, 0); (["create"], 1, 1); (["create"], 1, 1); (["write"], 1, 0)]%N,
        [[0]; [1]; [2]; [3]; [4]]%nat).
Proof. vm_compute. reflexivity. Qed.

(* ------------------------------------------------------------------------------------ *)
(** * C26 *)

Lemma nth_concat {A} (ls : list (list A)) : forall t j l, nth_error ls t = Some l -> (j < length l)%nat ->
  nth_error (concat ls) (list_sum (map (@length A) (firstn t ls)) + j) = nth_error l j.
Proof.
  induction ls as [|l0 ls IH]; intros [|t] j l H L; cbn in H; try discriminate.
  - inv H. cbn. now rewrite nth_error_app1.
  - cbn [firstn map concat]. change (list_sum (length l0 :: map (@length A) (firstn t ls)))
      with (length l0 + list_sum (map (@length A) (firstn t ls)))%nat.
    rewrite nth_error_app2 by lia.
    replace (length l0 + list_sum (map (length (A:=A)) (firstn t ls)) + j - length l0)%nat
      with (list_sum (map (@length A) (firstn t ls)) + j)%nat by lia. eauto.
Qed.

Lemma nth_mapi {A B} (f : nat -> A -> B) l : forall n i, nth_error (mapi_from f n l) i = option_map (f (n + i)%nat) (nth_error l i).
Proof.
  induction l as [|a l IH]; intros n [|i]; cbn; auto.
  - now rewrite Nat.add_0_r.
  - rewrite IH. now rewrite Nat.add_succ_comm.
Qed.

(** Every client has the statements of its group's trx, in order; statement [j] of the [t]-th trx
    is at position (statements of the trx before it) + [j] with the begin mark iff it is the first
    and the end mark iff it is the last one of the trx; nothing else is in the list. *)
Theorem C26_client_statements ts ws stage w q t nx nx' out wl gs e g k c cg :
  allocate ts ws stage w q t nx = Some (nx', out) -> groups ts w = Some (wl, gs) ->
  (forall cg t, In cg wl -> In t (cg_trx cg) -> ts_stmts ts t <> []) ->
  client_at out e g k = Some c -> cg_at wl gs e g = Some cg ->
  let lens := map (fun n => length (ts_stmts ts n)) (cg_trx cg) in
  length (c_stmts c) = list_sum lens /\ length (c_data c) = list_sum lens /\
  (forall i name j s, nth_error (cg_trx cg) i = Some name -> nth_error (ts_stmts ts name) j = Some s ->
     let n := (list_sum (firstn i lens) + j)%nat in
     nth_error (c_stmts c) n = Some s /\
     exists d, nth_error (c_data c) n = Some d /\
       (d_begin d = true <-> j = 0%nat) /\ (d_end d = true <-> S j = length (ts_stmts ts name))) /\
  c_stats c = map (fun n => if ws && negb (cg_disableStats cg) then Some n else None) (cg_trx cg).
Proof.
  intros H G NE HC HG lens. unfold allocate in H.
  destruct (new_rate nx q) as [w1 sq]. destruct (new_rate w1 t) as [w2 st]. rewrite G in H.
  destruct (clients_of _ _ _ _ _ _ _ _ _ _ H NE) as [LO CO].
  unfold client_at in HC. destruct (nth_error out e) as [css|] eqn:H1; [|discriminate].
  destruct (nth_error css g) as [cs|] eqn:H2; [|discriminate].
  destruct (CO _ _ H1) as (refs & R1 & R2 & R3). destruct (R3 _ _ H2) as (r & cg' & Q1 & Q2 & Q3 & Q4).
  assert (cg' = cg) as -> by (unfold cg_at in HG; rewrite R1, Q1 in HG; congruence).
  destruct (Q4 _ _ HC) as (C1 & C2 & C3 & C4 & C5 & _).
  assert (LEN : length (c_stmts c) = list_sum lens).
  { rewrite C1. subst lens. clear. induction (cg_trx cg) as [|a l IH]; cbn; auto. now rewrite app_length, IH. }
  assert (LD : length (c_stmts c) = length (c_data c)) by (eapply F2_length; eauto).
  split; auto. split; [congruence|]. split; auto.
  intros i name j s Hi Hj n.
  assert (LJ : (j < length (ts_stmts ts name))%nat) by (apply nth_error_Some; congruence).
  assert (OFF : forall {B} (f : string -> list B), (forall t, length (f t) = length (ts_stmts ts t)) ->
     nth_error (concat (map f (cg_trx cg))) n = nth_error (f name) j).
  { intros B f Hf. subst n lens.
    rewrite <- (nth_concat (map f (cg_trx cg)) i j (f name)); [|rewrite nth_error_map, Hi; reflexivity|now rewrite Hf].
    do 2 f_equal. rewrite !firstn_map, map_map. f_equal. apply map_ext. intros. now rewrite Hf. }
  split.
  - rewrite C1, OFF; auto.
  - assert (X : nth_error (map (fun d => (d_begin d, d_end d)) (c_data c)) n = Some (Nat.eqb j 0, Nat.eqb (S j) (length (ts_stmts ts name)))).
    { rewrite C4, OFF.
      - rewrite nth_mapi, Hj. reflexivity.
      - intros x. apply length_mapi_from. }
    rewrite nth_error_map in X. destruct (nth_error (c_data c) n) as [d|]; [|discriminate]. cbn in X.
    exists d. injection X as X1 X2. split; auto. rewrite X1, X2, !Nat.eqb_eq. tauto.
Qed.

(** The clients of a group: as many as configured, and as many groups as formed. *)
Theorem C26_number_of_clients ts ws stage w q t nx nx' out wl gs e g cg k :
  allocate ts ws stage w q t nx = Some (nx', out) -> groups ts w = Some (wl, gs) ->
  (forall cg t, In cg wl -> In t (cg_trx cg) -> ts_stmts ts t <> []) ->
  cg_at wl gs e g = Some cg -> (client_at out e g k <> None <-> (N.of_nat k < cg_clients cg)%N).
Proof.
  intros H G NE HG. unfold allocate in H.
  destruct (new_rate nx q) as [w1 sq]. destruct (new_rate w1 t) as [w2 st]. rewrite G in H.
  destruct (clients_of _ _ _ _ _ _ _ _ _ _ H NE) as [LO CO].
  unfold cg_at in HG. destruct (nth_error gs e) as [refs|] eqn:R1; [|discriminate].
  destruct (nth_error refs g) as [r|] eqn:Q1; [|discriminate].
  destruct (nth_error out e) as [css|] eqn:H1;
    [|exfalso; apply nth_error_None in H1; assert (e < length gs)%nat by (apply nth_error_Some; congruence); lia].
  destruct (CO _ _ H1) as (refs' & R1' & R2 & R3). assert (refs' = refs) as -> by congruence.
  destruct (nth_error css g) as [cs|] eqn:H2;
    [|exfalso; apply nth_error_None in H2; assert (g < length refs)%nat by (apply nth_error_Some; congruence); lia].
  destruct (R3 _ _ H2) as (r' & cg' & Q1' & Q2 & Q3 & Q4). assert (r' = r) as -> by congruence.
  assert (cg' = cg) as -> by congruence.
  unfold client_at. rewrite H1, H2, nth_error_Some. lia.
Qed.

Module ExL.
  Definition k0 := WSt scopes_new 0.
  Definition cg (name : string) (trx : list string) (n ic ie q qc qe tc : N) : cgcfg :=
    CgCfg name trx n "" false 0 ic ie q qc qe 0 tc 0.
  Definition w := [cg "A" ["load"; "create"; "load"] 2 10 100 5 50 500 0;
                   cg "A" ["read"] 1 20 0 0 0 0 7;
                   cg "B" ["write"] 1 30 300 6 0 0 0].
  Definition out := match allocate ExW.ts true 1 w 1000 0 k0 with Some (_, o) => o | None => [] end.
  Definition wl := match groups ExW.ts w with Some (x, _) => x | None => [] end.
  Definition gs := match groups ExW.ts w with Some (_, x) => x | None => [] end.
  Definition pick {A} (f : client -> A) : list (list (list A)) := map (map (map f)) out.
End ExL.

Example C26_example :
  (exists nx', allocate ExW.ts true 1 ExL.w 1000 0 ExL.k0 = Some (nx', ExL.out)) /\
  groups ExW.ts ExL.w = Some (ExL.wl, ExL.gs) /\
  (forall cg t, In cg ExL.wl -> In t (cg_trx cg) -> ts_stmts ExW.ts t <> []) /\
  ExL.pick (fun c => length (c_stmts c)) = [[[5; 5]; [2]]; [[2]]]%nat /\
  nth_error (concat (concat (ExL.pick (fun c => map (fun d => (d_begin d, d_end d)) (c_data c))))) 0 =
    Some [(true, false); (false, true); (true, true); (true, false); (false, true)] /\
  ExL.pick c_stats = [[[[Some "load"; Some "create"; Some "load"]; [Some "load"; Some "create"; Some "load"]]; [[Some "read"]]]; [[[Some "write"]]]].
Proof.
  split; [|split; [|split; [|vm_compute; auto]]].
  - unfold ExL.out. destruct (allocate ExW.ts true 1 ExL.w 1000 0 ExL.k0) as [[a b]|] eqn:E; [eexists; reflexivity|].
    assert (X : match allocate ExW.ts true 1 ExL.w 1000 0 ExL.k0 with Some _ => true | None => false end = true) by (vm_compute; reflexivity).
    rewrite E in X. discriminate.
  - vm_compute. reflexivity.
  - intros cg t _ _. cbn. destruct (t =? "create")%string; discriminate.
Qed.

(* ------------------------------------------------------------------------------------ *)
(** * C27 *)

(** Counters: a client has the iter-clients (iter-exec-group) counter iff its group sets the
    limit, two clients have the same counter iff they are in the same client group (exec group),
    and the two kinds are never mixed up. *)
Theorem C27_counters_shared ts ws stage wl qn tn w w' out wl' gs e g k c e' g' k' c' cg :
  allocate ts ws stage wl qn tn w = Some (w', out) -> groups ts wl = Some (wl', gs) ->
  client_at out e g k = Some c -> client_at out e' g' k' = Some c' -> cg_at wl' gs e g = Some cg ->
  (c_iterClients c = u32 (cg_iterClients cg) /\ (c_iterClientsPtr c = None <-> cg_iterClients cg = 0%N)) /\
  (c_iterEg c = u32 (cg_iterExecGroup cg) /\ (c_iterEgPtr c = None <-> cg_iterExecGroup cg = 0%N)) /\
  (forall p p', c_iterClientsPtr c = Some p -> c_iterClientsPtr c' = Some p' -> (p = p' <-> e = e' /\ g = g')) /\
  (forall p p', c_iterEgPtr c = Some p -> c_iterEgPtr c' = Some p' -> (p = p' <-> e = e')) /\
  (forall p p', c_iterClientsPtr c = Some p -> c_iterEgPtr c' = Some p' -> p <> p').
Proof. exact (counters_shared ts ws stage wl qn tn w w' out wl' gs e g k c e' g' k' c' cg). Qed.

(** Run levels identify clients. *)
Theorem C27_run_level_unique ts ws stage w q t nx nx' out wl gs e g k c e' g' k' c' :
  allocate ts ws stage w q t nx = Some (nx', out) -> groups ts w = Some (wl, gs) ->
  (forall cg t, In cg wl -> In t (cg_trx cg) -> ts_stmts ts t <> []) ->
  client_at out e g k = Some c -> client_at out e' g' k' = Some c' ->
  rl_stage (c_rl c) = stage /\
  (rl_eg (c_rl c) = rl_eg (c_rl c') -> rl_cg (c_rl c) = rl_cg (c_rl c') -> rl_client (c_rl c) = rl_client (c_rl c') ->
   e = e' /\ g = g' /\ k = k').
Proof.
  intros H G NE HC HC'. unfold allocate in H.
  destruct (new_rate nx q) as [w1 sq]. destruct (new_rate w1 t) as [w2 st]. rewrite G in H.
  destruct (clients_of _ _ _ _ _ _ _ _ _ _ H NE) as [LO CO].
  assert (X : forall e g k c, client_at out e g k = Some c -> exists cg, client_of ts ws stage e g k cg c).
  { intros e0 g0 k0 c0 X. unfold client_at in X. destruct (nth_error out e0) as [css|] eqn:H1; [|discriminate].
    destruct (nth_error css g0) as [cs|] eqn:H2; [|discriminate].
    destruct (CO _ _ H1) as (refs & R1 & R2 & R3). destruct (R3 _ _ H2) as (r & cg' & Q1 & Q2 & Q3 & Q4). eauto. }
  destruct (X _ _ _ _ HC) as (a & _ & _ & A & _). destruct (X _ _ _ _ HC') as (b & _ & _ & B & _).
  injection A as A1 A2 A3 A4. injection B as B1 B2 B3 B4. split; auto. lia.
Qed.

Example C27_example :
  ExL.pick c_iterClientsPtr = [[[Some 6%nat; Some 6%nat]; [Some 12%nat]]; [[Some 14%nat]]] /\
  ExL.pick c_iterEgPtr = [[[Some 3%nat; Some 3%nat]; [None]]; [[Some 13%nat]]] /\
  ExL.pick c_rl = [[[RL 1 1 1 1 0 0; RL 1 1 1 2 3 2]; [RL 1 1 2 1 3 2]]; [[RL 1 2 1 1 1 2]]].
Proof. vm_compute. auto. Qed.

(* ------------------------------------------------------------------------------------ *)
(** * C59 *)

(** A client waits on exactly the limits that apply to it: the stage's, the exec group's, the
    client group's and its own.  Partial: the exec group's limit is the one set by the first client
    group of the exec group only (see [C59_refuted]). *)
Theorem C59_limits_apply_partial ts ws stage wl qn tn w w' out wl' gs e g k c cg0 cg (q : bool) :
  allocate ts ws stage wl qn tn w = Some (w', out) -> groups ts wl = Some (wl', gs) ->
  client_at out e g k = Some c -> cg_at wl' gs e 0 = Some cg0 -> cg_at wl' gs e g = Some cg ->
  map snd (leaves_of (limiter q c)) = map snd (limits_of q (if q then qn else tn) cg0 cg e g k).
Proof. exact (limiters_ok ts ws stage wl qn tn w w' out wl' gs e g k c cg0 cg q). Qed.

(** Two clients share a limiter exactly if it stands for the same limit of the same part of the
    workload; the qps and tps limiters are never shared. *)
Theorem C59_limiters_shared ts ws stage wl qn tn w w' out wl' gs e g k c cg0 cg e' g' k' c' cg0' cg' (q q' : bool) lf lb lf' lb' :
  allocate ts ws stage wl qn tn w = Some (w', out) -> groups ts wl = Some (wl', gs) ->
  client_at out e g k = Some c -> cg_at wl' gs e 0 = Some cg0 -> cg_at wl' gs e g = Some cg ->
  client_at out e' g' k' = Some c' -> cg_at wl' gs e' 0 = Some cg0' -> cg_at wl' gs e' g' = Some cg' ->
  In (lf, lb) (combine (leaves_of (limiter q c)) (limits_of q (if q then qn else tn) cg0 cg e g k)) ->
  In (lf', lb') (combine (leaves_of (limiter q' c')) (limits_of q' (if q' then qn else tn) cg0' cg' e' g' k')) ->
  (fst lf = fst lf' <-> fst lb = fst lb').
Proof. exact (limiters_shared ts ws stage wl qn tn w w' out wl' gs e g k c cg0 cg e' g' k' c' cg0' cg' q q' lf lb lf' lb'). Qed.

Example C59_example :
  map (map (map (fun l => map snd (leaves_of l)))) (ExL.pick c_qps) =
    [[[[1000; 500; 50; 5]; [1000; 500; 50; 5]]; [[1000; 500]]]; [[[1000; 6]]]]%N /\
  map (map (map leaves_of)) (ExL.pick c_qps) =
    [[[[(0%nat, 1000%N); (1%nat, 500%N); (4%nat, 50%N); (7%nat, 5%N)]; [(0%nat, 1000%N); (1%nat, 500%N); (4%nat, 50%N); (9%nat, 5%N)]];
      [[(0%nat, 1000%N); (1%nat, 500%N)]]]; [[[(0%nat, 1000%N); (15%nat, 6%N)]]]].
Proof. vm_compute. auto. Qed.

(** qps-exec-group set by the second client group of an exec group limits nobody. *)
Theorem C59_refuted : ~ (forall ts ws stage wl w w' out wl' gs e g k c cg,
  allocate ts ws stage wl 0 0 w = Some (w', out) -> groups ts wl = Some (wl', gs) ->
  client_at out e g k = Some c -> cg_at wl' gs e g = Some cg -> cg_qpsExecGroup cg <> 0%N ->
  In (cg_qpsExecGroup cg) (map snd (leaves_of (c_qps c)))).
Proof.
  intros H.
  set (wl := [ExL.cg "A" ["read"] 1 0 0 0 0 0 0; ExL.cg "A" ["read"] 1 0 0 0 0 9 0]).
  destruct (allocate ExW.ts true 1 wl 0 0 ExL.k0) as [[w' out]|] eqn:E.
  2:{ assert (X : match allocate ExW.ts true 1 wl 0 0 ExL.k0 with Some _ => true | None => false end = true) by (vm_compute; reflexivity).
      rewrite E in X. discriminate. }
  assert (O : option_map snd (allocate ExW.ts true 1 wl 0 0 ExL.k0) = Some out) by (rewrite E; reflexivity).
  vm_compute in O. inv O.
  specialize (H ExW.ts true 1%N wl ExL.k0 w' _ _ _ 0%nat 1%nat 0%nat _ _ E eq_refl eq_refl eq_refl).
  vm_compute in H. apply H. discriminate.
Qed.

Print Assumptions C23_exec_groups_partition.
Print Assumptions C23_configuration_kept.
Print Assumptions C24_ddl_name_unique.
Print Assumptions C24_ddl_alone_partial.
Print Assumptions C24_dml_together.
Print Assumptions C24_ddl_iter.
Print Assumptions C24_refuted.
Print Assumptions C25_default_workload.
Print Assumptions C26_client_statements.
Print Assumptions C26_number_of_clients.
Print Assumptions C27_counters_shared.
Print Assumptions C27_run_level_unique.
Print Assumptions C59_limits_apply_partial.
Print Assumptions C59_limiters_shared.
Print Assumptions C59_refuted.
