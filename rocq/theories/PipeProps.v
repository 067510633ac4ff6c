(** C92-C94: from the configuration to the clients. *)
From Verif Require Import Prelude ConfigModel ConfigSpec ConfigProofs ConfigProps TrxModel TrxSpec TrxLineProofs PipeModel PipeProofs
  PipeKeyProofs PipeRunProofs.
From Verif Require ListAux ConfigVarsProofs ScopeModel ScopeSpec StmtModel WorkloadModel WorkloadSpec GroupProofs RunProofs PrepProofs WorkloadProps TrxProps.
#[local] Open Scope string_scope.
#[local] Open Scope list_scope.

(** ** C92: what is accepted can be prepared *)

(** The stages given to the allocator meet the requirements of C01-C05. *)
Theorem C92_run_ok : forall E bases fs kvs dsn db cs P l,
  load E bases fs kvs dsn db = Some cs -> Forall (fun c => s_disable c = false) cs ->
  load_stages P cs [] = Some l ->
  WorkloadSpec.run_ok (map (fun x => stage_of P (fst x) (snd x)) l).
Proof.
  intros E bases fs kvs dsn db cs P l L D H.
  assert (TN : Forall trx_named cs).
  { rewrite Forall_forall in *. intros c Hc. destruct (C45_workload _ _ _ _ _ _ _ c L Hc (D c Hc)) as (_ & X & _). exact X. }
  apply load_ok in H as [F G]; [|constructor|exact TN].
  assert (NN : forall a st, nth_error (map (fun x => stage_of P (fst x) (snd x)) l) a = Some st -> WorkloadModel.sg_N st = N.of_nat (S a)).
  { intros a st Ha. rewrite nth_error_map in Ha. destruct (nth_error l a) as [[c set]|] eqn:X; [|discriminate].
    injection Ha as <-. cbn [fst snd stage_of WorkloadModel.sg_N].
    rewrite (load_numbers _ _ _ _ _ _ _ a c L); auto. rewrite <- F, nth_error_map, X. reflexivity. }
  split.
  - intros a b sa sb AB A B. apply NN in A. apply NN in B. lia.
  - rewrite Forall_forall in *. intros st Hs. pose proof (G st Hs) as [X1 X2]. apply In_nth_error in Hs as [a Ha].
    apply NN in Ha. split; [lia|]. auto.
Qed.
Print Assumptions C92_run_ok.

(** The part that holds: if no inserted ID is saved in a globally scoped key (or in @PREV), the
    clients of all stages are made. *)
Theorem C92_prepared_partial : forall E bases fs kvs dsn db cs P l,
  load E bases fs kvs dsn db = Some cs -> Forall (fun c => s_disable c = false) cs ->
  load_stages P cs [] = Some l ->
  (forall c set name ss s, In (c, set) l -> sget name (t_stmts set) = Some ss -> In s ss -> p_insert s <> "" ->
     p_insert s <> "@PREV" /\
     (p_insert s = "_" \/ forall k, sget (p_insert s) (t_keys set) = Some k -> k_scope k <> "global")) ->
  prepare_run P l <> None.
Proof.
  intros E bases fs kvs dsn db cs P l L D H I.
  pose proof (C92_run_ok _ _ _ _ _ _ _ _ _ L D H) as OK.
  assert (TN : Forall trx_named cs).
  { rewrite Forall_forall in *. intros c Hc. destruct (C45_workload _ _ _ _ _ _ _ c L Hc (D c Hc)) as (_ & X & _). exact X. }
  apply (load_ready P cs [] WorkloadSpec.no_keys) in H; auto; [|constructor|intros k; reflexivity].
  unfold prepare_run.
  destruct (PrepProofs.run_total _ ScopeModel.scopes_new WorkloadSpec.no_keys 0%N 0%nat RunProofs.RInv_new OK) as (w & outs & E0); auto.
  { destruct OK as [_ F]. eapply Forall_impl; [|exact F]. intros st (X & _). exact X. }
  rewrite E0. discriminate.
Qed.
Print Assumptions C92_prepared_partial.

Definition P1 (files : string -> option (list string)) : penv :=
  PEnv E0 TrxProps.make1 (fun ks => ks) (fun ks => ks) (fun _ => files) (fun _ i => i).
Definition stage1 (name : string) (xs : list trx) (gs : list cgroup) : stage :=
  Stage (Compute false "") false "" name empty_mysql 0 [] "" "" (Stats None "" []) "" xs gs.
Definition files1 (f : string) : option (list string) :=
  if String.eqb f "insert.sql" then Some ["-- save-insert-id: @id"; "INSERT INTO t VALUES (@d)"; ""; "SELECT c FROM t WHERE id=@id"]
  else if String.eqb f "read.sql" then Some ["SELECT c FROM t WHERE d=@d"] else None.
Definition d_int (scope : string) : data := Data "" "int" scope [].

Example C92_example : exists cs l w outs,
  load E0 no_base [file (stage1 "a" [Trx "i" "insert.sql" [("d", d_int "stage"); ("id", Data "" "column" "client" [])]] []);
                   file (stage1 "b" [Trx "r" "read.sql" [("d", d_int "")]; Trx "i" "insert.sql" [("d", d_int "")]]
                                    [gx "g" ["r"; "i"]; gx "g" ["r"]])] [] "" "" = Some cs /\
  Forall (fun c => s_disable c = false) cs /\ load_stages (P1 files1) cs [] = Some l /\
  (forall c set name ss s, In (c, set) l -> sget name (t_stmts set) = Some ss -> In s ss -> p_insert s <> "" ->
     p_insert s <> "@PREV" /\
     (p_insert s = "_" \/ forall k, sget (p_insert s) (t_keys set) = Some k -> k_scope k <> "global")) /\
  prepare_run (P1 files1) l = Some (w, outs) /\ map (map (map (@List.length _))) outs = [[[1]]; [[1; 1]]]%nat.
Proof.
  do 4 eexists. split; [vm_compute; reflexivity|]. split; [repeat constructor|]. split; [vm_compute; reflexivity|].
  split; [|split; [vm_compute; reflexivity|reflexivity]].
  intros c set name ss s [[= <- <-]|[[= <- <-]|[]]] Hs; cbn [t_stmts sget] in Hs;
    repeat match type of Hs with (if ?b then _ else _) = _ => destruct b end; try discriminate; injection Hs as <-;
    intros Hin; repeat destruct Hin as [<-|Hin]; try easy; intros _; (split; [discriminate|]; right;
    intros k Hk; vm_compute in Hk; injection Hk as <-; discriminate).
Qed.

(** C92 is false for an inserted ID saved in a globally scoped key: that is accepted, and
    then the allocator uses a generator that is not there (workload.go 262-266). *)
Theorem C92_refuted : exists fs cs l,
  load E0 no_base fs [] "" "" = Some cs /\ Forall (fun c => s_disable c = false) cs /\
  load_stages (P1 files1) cs [] = Some l /\ prepare_run (P1 files1) l = None.
Proof.
  exists [file (stage1 "a" [Trx "i" "insert.sql" [("d", d_int ""); ("id", Data "" "column" "global" [])]] [])].
  do 2 eexists. split; [vm_compute; reflexivity|]. split; [repeat constructor|]. split; [vm_compute; reflexivity|].
  vm_compute. reflexivity.
Qed.
Print Assumptions C92_refuted.

(** ** C93: data keys are generated as configured *)

(** The part that holds: if all trx of the stage that configure the key agree on it, and it
    does not live on from an earlier stage, each statement's key is made with the generator,
    params and scope configured (or is a saved column). *)
Theorem C93_generator_partial : forall T read xs keys0 set x d n name ss s,
  load_trx T read xs (TSet [] [] [] keys0) = Some set -> NoDup (skeys keys0) ->
  In x xs -> sget (cfg_key n) (x_data x) = Some d ->
  (forall y d', In y xs -> sget (cfg_key n) (x_data y) = Some d' ->
     d_gen d' = d_gen d /\ d_params d' = d_params d /\ d_scope d' = d_scope d) ->
  sget n keys0 = None ->
  sget name (t_stmts set) = Some ss -> In s ss -> In n (p_inputs s) -> n <> "@PREV" ->
  exists k, sget n (t_keys set) = Some k /\
    (k_col k <> None \/
     k_gen k = d_gen d /\ te_make T (d_gen d) n (d_params d) = Some (k_fmt k) /\
     (d_scope d <> "" -> k_scope k = d_scope d) /\
     (d_scope d = "" -> k_scope k = "statement" \/ k_scope k = "row")).
Proof.
  intros T read xs keys0 set x d n name ss s H ND Hx Hd AG NO ST Hs Hn NP.
  pose proof (load_trx_ok _ _ _ _ _ H) as ((_ & SO & _) & _).
  { split; [exact ND|]. split; [intros ? ? X; discriminate X|intros ? []]. }
  destruct (SO name ss ST) as [_ F]. rewrite Forall_forall in F. destruct (F s Hs) as (_ & IN & _).
  destruct (IN n Hn) as [|K]; [congruence|]. destruct (sget n (t_keys set)) as [k|] eqn:EK; [|congruence].
  exists k. split; [auto|]. destruct (load_trx_origin _ _ _ _ _ H n k EK) as [X|[X|(y & d' & Hy & Hd' & M)]].
  - cbn [t_keys] in X. congruence.
  - auto.
  - right. destruct (AG y d' Hy Hd') as (A & B & C). unfold made_by in M. now rewrite A, B, C in M.
Qed.
Print Assumptions C93_generator_partial.

(** The scopes a configuration can name (docs: data/scope). *)
Definition scope_names : list (string * ScopeModel.scope) :=
  [("value", ScopeModel.SValue); ("row", ScopeModel.SRow); ("statement", ScopeModel.SStatement);
   ("trx", ScopeModel.STrx); ("iter", ScopeModel.SIter); ("client", ScopeModel.SClient);
   ("client-group", ScopeModel.SClientGroup); ("exec-group", ScopeModel.SExecGroup);
   ("workload", ScopeModel.SWorkload); ("stage", ScopeModel.SStage); ("global", ScopeModel.SGlobal)].

(** A loaded key is allocated in the scope it names, by its generator; only a key that is a
    saved column has a column. *)
Theorem C93_scope : forall P c set n k,
  sget n (t_keys set) = Some k ->
  exists k', WorkloadModel.sg_keys (stage_of P c set) n = Some k' /\
    ScopeModel.k_name k' = n /\ ScopeModel.k_gen k' = k_gen k /\
    (forall sc, ScopeModel.k_scope k' = Some sc <-> In (k_scope k, sc) scope_names) /\
    ((0 <= ScopeModel.k_column k')%Z <-> k_col k <> None).
Proof.
  intros P c set n k H. exists (key_of n k). unfold stage_of, key_of. cbn [WorkloadModel.sg_keys ScopeModel.k_name ScopeModel.k_gen ScopeModel.k_scope ScopeModel.k_column].
  rewrite H. split; [reflexivity|]. split; [reflexivity|]. split; [reflexivity|]. split.
  - intros sc. unfold scope_of, scope_names. split.
    + intros X. repeat match type of X with
        | (if String.eqb ?a ?b then _ else _) = _ => destruct (String.eqb_spec a b) as [->|]; [injection X as <-; cbn [In]; tauto|]
        end. discriminate.
    + cbn [In]. intros X. repeat destruct X as [X|X]; try contradiction; injection X as <- <-; reflexivity.
  - destruct (k_col k); [split; [discriminate|lia]|split; [lia|congruence]].
Qed.
Print Assumptions C93_scope.

Example C93_scope_example : exists k,
  WorkloadModel.sg_keys (stage_of (P1 (fun _ => None)) (stage1 "a" [] []) (TSet [] [] [] [("@d", TrxModel.Key "a" None "exec-group" "int" "%d")])) "@d" = Some k /\
  ScopeModel.k_scope k = Some ScopeModel.SExecGroup /\ (ScopeModel.k_column k < 0)%Z.
Proof. eexists. split; [vm_compute; reflexivity|]. split; reflexivity. Qed.

Definition files2 (f : string) : option (list string) :=
  if String.eqb f "a.sql" then Some ["SELECT c FROM t WHERE id=@id AND n=@n"]
  else if String.eqb f "b.sql" then Some ["SELECT c FROM t WHERE id=@id"] else None.

Example C93_example : exists set ss s k,
  let T := TEnv E0 [] TrxProps.make1 (fun ks => ks) (fun ks => ks) in
  let xs := [Trx "a" "a.sql" [("id", d_int "client"); ("n", Data "" "str" "" [])]; Trx "b" "b.sql" [("id", d_int "client")]] in
  load_trx T files2 xs (TSet [] [] [] []) = Some set /\ sget "b" (t_stmts set) = Some ss /\ In s ss /\ In "@id" (p_inputs s) /\
  sget "@id" (t_keys set) = Some k /\ k_gen k = "int" /\ k_scope k = "client".
Proof.
  do 4 eexists. cbv zeta. split; [vm_compute; reflexivity|]. split; [vm_compute; reflexivity|].
  split; [left; reflexivity|]. split; [left; reflexivity|]. split; [vm_compute; reflexivity|]. split; reflexivity.
Qed.

(** C93 is false for two trx with different generators for a key: the second gets the first
    one's (here: a number in place of a quoted string). *)
Theorem C93_refuted : exists fs c set ss s k,
  load E0 no_base fs [] "" "" = Some [c] /\ s_disable c = false /\ load_stage (P1 files2) c [] = Some set /\
  (exists x d, In x (s_trx c) /\ x_name x = "b" /\ sget "id" (x_data x) = Some d /\ d_gen d = "str") /\
  sget "b" (t_stmts set) = Some ss /\ In s ss /\ p_inputs s = ["@id"] /\
  p_query s = "SELECT c FROM t WHERE id=%d" /\
  sget "@id" (t_keys set) = Some k /\ k_gen k = "int".
Proof.
  exists [file (stage1 "s" [Trx "a" "a.sql" [("id", d_int ""); ("n", d_int "")]; Trx "b" "b.sql" [("id", Data "" "str" "" [])]] [])].
  do 5 eexists. split; [vm_compute; reflexivity|]. split; [reflexivity|]. split; [vm_compute; reflexivity|].
  split; [do 2 eexists; split; [right; left; reflexivity|]; split; [reflexivity|]; split; reflexivity|].
  split; [vm_compute; reflexivity|]. split; [left; reflexivity|]. repeat (split; [vm_compute; reflexivity|]). reflexivity.
Qed.
Print Assumptions C93_refuted.

(** Nor does a later stage get the generator it configures for a stage scoped key. *)
Theorem C93_refuted_stages : exists fs cs l c set k,
  load E0 no_base fs [] "" "" = Some cs /\ Forall (fun c => s_disable c = false) cs /\
  load_stages (P1 files2) cs [] = Some l /\ nth_error l 1 = Some (c, set) /\
  (exists x d, s_trx c = [x] /\ sget "id" (x_data x) = Some d /\ d_gen d = "str" /\ d_scope d = "stage") /\
  sget "@id" (t_keys set) = Some k /\ k_gen k = "int".
Proof.
  exists [file (stage1 "s" [Trx "b" "b.sql" [("id", d_int "stage")]] []);
          file (stage1 "t" [Trx "b" "b.sql" [("id", Data "" "str" "stage" [])]] [])].
  do 5 eexists. split; [vm_compute; reflexivity|]. split; [repeat constructor|]. split; [vm_compute; reflexivity|].
  split; [reflexivity|]. split; [do 2 eexists; split; [reflexivity|]; split; [reflexivity|]; split; reflexivity|].
  split; vm_compute; reflexivity.
Qed.
Print Assumptions C93_refuted_stages.

(** ** C94: clients send the statements of the files listed *)

(** The part that holds: if the trx of a stage have different names, the statements of a
    client of the [g]-th client group of the [e]-th exec group (which is the client group at
    that position of the workload) are those of the files that its client group lists, or of
    all files of the stage, in that order. *)
Theorem C94_queries_partial : forall E bases fs kvs dsn db cs P l w outs a c set out e css g cls cl grp,
  load E bases fs kvs dsn db = Some cs -> Forall (fun c => s_disable c = false) cs ->
  load_stages P cs [] = Some l -> prepare_run P l = Some (w, outs) ->
  nth_error l a = Some (c, set) -> nth_error outs a = Some out -> NoDup (map x_name (s_trx c)) ->
  nth_error out e = Some css -> nth_error css g = Some cls -> In cl cls ->
  nth_error (s_workload c) (list_sum (map (@List.length _) (firstn e out)) + g) = Some grp ->
  exists qss,
    Forall2 (fun name qs => exists x ls keys ss f, In x (s_trx c) /\ x_name x = name /\
        pe_read P (s_file c) (x_file x) = Some ls /\
        load_file (tenv_of P c) name ls keys (x_data x) = Some (ss, f) /\ qs = map p_query ss)
      (match g_trx grp with [] => map x_name (s_trx c) | names => names end) qss /\
    map StmtModel.st_query (WorkloadModel.c_stmts cl) = concat qss.
Proof.
  intros E bases fs kvs dsn db cs P l w outs a c set out e css g cls cl grp L D H PR Ha Ho ND He Hg Hc Hgrp.
  assert (IN : In c cs).
  { assert (TN : Forall trx_named cs).
    { rewrite Forall_forall in *. intros c0 Hc0. destruct (C45_workload _ _ _ _ _ _ _ c0 L Hc0 (D c0 Hc0)) as (_ & X & _). exact X. }
    apply load_ok in H as [F _]; [|constructor|exact TN]. rewrite <- F. apply nth_error_In in Ha.
    apply (in_map fst) in Ha. exact Ha. }
  assert (TN : trx_named c).
  { rewrite Forall_forall in D. destruct (C45_workload _ _ _ _ _ _ _ c L IN (D c IN)) as (_ & X & _). exact X. }
  destruct (load_stages_nth P cs [] l a c set (NoDup_nil _) H Ha) as (keys0 & NK & LS).
  destruct (prepare_nth _ _ _ _ a (stage_of P c set) PR) as (w1 & w2 & out' & Ho' & PS).
  { now rewrite nth_error_map, Ha. }
  rewrite Ho in Ho'. injection Ho' as <-.
  rewrite (client_trx P c keys0 set LS NK TN _ _ _ _ _ _ _ _ _ PS He Hg Hc Hgrp).
  set (names := match g_trx grp with [] => map x_name (s_trx c) | l => l end).
  assert (NM : forall n, In n names -> In n (map x_name (s_trx c))).
  { intros n Hn. subst names. destruct (g_trx grp) as [|t ts] eqn:G; [auto|]. rewrite <- G in Hn.
    destruct (TN grp n (nth_error_In _ _ Hgrp) Hn) as (x & Hx & <-). now apply in_map. }
  clearbody names.
  unfold load_stage in LS. apply load_trx_spec in LS as (_ & _ & LS & _); [|exact ND|reflexivity].
  clear - NM LS. induction names as [|n names IH].
  - exists []. split; [constructor|reflexivity].
  - destruct IH as (qss & A & B); [intros; apply NM; now right|].
    pose proof (NM n (or_introl eq_refl)) as Hn. apply in_map_iff in Hn as (x & <- & Hx).
    destruct (LS x Hx) as (ls & keys & ss & f & R & F & S & _).
    exists (map p_query ss :: qss). split.
    + constructor; [|exact A]. exists x, ls, keys, ss, f. auto.
    + cbn [map concat]. rewrite map_app, B. f_equal. cbn [trxset_of WorkloadModel.ts_stmts]. rewrite S. apply stmts_queries.
Qed.
Print Assumptions C94_queries_partial.

Example C94_example : exists c cs l w outs set out css cls cl grp,
  load E0 no_base [file (stage1 "b" [Trx "r" "read.sql" [("d", d_int "")]; Trx "i" "insert.sql" [("d", d_int "")]]
                                    [gx "x" ["i"]; gx "g" ["r"]; gx "g" ["r"; "i"; "r"]])] [] "" "" = Some cs /\
  Forall (fun c => s_disable c = false) cs /\ load_stages (P1 files1) cs [] = Some l /\
  prepare_run (P1 files1) l = Some (w, outs) /\
  nth_error l 0 = Some (c, set) /\ nth_error outs 0 = Some out /\ NoDup (map x_name (s_trx c)) /\
  nth_error out 1 = Some css /\ nth_error css 1 = Some cls /\ In cl cls /\
  nth_error (s_workload c) (list_sum (map (@List.length _) (firstn 1 out)) + 1) = Some grp /\
  g_trx grp = ["r"; "i"; "r"] /\
  map StmtModel.st_query (WorkloadModel.c_stmts cl) =
    ["SELECT c FROM t WHERE d=%d"; "INSERT INTO t VALUES (%d)"; "SELECT c FROM t WHERE id='%s'"; "SELECT c FROM t WHERE d=%d"].
Proof.
  do 11 eexists. split; [vm_compute; reflexivity|]. split; [repeat constructor|]. split; [vm_compute; reflexivity|].
  split; [vm_compute; reflexivity|]. split; [reflexivity|]. split; [reflexivity|].
  split; [repeat constructor; cbn; intuition discriminate|]. split; [reflexivity|]. split; [reflexivity|].
  split; [left; reflexivity|]. repeat (split; [reflexivity|]). reflexivity.
Qed.

(** C94 is false if two trx have the same name: the files of both are listed, and the second one
    is run twice (see C46). *)
Theorem C94_refuted : exists fs cs c set l w outs cl,
  load E0 no_base fs [] "" "" = Some cs /\ Forall (fun c => s_disable c = false) cs /\
  load_stages (P1 (fun f => Some [f])) cs [] = Some l /\ prepare_run (P1 (fun f => Some [f])) l = Some (w, outs) /\
  l = [(c, set)] /\ outs = [[[[cl]]]] /\ map x_file (s_trx c) = ["SELECT 1"; "SELECT 2"] /\
  map StmtModel.st_query (WorkloadModel.c_stmts cl) = ["SELECT 2"; "SELECT 2"].
Proof.
  exists [file (stage1 "s" [Trx "x" "SELECT 1" []; Trx "x" "SELECT 2" []] [])].
  do 7 eexists. split; [vm_compute; reflexivity|]. split; [repeat constructor|]. split; [vm_compute; reflexivity|].
  split; [vm_compute; reflexivity|]. repeat (split; [reflexivity|]). reflexivity.
Qed.
Print Assumptions C94_refuted.

Lemma decimal_ne n : ~ decimal "" n.
Proof. intros H. remember "" as s eqn:E. destruct H as [d|s n d]; [discriminate|destruct s; discriminate]. Qed.
Lemma digits_app s d acc v : digits_value acc s = Some v -> digit d ->
  digits_value acc (s ++ String d "") = Some (v * 10 + N.of_nat (nat_of_ascii d - 48))%N.
Proof.
  revert acc. induction s as [|x s IH]; intros acc H Hd; cbn [digits_value String.append] in *.
  - injection H as ->. apply ConfigVarsProofs.is_digit_digit in Hd. now rewrite Hd.
  - destruct (is_digit x); [|discriminate]. auto.
Qed.
Lemma decimal_digits_value s n : decimal s n -> digits_value 0 s = Some n.
Proof.
  induction 1 as [d Hd|s n d H IH Hd]; [|now apply digits_app].
  cbn. apply ConfigVarsProofs.is_digit_digit in Hd. now rewrite Hd.
Qed.
Lemma decimal_fun s n m : decimal s n -> decimal s m -> n = m.
Proof. intros A B. apply decimal_digits_value in A, B. congruence. Qed.
Lemma uint_decimal s n : decimal s n -> (n < 2 ^ 64)%N -> uint s = n.
Proof.
  intros A B. pose proof (decimal_digits_value _ _ A) as V. unfold uint. destruct s as [|x s]; [now apply decimal_ne in A|].
  rewrite V. lia.
Qed.

Lemma stage_facts : forall E bases fs kvs dsn db cs P l w outs a c set out,
  load E bases fs kvs dsn db = Some cs -> Forall (fun c => s_disable c = false) cs ->
  load_stages P cs [] = Some l -> prepare_run P l = Some (w, outs) ->
  nth_error l a = Some (c, set) -> nth_error outs a = Some out ->
  exists keys0 w1 w2, trx_named c /\ NoDup (skeys keys0) /\ load_stage P c keys0 = Some set /\
    WorkloadModel.prepare_stage (stage_of P c set) w1 = Some (w2, out) /\ In c cs /\ s_n c = (a + 1)%nat.
Proof.
  intros E bases fs kvs dsn db cs P l w outs a c set out L D H PR Ha Ho.
  assert (F : map fst l = cs).
  { assert (TN : Forall trx_named cs).
    { rewrite Forall_forall in *. intros c0 Hc0. destruct (C45_workload _ _ _ _ _ _ _ c0 L Hc0 (D c0 Hc0)) as (_ & X & _). exact X. }
    apply load_ok in H as [F _]; [exact F|constructor|exact TN]. }
  assert (IN : nth_error cs a = Some c) by (rewrite <- F, nth_error_map, Ha; reflexivity).
  assert (TN : trx_named c).
  { rewrite Forall_forall in D. apply nth_error_In in IN. destruct (C45_workload _ _ _ _ _ _ _ c L IN (D c IN)) as (_ & X & _). exact X. }
  destruct (load_stages_nth P cs [] l a c set (NoDup_nil _) H Ha) as (keys0 & NK & LS).
  destruct (prepare_nth _ _ _ _ a (stage_of P c set) PR) as (w1 & w2 & out' & Ho' & PS).
  { now rewrite nth_error_map, Ha. }
  rewrite Ho in Ho'. injection Ho' as <-. exists keys0, w1, w2. repeat (split; [assumption|]).
  split; [now apply nth_error_In in IN|]. rewrite (load_numbers _ _ _ _ _ _ _ a c L); auto; lia.
Qed.

(** The same for a stage without a workload: the clients of its exec groups, one after the
    other, have the statements of all files of the stage, in order. *)
Theorem C94_default_partial : forall E bases fs kvs dsn db cs P l w outs a c set out,
  load E bases fs kvs dsn db = Some cs -> Forall (fun c => s_disable c = false) cs ->
  load_stages P cs [] = Some l -> prepare_run P l = Some (w, outs) ->
  nth_error l a = Some (c, set) -> nth_error outs a = Some out -> NoDup (map x_name (s_trx c)) ->
  s_workload c = [] ->
  exists qss,
    Forall2 (fun x qs => exists ls keys ss f, pe_read P (s_file c) (x_file x) = Some ls /\
        load_file (tenv_of P c) (x_name x) ls keys (x_data x) = Some (ss, f) /\ qs = map p_query ss) (s_trx c) qss /\
    map StmtModel.st_query (concat (map WorkloadModel.c_stmts (concat (concat out)))) = concat qss.
Proof.
  intros E bases fs kvs dsn db cs P l w outs a c set out L D H PR Ha Ho ND HW.
  destruct (stage_facts _ _ _ _ _ _ _ _ _ _ _ a c set out L D H PR Ha Ho) as (keys0 & w1 & w2 & TN & NK & LS & PS & _).
  destruct (default_clients P c keys0 set LS NK TN _ _ _ PS HW) as (parts & CAT & LEN & _ & _ & CL).
  assert (X : concat (map WorkloadModel.c_stmts (concat (concat out))) =
              concat (map (WorkloadModel.ts_stmts (trxset_of (pe_lid P) set)) (map x_name (s_trx c)))).
  { rewrite <- CAT. clear - LEN CL. 
    assert (CL' : forall e css trxs, nth_error out e = Some css -> nth_error parts e = Some trxs ->
      exists cl, css = [[cl]] /\ WorkloadModel.c_stmts cl = concat (map (WorkloadModel.ts_stmts (trxset_of (pe_lid P) set)) trxs)).
    { intros e css trxs A B. destruct (CL e css trxs A B) as (cl & cg & -> & (C1 & _) & <- & _). eauto. }
    clear CL. revert parts LEN CL'. induction out as [|css out IH]; intros [|p parts] LEN CL; try discriminate; [reflexivity|].
    destruct (CL 0%nat css p eq_refl eq_refl) as (cl & -> & C). cbn [concat map app]. rewrite C, map_app, concat_app. f_equal.
    apply IH; [now injection LEN|]. intros e. apply (CL (S e)). }
  rewrite X. clear X CL PS PR. unfold load_stage in LS. apply load_trx_spec in LS as (_ & _ & LS & _); [|exact ND|reflexivity].
  assert (LS' : forall x, In x (s_trx c) -> exists ls keys ss f, pe_read P (s_file c) (x_file x) = Some ls /\
        load_file (tenv_of P c) (x_name x) ls keys (x_data x) = Some (ss, f) /\ sget (x_name x) (t_stmts set) = Some ss).
  { intros x Hx. destruct (LS x Hx) as (ls & keys & ss & f & R & F & S & _). eauto 8. }
  clear - LS'. induction (s_trx c) as [|x xs IH].
  - exists []. split; [constructor|reflexivity].
  - destruct IH as (qss & A & B); [intros; apply LS'; now right|].
    destruct (LS' x (or_introl eq_refl)) as (ls & keys & ss & f & R & F & S).
    exists (map p_query ss :: qss). split.
    + constructor; [|exact A]. exists ls, keys, ss, f. auto.
    + cbn [map concat]. rewrite map_app, B. f_equal. cbn [trxset_of WorkloadModel.ts_stmts]. rewrite S. apply stmts_queries.
Qed.
Print Assumptions C94_default_partial.

(** ** C112: a stage has the clients its workload asks for *)

(** Trx [t] of the stage has DDL (see C46 and C72). *)
Definition ddl_trx (set : tset) (t : string) : bool :=
  match sget t (t_ddl set) with Some true => true | _ => false end.

(** The client groups of the workload are all there; each has as many clients as configured, and
    each client has its place, its iteration limit, its default database, and statistics for every trx unless the
    stage or the client group disables them. *)
Theorem C112_clients : forall E bases fs kvs dsn db cs P l w outs a c set out,
  load E bases fs kvs dsn db = Some cs -> Forall (fun c => s_disable c = false) cs ->
  load_stages P cs [] = Some l -> prepare_run P l = Some (w, outs) ->
  nth_error l a = Some (c, set) -> nth_error outs a = Some out -> s_workload c <> [] ->
  list_sum (map (@List.length _) out) = List.length (s_workload c) /\
  forall e css g cls grp, nth_error out e = Some css -> nth_error css g = Some cls ->
    nth_error (s_workload c) (list_sum (map (@List.length _) (firstn e out)) + g) = Some grp ->
    let names := match g_trx grp with [] => map x_name (s_trx c) | names => names end in
    decimal (g_clients grp) (N.of_nat (List.length cls)) /\
    forall k cl, nth_error cls k = Some cl ->
      (let rl := WorkloadModel.c_rl cl in
       (ScopeModel.rl_stage rl, ScopeModel.rl_eg rl, ScopeModel.rl_cg rl, ScopeModel.rl_client rl) =
       (N.of_nat (a + 1), N.of_nat (e + 1), N.of_nat (g + 1), N.of_nat (k + 1))) /\
      WorkloadModel.c_defaultDb cl = g_db grp /\
      (forall n, decimal (g_iter grp) n -> n <> 0%N -> WorkloadModel.c_iter cl = n) /\
      (g_iter grp = "" \/ decimal (g_iter grp) 0 ->
         WorkloadModel.c_iter cl = if existsb (ddl_trx set) names then 1%N else 0%N) /\
      (st_disable (s_stats c) <> Some true -> g_nostats grp = false -> WorkloadModel.c_stats cl = map Some names) /\
      (st_disable (s_stats c) = Some true \/ g_nostats grp = true -> Forall (fun s => s = None) (WorkloadModel.c_stats cl)).
Proof.
  intros E bases fs kvs dsn db cs P l w outs a c set out L D H PR Ha Ho HW.
  destruct (stage_facts _ _ _ _ _ _ _ _ _ _ _ a c set out L D H PR Ha Ho) as (keys0 & w1 & w2 & TN & NK & LS & PS & IN & NA).
  split; [exact (all_groups P c keys0 set LS NK TN _ _ _ PS HW)|].
  intros e css g cls grp He Hg Hgrp names.
  destruct (group_clients P c keys0 set LS NK TN _ _ _ _ _ _ _ _ PS He Hg Hgrp) as (name & LEN & CL). fold names in CL.
  rewrite Forall_forall in D.
  destruct (C65_accepted_partial _ _ _ _ _ _ _ c L IN (D c IN)) as (_ & _ & _ & _ & NUM & _).
  destruct (NUM grp (nth_error_In _ _ Hgrp)) as (NE & NO & _).
  inversion NO as [|? ? N1 NO']; subst. inversion NO' as [|? ? N2 _]; subst. clear NO NO'.
  split. { destruct N1 as [?|(n & N1 & N1')]; [congruence|]. rewrite LEN, (uint_decimal _ _ N1), N2Nat.id by lia. exact N1. }
  intros k cl Hk. destruct (CL k cl Hk) as (_ & _ & C3 & _ & C5 & C6 & C7).
  split; [cbn zeta; rewrite C3; cbn [WorkloadModel.sg_N stage_of]; now rewrite NA|].
  split; [exact C7|].
  cbn [WorkloadModel.cg_with cgcfg_of WorkloadModel.cg_disableStats WorkloadModel.cg_trx WorkloadModel.cg_iter stage_of WorkloadModel.sg_stats] in C5, C6.
  split; [|split; [|split]].
  - intros n Hn NZ. assert (n < 2 ^ 32)%N.
    { destruct N2 as [X|(m & X & Y)]; [rewrite X in Hn; now apply decimal_ne in Hn|]. now rewrite (decimal_fun _ _ _ Hn X). }
    rewrite (uint_decimal _ _ Hn) in C6 by lia. rewrite C6. destruct (N.eqb_spec n 0); [congruence|]. now rewrite andb_false_r.
  - intros I. assert (U : uint (g_iter grp) = 0%N).
    { destruct I as [->|I]; [reflexivity|]. apply uint_decimal; [exact I|lia]. }
    rewrite U in C6. cbn [N.eqb] in C6. rewrite andb_true_r in C6. rewrite C6.
    replace (WorkloadModel.has_ddl (trxset_of (pe_lid P) set) names) with (existsb (ddl_trx set) names); [reflexivity|].
    clear. induction names as [|n ns IH]; [reflexivity|]. cbn [existsb WorkloadModel.has_ddl]. rewrite IH. unfold ddl_trx. cbn.
    destruct (sget n (t_ddl set)) as [[]|]; reflexivity.
  - intros S1 S2. rewrite C5, S2. destruct (st_disable (s_stats c)) as [[]|]; [congruence|reflexivity|reflexivity].
  - intros S. rewrite C5. apply Forall_forall. intros s Hs. apply in_map_iff in Hs as (u & <- & _).
    destruct S as [->| ->]; [reflexivity|]. cbn [negb]. now rewrite andb_false_r.
Qed.
Print Assumptions C112_clients.

(** A stage without a workload: consecutive exec groups of one client each run its trx in order;
    a trx with DDL has a client of its own, for one iteration, and other trx are in the same client as their
    neighbours, without a limit. *)
Theorem C112_default : forall E bases fs kvs dsn db cs P l w outs a c set out,
  load E bases fs kvs dsn db = Some cs -> Forall (fun c => s_disable c = false) cs ->
  load_stages P cs [] = Some l -> prepare_run P l = Some (w, outs) ->
  nth_error l a = Some (c, set) -> nth_error outs a = Some out -> s_workload c = [] ->
  exists parts, concat parts = map x_name (s_trx c) /\ List.length out = List.length parts /\
    (forall i p q, nth_error parts i = Some p -> nth_error parts (S i) = Some q ->
       exists t, In t (p ++ q) /\ ddl_trx set t = true) /\
    forall e css trxs, nth_error out e = Some css -> nth_error parts e = Some trxs ->
      ((exists t, trxs = [t]) \/ Forall (fun t => ddl_trx set t = false) trxs) /\
      exists cl, css = [[cl]] /\
      (let rl := WorkloadModel.c_rl cl in
       (ScopeModel.rl_stage rl, ScopeModel.rl_eg rl, ScopeModel.rl_cg rl, ScopeModel.rl_client rl) =
       (N.of_nat (a + 1), N.of_nat (e + 1), 1%N, 1%N)) /\
      WorkloadModel.c_defaultDb cl = "" /\
      WorkloadModel.c_iter cl = (if existsb (ddl_trx set) trxs then 1%N else 0%N) /\
      WorkloadModel.c_stats cl = map (fun t => match st_disable (s_stats c) with Some true => None | _ => Some t end) trxs.
Proof.
  intros E bases fs kvs dsn db cs P l w outs a c set out L D H PR Ha Ho HW.
  destruct (stage_facts _ _ _ _ _ _ _ _ _ _ _ a c set out L D H PR Ha Ho) as (keys0 & w1 & w2 & TN & NK & LS & PS & IN & NA).
  assert (DD : forall t, WorkloadModel.ts_ddl (trxset_of (pe_lid P) set) t = ddl_trx set t).
  { intros t. unfold ddl_trx. cbn. destruct (sget t (t_ddl set)) as [[]|]; reflexivity. }
  destruct (default_clients P c keys0 set LS NK TN _ _ _ PS HW) as (parts & CAT & LEN & Q1 & Q2 & CL).
  exists parts. split; [exact CAT|]. split; [exact LEN|]. split.
  - intros i p q Hp Hq. destruct (Q2 i p q Hp Hq) as (t & T1 & T2). rewrite DD in T2. eauto.
  - intros e css trxs He Ht. destruct (Q1 e trxs Ht) as (_ & Q3). split.
    + destruct Q3 as [(t & -> & _)|Q3]; [eauto|]. right. eapply Forall_impl; [|exact Q3]. intros t X. rewrite <- DD. exact X.
    + destruct (CL e css trxs He Ht) as (cl & cg & -> & (_ & _ & C3 & _ & C5 & C6 & C7) & G1 & G2 & G3 & G4).
      exists cl. split; [reflexivity|]. split; [cbn zeta; rewrite C3; cbn [WorkloadModel.sg_N stage_of]; now rewrite NA|].
      split; [congruence|]. split.
      * rewrite C6, G4. replace (existsb (WorkloadModel.ts_ddl (trxset_of (pe_lid P) set)) trxs) with (existsb (ddl_trx set) trxs); [reflexivity|].
        clear - DD. induction trxs as [|n ns IH]; [reflexivity|]. cbn [existsb]. now rewrite IH, DD.
      * rewrite C5, G1, G2. cbn [stage_of WorkloadModel.sg_stats negb]. rewrite andb_true_r. destruct (st_disable (s_stats c)) as [[]|]; reflexivity.
Qed.
Print Assumptions C112_default.

Definition files3 (f : string) : option (list string) :=
  if String.eqb f "make.sql" then Some ["CREATE TABLE t (c int)"] else files1 f.
Definition xs3 : list trx := [Trx "r" "read.sql" [("d", d_int "")]; Trx "m" "make.sql" []; Trx "i" "insert.sql" [("d", d_int "")];
  Trx "q" "read.sql" [("d", d_int "")]].
Definition E3 : env :=
  Env (e_getenv E0) (e_sys E0)
      (fun s => if String.eqb s "3" then Some 3%N else if String.eqb s "20" then Some 20%N else
                if String.eqb s "02" then Some 2%N else if String.eqb s "0" then Some 0%N else None)
      (e_parse_duration E0) (e_exists E0) (e_base E0) (e_order E0).
Definition gs3 : list cgroup :=
  [CGroup "3" "db1" false "20" "" "" "a" "" "" "" "" "" "" "" ["r"; "i"];
   CGroup "" "db2" true "" "" "" "a" "" "" "" "" "" "" "" ["q"];
   CGroup "02" "" false "0" "" "" "b" "" "" "" "" "" "" "" ["r"; "m"; "i"; "q"]].

Example C112_example : exists cs l w outs c set out,
  load E3 no_base [file (stage1 "a" xs3 []); file (stage1 "b" xs3 gs3)] [] "" "" = Some cs /\
  Forall (fun c => s_disable c = false) cs /\ load_stages (P1 files3) cs [] = Some l /\
  prepare_run (P1 files3) l = Some (w, outs) /\
  nth_error l 1 = Some (c, set) /\ nth_error outs 1 = Some out /\ s_workload c <> [] /\
  map (map (@List.length _)) out = [[3; 1]; [2]] /\
  map (map (map WorkloadModel.c_iter)) out = [[[20; 20; 20]; [0]]; [[1; 1]]]%N /\
  map (map (map WorkloadModel.c_defaultDb)) out = [[["db1"; "db1"; "db1"]; ["db2"]]; [[""; ""]]] /\
  map (map (map WorkloadModel.c_stats)) out =
    [[[[Some "r"; Some "i"]; [Some "r"; Some "i"]; [Some "r"; Some "i"]]; [[None]]];
     [[[Some "r"; Some "m"; Some "i"; Some "q"]; [Some "r"; Some "m"; Some "i"; Some "q"]]]].
Proof.
  do 7 eexists. split; [vm_compute; reflexivity|]. split; [repeat constructor|]. split; [vm_compute; reflexivity|].
  split; [vm_compute; reflexivity|]. split; [reflexivity|]. split; [reflexivity|]. split; [discriminate|].
  repeat (split; [reflexivity|]). reflexivity.
Qed.

Example C112_default_example : exists cs l w outs c set out,
  load E3 no_base [file (stage1 "a" xs3 []); file (stage1 "b" xs3 gs3)] [] "" "" = Some cs /\
  Forall (fun c => s_disable c = false) cs /\ load_stages (P1 files3) cs [] = Some l /\
  prepare_run (P1 files3) l = Some (w, outs) /\
  nth_error l 0 = Some (c, set) /\ nth_error outs 0 = Some out /\ s_workload c = [] /\ NoDup (map x_name (s_trx c)) /\
  map (map (map WorkloadModel.c_iter)) out = [[[0]]; [[1]]; [[0]]]%N /\
  map (map (map (fun cl => map StmtModel.st_query (WorkloadModel.c_stmts cl)))) out =
    [[[["SELECT c FROM t WHERE d=%d"]]]; [[["CREATE TABLE t (c int)"]]];
     [[["INSERT INTO t VALUES (%d)"; "SELECT c FROM t WHERE id='%s'"; "SELECT c FROM t WHERE d=%d"]]]].
Proof.
  do 7 eexists. split; [vm_compute; reflexivity|]. split; [repeat constructor|]. split; [vm_compute; reflexivity|].
  split; [vm_compute; reflexivity|]. split; [reflexivity|]. split; [reflexivity|]. split; [reflexivity|].
  split; [repeat constructor; cbn; intuition discriminate|].
  repeat (split; [reflexivity|]). reflexivity.
Qed.
