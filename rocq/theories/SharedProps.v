(** C135-C136: the values of data keys that several clients use. *)
From Verif Require Import Prelude ConfigModel ConfigProps TrxModel PipeModel PipeProps DataModel DataSpec DataProofs SharedSpec.
From Verif Require ScopeModel ScopeSpec StmtModel WorkloadModel WorkloadSpec ClientModel ClientSpec ValueModel ValueSpec EndSpec EndProofs EndValueProofs
  EndRunProps ValueProps ScopeProps GenModel GenSpec DataProps DataSizeProofs SharedProofs UniqueProofs.
#[local] Open Scope string_scope.
#[local] Open Scope list_scope.

(** ** C135: the documented values for several clients *)

(** Whenever a client executes a statement with a data key that several clients use, the values at its placeholders are some that the
    documentation of the key's generator allows, in whatever order the clients use it.  For client-id: the numbers are those of this
    client, if no other user of the generator has its client number (C135_refuted).  Partial: the clients use the generator as
    ScopeModel.v says ([m_run]); [sane] parameters; [sized] comes from C122_partial with C135_fits. *)
Theorem C135_partial fl E bases fs kvs dsn db cs P l w' outs a e g k n c lens gen0 inps st pc w evs log key d ex s j :
  let sts := map (fun x => stage_of P (fst x) (snd x)) l in
  load E bases fs kvs dsn db = Some cs -> Forall (fun c => s_disable c = false) cs -> pe_make P = data_make fl ->
  load_stages P cs [] = Some l -> prepare_run P l = Some (w', outs) -> EndSpec.client_of sts outs a e g k n c lens ->
  EndSpec.no_global (WorkloadSpec.keys_at WorkloadSpec.no_keys sts a) c ->
  ValueModel.vrun dgen_values (EndSpec.own_of w') (EndSpec.scope_of w') gen0 c inps = Some (st, pc, w, evs, log) ->
  gens_made fl l sts outs a gen0 -> EndSpec.sized c log ->
  key <> "_" -> key <> "@PREV" -> configured l a key d -> shared_key sts a key ->
  sane (d_gen d) (d_params d) -> d_gen d <> "column" ->
  shared_runs sts outs a gen0 log (client_counters e g k n) (d_gen d) key ->
  In ex (ClientSpec.execs evs) -> EndSpec.exec_uses c ex s j key ->
  exists vs, EndSpec.vals_at s j ex = map Some vs /\ allowed (client_counters e g k n) (d_gen d) (d_params d) vs.
Proof.
  intros sts L D PM H PR CL NG R GM SZ NN NP CF SK SN NC SR EX U. pose proof (C92_run_ok _ _ _ _ _ _ _ _ _ L D H) as OK.
  pose proof SK as (sc & SC & SG). apply in_split in EX as (pre & post & EX).
  assert (NGL : sc <> ScopeModel.SGlobal) by (destruct SG as [->|[->| ->]]; discriminate).
  destruct (SharedProofs.shared_use dgen_values gen0 sts 0 w' outs OK PR a e g k n c lens CL NG inps st pc w evs log R key sc NN NP SC NGL pre ex post s j SZ EX U)
    as (rc & us & m & u & A1 & A2 & A3 & A4).
  exists (ValueModel.u_vals u). split; [exact A4|].
  exact (SharedProofs.shared_legal fl P cs l w' outs PM H OK PR a e g k n c lens CL gen0 inps st pc w evs log R GM key d _ _ _ _ _ _ CF SK SN NC SR A3
    (nth_error_In _ _ A1) (nth_error_In _ _ A2) eq_refl).
Qed.
Print Assumptions C135_partial.

(** Such a key fits the placeholders if its generator has as many values, as C122_partial needs it. *)
Theorem C135_fits fl E bases fs kvs dsn db cs P l w' outs a e g k n c lens gen0 inps st pc w evs log key d s j :
  let sts := map (fun x => stage_of P (fst x) (snd x)) l in
  load E bases fs kvs dsn db = Some cs -> Forall (fun c => s_disable c = false) cs -> pe_make P = data_make fl ->
  load_stages P cs [] = Some l -> prepare_run P l = Some (w', outs) -> EndSpec.client_of sts outs a e g k n c lens ->
  ValueModel.vrun dgen_values (EndSpec.own_of w') (EndSpec.scope_of w') gen0 c inps = Some (st, pc, w, evs, log) ->
  gens_made fl l sts outs a gen0 -> configured l a key d -> shared_key sts a key ->
  sane (d_gen d) (d_params d) -> d_gen d <> "column" ->
  shared_runs sts outs a gen0 log (client_counters e g k n) (d_gen d) key ->
  arity (d_params d) (d_gen d) (wants s j) ->
  fitting l sts outs a c gen0 log s j key.
Proof.
  intros sts L D PM H PR CL R GM CF SK SN NC SR AR. pose proof (C92_run_ok _ _ _ _ _ _ _ _ _ L D H) as OK.
  apply FShared. intros pl p i rc us u U I1 I2 I3.
  apply (DataProofs.allowed_arity (client_counters e g k n) (d_gen d) (d_params d)); [|exact AR].
  exact (SharedProofs.shared_legal fl P cs l w' outs PM H OK PR a e g k n c lens CL gen0 inps st pc w evs log R GM key d pl p i rc us u CF SK SN NC SR U I1 I2 I3).
Qed.
Print Assumptions C135_fits.

(** ** C136: auto-inc keys of a client group *)

(** The number that a client executes a statement with for an auto-inc key with client-group scope is never the number that another
    client of the group executes one with, until the counter overflows.  Partial: the clients use the generator as ScopeModel.v says. *)
Theorem C136_clients_partial fl E bases fs kvs dsn db cs P l w' outs a e g n gen0 key d
  k1 c1 lens1 inps1 st1 pc1 w1 evs1 log1 ex1 s1 j1 k2 c2 lens2 inps2 st2 pc2 w2 evs2 log2 ex2 s2 j2 :
  let sts := map (fun x => stage_of P (fst x) (snd x)) l in let ks := WorkloadSpec.keys_at WorkloadSpec.no_keys sts a in
  load E bases fs kvs dsn db = Some cs -> Forall (fun c => s_disable c = false) cs -> pe_make P = data_make fl ->
  load_stages P cs [] = Some l -> prepare_run P l = Some (w', outs) -> gens_made fl l sts outs a gen0 ->
  key <> "_" -> key <> "@PREV" -> configured l a key d -> d_gen d = "auto-inc" -> WorkloadSpec.scope_in ks key = Some ScopeModel.SClientGroup ->
  EndSpec.client_of sts outs a e g k1 n c1 lens1 -> EndSpec.client_of sts outs a e g k2 n c2 lens2 -> k1 <> k2 ->
  EndSpec.no_global ks c1 -> EndSpec.no_global ks c2 ->
  ValueModel.vrun dgen_values (EndSpec.own_of w') (EndSpec.scope_of w') gen0 c1 inps1 = Some (st1, pc1, w1, evs1, log1) ->
  ValueModel.vrun dgen_values (EndSpec.own_of w') (EndSpec.scope_of w') gen0 c2 inps2 = Some (st2, pc2, w2, evs2, log2) ->
  EndSpec.sized c1 log1 -> EndSpec.sized c2 log2 ->
  group_runs sts outs a gen0 [(k1, log1); (k2, log2)] key (before_overflow (d_params d)) ->
  In ex1 (ClientSpec.execs evs1) -> In ex2 (ClientSpec.execs evs2) ->
  EndSpec.exec_uses c1 ex1 s1 j1 key -> EndSpec.exec_uses c2 ex2 s2 j2 key ->
  EndSpec.vals_at s1 j1 ex1 <> EndSpec.vals_at s2 j2 ex2.
Proof.
  intros sts ks L D PM H PR GM NN NP CF AI SC CL1 CL2 NE NG1 NG2 R1 R2 SZ1 SZ2 GR I1 I2 U1 U2. pose proof (C92_run_ok _ _ _ _ _ _ _ _ _ L D H) as OK.
  exact (UniqueProofs.unique_clients fl P cs l w' outs OK PR a e g n gen0 key NN NP SC d PM H GM CF AI k1 k2 c1 c2 lens1 lens2 CL1 CL2 NG1 NG2
    _ _ _ _ _ _ _ _ _ _ _ _ R1 R2 SZ1 SZ2 GR _ _ _ _ _ _ I1 I2 U1 U2 NE).
Qed.
Print Assumptions C136_clients_partial.

(** A client gets another number in each of its iterations, and keeps it in the iteration if no statement calls the key explicitly. *)
Theorem C136_iterations_partial fl E bases fs kvs dsn db cs P l w' outs a e g n gen0 key d
  k c lens inps st pc w evs log pre e1 mid e2 post s1 j1 s2 j2 :
  let sts := map (fun x => stage_of P (fst x) (snd x)) l in let ks := WorkloadSpec.keys_at WorkloadSpec.no_keys sts a in
  load E bases fs kvs dsn db = Some cs -> Forall (fun c => s_disable c = false) cs -> pe_make P = data_make fl ->
  load_stages P cs [] = Some l -> prepare_run P l = Some (w', outs) -> gens_made fl l sts outs a gen0 ->
  key <> "_" -> key <> "@PREV" -> configured l a key d -> d_gen d = "auto-inc" -> WorkloadSpec.scope_in ks key = Some ScopeModel.SClientGroup ->
  EndSpec.client_of sts outs a e g k n c lens -> ClientSpec.trx_start_with_query c lens -> EndSpec.no_global ks c ->
  ValueModel.vrun dgen_values (EndSpec.own_of w') (EndSpec.scope_of w') gen0 c inps = Some (st, pc, w, evs, log) -> EndSpec.sized c log ->
  group_runs sts outs a gen0 [(k, log)] key (before_overflow (d_params d)) ->
  ClientSpec.execs evs = pre ++ e1 :: mid ++ e2 :: post ->
  EndSpec.exec_uses c e1 s1 j1 key -> EndSpec.exec_uses c e2 s2 j2 key ->
  ((exists ex, In ex (mid ++ [e2]) /\ ClientSpec.ex_stmt ex = 0%nat) -> EndSpec.vals_at s1 j1 e1 <> EndSpec.vals_at s2 j2 e2) /\
  ((forall ex, In ex (mid ++ [e2]) -> ClientSpec.ex_stmt ex <> 0%nat) -> EndSpec.never_called c key -> EndSpec.vals_at s1 j1 e1 = EndSpec.vals_at s2 j2 e2).
Proof.
  intros sts ks L D PM H PR GM NN NP CF AI SC CL TS NG R SZ GR EX U1 U2. pose proof (C92_run_ok _ _ _ _ _ _ _ _ _ L D H) as OK.
  destruct (UniqueProofs.two_iters fl P cs l w' outs OK PR a e g n gen0 key NN NP SC d PM H GM CF AI k c lens CL TS NG _ _ _ _ _ _ R SZ _ GR
    _ _ _ _ _ _ _ _ _ EX U1 U2) as [A B]. cbn [ValueSpec.same_scope] in A, B. split.
  - intros (x & X1 & X2). apply B; [|auto]. intros F. rewrite Forall_forall in F. exact (F x X1 X2).
  - intros F NC. apply A; [|exact NC]. now apply Forall_forall.
Qed.
Print Assumptions C136_iterations_partial.

(** Two clients of a client group that share a counter and a client-id. *)
Module ExS.
  Import ScopeModel ScopeSpec StmtModel WorkloadModel WorkloadSpec ClientModel ClientSpec ValueModel ValueSpec.
  Definition files (f : string) : option (list string) :=
    if String.eqb f "w.sql" then Some ["INSERT INTO x VALUES (@i, @w)"; ""; "UPDATE x SET n=1 WHERE id=@i"] else None.
  Definition fl (s : string) : bool := true.
  Definition P : penv := PEnv E0 (data_make fl) (fun ks => ks) (fun ks => ks) (fun _ => files) (fun _ i => i).
  Definition dat : smap data :=
    [("i", Data "" "auto-inc" "client-group" [("start", "41")]); ("w", Data "" "client-id" "client-group" [])].
  Definition fs := [file (stage1 "b" [Trx "w" "w.sql" dat] [CGroup "2" "" false "" "" "" "g" "" "" "" "" "" "" "" []])].
  Definition cs : list stage := match load E0 no_base fs [] "" "" with Some cs => cs | None => [] end.
  Lemma cs_ok : load E0 no_base fs [] "" "" = Some cs.
  Proof. vm_compute. reflexivity. Qed.
  Definition l : list (stage * tset) := match load_stages P cs [] with Some l => l | None => [] end.
  Lemma l_ok : load_stages P cs [] = Some l.
  Proof. vm_compute. reflexivity. Qed.
  Notation sts := (map (fun x => stage_of P (fst x) (snd x)) l).
  Definition w' : wst := match prepare_run P l with Some (w, _) => w | None => WSt scopes_new 0 end.
  Definition outs := match prepare_run P l with Some (_, o) => o | None => [] end.
  Definition defined : bool := match prepare_run P l with Some _ => true | None => false end.
  Lemma result_ok : prepare_run P l = Some (w', outs).
  Proof.
    unfold w', outs. assert (X : defined = true) by (vm_compute; reflexivity). revert X. unfold defined.
    destruct (prepare_run P l) as [[w o]|]; [reflexivity|discriminate].
  Qed.
  Definition c (k : nat) : client := match nth_error outs 0 with
    | Some out => match client_at out 0 0 k with Some c => c | None => ValueProps.ExV.c end | None => ValueProps.ExV.c end.
  Definition c0 := Eval vm_compute in c 0.
  Definition c1 := Eval vm_compute in c 1.
  Lemma c0_eq : c 0 = c0. Proof. vm_cast_no_check (eq_refl c0). Qed.
  Lemma c1_eq : c 1 = c1. Proof. vm_cast_no_check (eq_refl c1). Qed.
  Definition lens := [2]%nat.
  Lemma client0 : EndSpec.client_of sts outs 0 0 0 0 1 (c 0) lens.
  Proof. do 5 eexists. do 6 (split; [vm_compute; reflexivity|]). vm_compute. reflexivity. Qed.
  Lemma client1 : EndSpec.client_of sts outs 0 0 0 1 1 (c 1) lens.
  Proof. do 5 eexists. do 6 (split; [vm_compute; reflexivity|]). vm_compute. reflexivity. Qed.

  Definition dr (i : nat) : draw := Draw 0 0 0 (fun _ => 0%N) 0 [].
  Definition made (key : string) : gen :=
    match sget (cfg_key key) dat with
    | Some d => match gen_make fl (d_gen d) (d_params d) with Some g => g | None => GCol false GenModel.column_new end
    | None => GCol false GenModel.column_new
    end.
  Definition gen0 (p : nat) : dgen := match nth_error (s_heap (w_sc w')) p with Some i => (made (id_key i), dr) | None => (GXid, dr) end.
  Definition ok : cenv := CEnv false None true false None (fun _ => None).
  Definition none : nat -> option dgen := fun _ => None.
  Definition q (ins : list (list dval)) := (IStmt (SEnv ins (Some true) None None false ok), none).
  (** Client 1 inserts 43 and 44, client 2 inserts 42. *)
  Definition run (k : nat) : list (cinput dval * (nat -> option dgen)) :=
    match k with
    | 0%nat => [(IConnect ok, none); (IGo, none); q [[DUint 43]; [DUint 1]]; q [[DUint 43]]; (IGo, none); q [[DUint 44]; [DUint 1]]; q [[DUint 44]]; (IStop, none)]
    | _ => [(IConnect ok, none); (IGo, none); q [[DUint 42]; [DUint 2]]; q [[DUint 42]]; (IStop, none)]
    end.
  Definition out (k : nat) := vrun dgen_values (EndSpec.own_of w') (EndSpec.scope_of w') gen0 (c k) (run k).
  Definition res : Type := option (cst dval * cpc * world (G := dgen) (V := dval) * list (event dval) * list (vlog dgen dval)).
  Definition evs_of (o : res) : list (event dval) := match o with Some (_, _, _, e, _) => e | None => [] end.
  Definition log_of (o : res) : list (vlog dgen dval) := match o with Some (_, _, _, _, l) => l | None => [] end.
  Definition evs (k : nat) := evs_of (out k).
  Definition log (k : nat) := log_of (out k).
  Definition execs0 := Eval vm_compute in execs (evs 0).
  Lemma execs0_eq : execs (evs 0) = execs0. Proof. vm_cast_no_check (eq_refl execs0). Qed.
  Definition execs1 := Eval vm_compute in execs (evs 1).
  Lemma execs1_eq : execs (evs 1) = execs1. Proof. vm_cast_no_check (eq_refl execs1). Qed.
  Definition log0 := Eval vm_compute in log 0.
  Lemma log0_eq : log 0 = log0. Proof. vm_cast_no_check (eq_refl log0). Qed.
  Definition log1 := Eval vm_compute in log 1.
  Lemma log1_eq : log 1 = log1. Proof. vm_cast_no_check (eq_refl log1). Qed.

  Lemma enabled : Forall (fun c => s_disable c = false) cs.
  Proof. repeat constructor. Qed.
  Lemma run_fine : run_ok sts.
  Proof. exact (C92_run_ok _ _ _ _ _ _ _ _ _ cs_ok enabled l_ok). Qed.
  Lemma all_ok : prepare_all sts (WSt scopes_new 0) = Some (w', outs).
  Proof. exact (EndRunProps.prepared_all P l _ w' outs eq_refl result_ok). Qed.
  Lemma heap_key pl key p : used_at sts outs 0 pl key p -> key <> "_" -> exists i, nth_error (s_heap (w_sc w')) p = Some i /\ id_key i = key.
  Proof. exact (EndProofs.used_heap sts 0 w' outs run_fine all_ok 0 pl key p). Qed.

  (** The generators of the keys. *)
  Definition keys_of := map id_key (s_heap (w_sc w')).
  Definition keys_of' := Eval vm_compute in keys_of.
  Lemma keys_eq : keys_of = keys_of'. Proof. vm_cast_no_check (eq_refl keys_of'). Qed.
  Lemma start0 : trx_start_with_query (c 0) lens.
  Proof. rewrite c0_eq. intros [|[|i]] s E F; try (injection E as <-; reflexivity); try discriminate F. destruct i; discriminate E. Qed.
  Lemma plain0 : EndSpec.no_global (keys_at no_keys sts 0) (c 0).
  Proof.
    intros s key S K. rewrite c0_eq in S. cbn [In c0 c_stmts] in S.
    repeat (destruct S as [<-|S]; [cbn in K; repeat (destruct K as [<-|K]; [vm_compute; discriminate|]); destruct K|]). destruct S.
  Qed.
  Lemma plain1 : EndSpec.no_global (keys_at no_keys sts 0) (c 1).
  Proof.
    intros s key S K. rewrite c1_eq in S. cbn [In c1 c_stmts] in S.
    repeat (destruct S as [<-|S]; [cbn in K; repeat (destruct K as [<-|K]; [vm_compute; discriminate|]); destruct K|]). destruct S.
  Qed.
  Lemma out_some k : match out k with Some _ => true | None => false end = true ->
    exists st pc w, vrun dgen_values (EndSpec.own_of w') (EndSpec.scope_of w') gen0 (c k) (run k) = Some (st, pc, w, evs k, log k).
  Proof.
    intros X. unfold evs, log. revert X. unfold out. destruct (vrun _ _ _ _ _ _) as [[[[[st pc] w] e] l0]|]; [|discriminate]. intros _. exists st, pc, w. reflexivity.
  Qed.
  Lemma the_trx c0 set : nth_error l 0 = Some (c0, set) -> s_trx c0 = [Trx "w" "w.sql" dat].
  Proof.
    intros H. assert (X : option_map (fun x => s_trx (fst x)) (nth_error l 0) = Some [Trx "w" "w.sql" dat]) by (vm_compute; reflexivity).
    rewrite H in X. cbn in X. now injection X as ->.
  Qed.
  Lemma gens : gens_made fl l sts outs 0 gen0.
  Proof.
    intros key d pl p g0 (c0 & set & x & L & X & G & _) U M. rewrite (the_trx _ _ L) in X. destruct X as [<-|[]]. cbn [x_data] in G.
    assert (NN : key <> "_"). { intros ->. vm_compute in G. discriminate G. }
    destruct (heap_key pl key p U NN) as (i & H1 & H2). unfold gen0. rewrite H1, H2. unfold made. rewrite G, M. cbn [fst]. split.
    - exact (copy_make fl _ _ _ M).
    - assert (Y : In (d_gen d) ["auto-inc"; "client-id"]).
      { unfold dat in G. cbn [ConfigModel.sget] in G. repeat match type of G with (if ?b then _ else _) = _ => destruct b; [injection G as <-; cbn; tauto|] end. discriminate G. }
      intros len m F. exfalso. cbn [fst] in F. subst g0. apply made_from in M. cbn in M. destruct M as [M _]. rewrite M in Y. cbn in Y. intuition discriminate.
  Qed.
  Definition uncol (key : string) (keys : smap TrxModel.key) : bool := match sget key keys with Some k => match k_col k with None => true | _ => false end | None => true end.
  Lemma conf key d : sget (cfg_key key) dat = Some d ->
    option_map (fun x => uncol key (t_keys (snd x))) (nth_error l 0) = Some true ->
    configured l 0 key d.
  Proof.
    intros G C. destruct (nth_error l 0) as [[c0 set]|] eqn:L; [|discriminate]. cbn [option_map snd] in C. injection C as C. pose proof (the_trx _ _ L) as T.
    exists c0, set, (Trx "w" "w.sql" dat). split; [exact L|]. split; [rewrite T; now left|]. split; [exact G|]. split.
    - intros y d' Y G'. rewrite T in Y. destruct Y as [<-|[]]. cbn [x_data] in G'. rewrite G in G'. injection G' as <-. auto.
    - intros k K. unfold uncol in C. rewrite K in C. destruct (k_col k); [discriminate C|reflexivity].
  Qed.
  Lemma sane_d key d : sget key dat = Some d -> sane (d_gen d) (d_params d) /\ d_gen d <> "column".
  Proof.
    intros G. unfold dat in G. cbn [ConfigModel.sget] in G.
    repeat match type of G with (if ?b then _ else _) = _ => destruct b;
      [injection G as <-; split; [unfold sane; repeat split; intros; discriminate|discriminate]|] end; discriminate G.
  Qed.

  (** The two clients use the generators at the same time. *)
  Definition rc (k : nat) (s t i : N) : runcount := RC s t i 1 (N.of_nat (k + 1)) 1 1 1.
  Definition labels (key : string) : list mlabel :=
    if String.eqb key "@i" then
      [LUse 1 false (rc 1 1 1 1); LGo 1; LUse 0 false (rc 0 1 1 1); LGo 0; LGo 1; LGo 0; LUse 1 false (rc 1 2 1 1); LUse 0 false (rc 0 2 1 1);
       LUse 0 false (rc 0 3 2 2); LGo 0; LGo 0; LUse 0 false (rc 0 4 2 2)]
    else [LUse 0 false (rc 0 1 1 1); LUse 1 false (rc 1 1 1 1); LGo 1; LGo 0; LGo 0; LGo 1; LUse 0 false (rc 0 3 2 2); LGo 0; LGo 0].
  Definition hist (key : string) : option (mst dgen dval * list (mevent dval)) := m_run _ _ dgen_values (m_init (made key, dr)) (labels key).
  Definition tr_of (key : string) : list (mevent dval) := match hist key with Some (_, tr) => tr | None => [] end.
  Definition tr_i := Eval vm_compute in tr_of "@i".
  Definition tr_w := Eval vm_compute in tr_of "@w".
  Definition idle (s : mst dgen dval) (k : nat) : bool := match m_ph _ _ s k with MIdle _ => true | _ => false end.
  Lemma hist_i : exists s, hist "@i" = Some (s, tr_i) /\ idle s 0 = true /\ idle s 1 = true.
  Proof. eexists. split; [vm_compute; reflexivity|]. split; reflexivity. Qed.
  Lemma hist_w : exists s, hist "@w" = Some (s, tr_w) /\ idle s 0 = true /\ idle s 1 = true.
  Proof. eexists. split; [vm_compute; reflexivity|]. split; reflexivity. Qed.
  Lemma idle_ok s k : idle s k = true -> m_ph _ _ s k = MIdle _.
  Proof. unfold idle. destruct (m_ph _ _ s k); [reflexivity|discriminate|discriminate]. Qed.
  Lemma ptr_of pl key p m : used_at sts outs 0 pl key p -> key <> "_" -> (forall p, nth_error keys_of' p = Some key -> p = m) ->
    p = m /\ gen0 p = (made key, dr).
  Proof.
    intros U N K. destruct (heap_key pl key p U N) as (i & H1 & H2). split.
    - apply K. rewrite <- keys_eq. unfold keys_of. rewrite nth_error_map, H1. cbn. now f_equal.
    - unfold gen0. now rewrite H1, H2.
  Qed.
  Lemma ptr_i p : nth_error keys_of' p = Some "@i" -> p = 0%nat.
  Proof. destruct p as [|[|p]]; [reflexivity|discriminate|]. destruct p; discriminate. Qed.
  Lemma ptr_w p : nth_error keys_of' p = Some "@w" -> p = 1%nat.
  Proof. destruct p as [|[|p]]; [discriminate|reflexivity|]. destruct p; discriminate. Qed.
  Lemma trace_i : trace_ok (fun k => N.of_nat (k + 1)) tr_i.
  Proof.
    split.
    - intros [|[|t]] ex x H; cbn in H; repeat (destruct H as [H|H]; [inv H; reflexivity|]); destruct H.
    - intros [|[|t]] i j; [apply ScopeProps.sorted_b_ok; reflexivity|apply ScopeProps.sorted_b_ok; reflexivity|].
      intros u u' _ A. cbn in A. destruct i; discriminate.
  Qed.
  Lemma group : group_runs sts outs 0 gen0 [(0%nat, log 0); (1%nat, log 1)] "@i" (before_overflow [("start", "41")]).
  Proof.
    intros pl p U. destruct (ptr_of pl "@i" p 0 U) as [-> G]; [discriminate|exact ptr_i|].
    destruct hist_i as (s & H & I0 & I1). exists s, tr_i. split; [exists (labels "@i"); rewrite G; exact H|]. split; [exact trace_i|].
    split; [vm_compute; discriminate|]. rewrite log0_eq, log1_eq. intros k lg [X|[X|[]]]; injection X as <- <-; repeat split; auto using idle_ok.
  Qed.
  Lemma shared_w k : (k < 2)%nat -> shared_runs sts outs 0 gen0 (log k) (client_counters 0 0 k 1) "client-id" "@w".
  Proof.
    intros K pl p U. destruct (ptr_of pl "@w" p 1 U) as [-> G]; [discriminate|exact ptr_w|].
    destruct hist_w as (s & H & I0 & I1). exists k, s, tr_w. split; [exists (labels "@w"); rewrite G; exact H|].
    destruct k as [|[|k]]; [rewrite log0_eq|rewrite log1_eq|lia]; (split; [repeat split; auto using idle_ok|]); intros _ t ex x X;
      cbn in X; repeat (destruct X as [X|X]; [try discriminate X; inv X; cbn; intros Y; try discriminate Y; repeat split|]); destruct X.
  Qed.
  Lemma sized0 : EndSpec.sized (c 0) (log 0).
  Proof.
    rewrite c0_eq, log0_eq. intros i rc us s I S. cbn in I. repeat (destruct I as [I|I]; [injection I as <- <- <-; cbn in S; injection S as <-; split; reflexivity|]). destruct I.
  Qed.
  Lemma sized1 : EndSpec.sized (c 1) (log 1).
  Proof.
    rewrite c1_eq, log1_eq. intros i rc us s I S. cbn in I. repeat (destruct I as [I|I]; [injection I as <- <- <-; cbn in S; injection S as <-; split; reflexivity|]). destruct I.
  Qed.
End ExS.

(** The hypotheses of C135_partial for client 2 and client-id. *)
Example C135_example : exists st pc w d ex s,
  load E0 no_base ExS.fs [] "" "" = Some ExS.cs /\ Forall (fun c => s_disable c = false) ExS.cs /\ pe_make ExS.P = data_make ExS.fl /\
  load_stages ExS.P ExS.cs [] = Some ExS.l /\ prepare_run ExS.P ExS.l = Some (ExS.w', ExS.outs) /\
  EndSpec.client_of ExS.sts ExS.outs 0 0 0 1 1 (ExS.c 1) ExS.lens /\
  EndSpec.no_global (WorkloadSpec.keys_at WorkloadSpec.no_keys ExS.sts 0) (ExS.c 1) /\
  ValueModel.vrun dgen_values (EndSpec.own_of ExS.w') (EndSpec.scope_of ExS.w') ExS.gen0 (ExS.c 1) (ExS.run 1) = Some (st, pc, w, ExS.evs 1, ExS.log 1) /\
  gens_made ExS.fl ExS.l ExS.sts ExS.outs 0 ExS.gen0 /\ EndSpec.sized (ExS.c 1) (ExS.log 1) /\
  configured ExS.l 0 "@w" d /\ shared_key ExS.sts 0 "@w" /\ sane (d_gen d) (d_params d) /\ d_gen d <> "column" /\
  shared_runs ExS.sts ExS.outs 0 ExS.gen0 (ExS.log 1) (client_counters 0 0 1 1) (d_gen d) "@w" /\
  In ex (ClientSpec.execs (ExS.evs 1)) /\ EndSpec.exec_uses (ExS.c 1) ex s 1 "@w" /\
  EndSpec.vals_at s 1 ex = [Some (DUint 2)] /\ arity (d_params d) (d_gen d) (wants s 1).
Proof.
  destruct (ExS.out_some 1) as (st & pc & w & R); [vm_compute; reflexivity|].
  exists st, pc, w, (Data "" "client-id" "client-group" []). eexists _, _.
  split; [exact ExS.cs_ok|]. split; [exact ExS.enabled|]. split; [reflexivity|]. split; [exact ExS.l_ok|]. split; [exact ExS.result_ok|].
  split; [exact ExS.client1|]. split; [exact ExS.plain1|]. split; [exact R|]. split; [exact ExS.gens|]. split; [exact ExS.sized1|].
  split; [apply ExS.conf; vm_compute; reflexivity|]. split; [exists ScopeModel.SClientGroup; split; [vm_compute; reflexivity|now left]|].
  destruct (ExS.sane_d "w" (Data "" "client-id" "client-group" []) eq_refl) as [A B]. split; [exact A|]. split; [exact B|].
  split; [apply ExS.shared_w; lia|]. rewrite ExS.execs1_eq, ExS.c1_eq. split; [left; reflexivity|]. split; [split; reflexivity|]. split; [reflexivity|].
  apply (ArIds _ ["client"]). reflexivity.
Qed.

(** The hypotheses of C136_clients_partial, and of C136_iterations_partial for client 1. *)
Example C136_example : exists st0 pc0 w0 st1 pc1 w1 d,
  load E0 no_base ExS.fs [] "" "" = Some ExS.cs /\ Forall (fun c => s_disable c = false) ExS.cs /\ pe_make ExS.P = data_make ExS.fl /\
  load_stages ExS.P ExS.cs [] = Some ExS.l /\ prepare_run ExS.P ExS.l = Some (ExS.w', ExS.outs) /\ gens_made ExS.fl ExS.l ExS.sts ExS.outs 0 ExS.gen0 /\
  configured ExS.l 0 "@i" d /\ d_gen d = "auto-inc" /\
  WorkloadSpec.scope_in (WorkloadSpec.keys_at WorkloadSpec.no_keys ExS.sts 0) "@i" = Some ScopeModel.SClientGroup /\
  EndSpec.client_of ExS.sts ExS.outs 0 0 0 0 1 (ExS.c 0) ExS.lens /\ EndSpec.client_of ExS.sts ExS.outs 0 0 0 1 1 (ExS.c 1) ExS.lens /\
  ClientSpec.trx_start_with_query (ExS.c 0) ExS.lens /\
  EndSpec.no_global (WorkloadSpec.keys_at WorkloadSpec.no_keys ExS.sts 0) (ExS.c 0) /\ EndSpec.no_global (WorkloadSpec.keys_at WorkloadSpec.no_keys ExS.sts 0) (ExS.c 1) /\
  ValueModel.vrun dgen_values (EndSpec.own_of ExS.w') (EndSpec.scope_of ExS.w') ExS.gen0 (ExS.c 0) (ExS.run 0) = Some (st0, pc0, w0, ExS.evs 0, ExS.log 0) /\
  ValueModel.vrun dgen_values (EndSpec.own_of ExS.w') (EndSpec.scope_of ExS.w') ExS.gen0 (ExS.c 1) (ExS.run 1) = Some (st1, pc1, w1, ExS.evs 1, ExS.log 1) /\
  EndSpec.sized (ExS.c 0) (ExS.log 0) /\ EndSpec.sized (ExS.c 1) (ExS.log 1) /\
  group_runs ExS.sts ExS.outs 0 ExS.gen0 [(0%nat, ExS.log 0); (1%nat, ExS.log 1)] "@i" (before_overflow (d_params d)) /\
  EndSpec.never_called (ExS.c 0) "@i" /\
  map ClientSpec.ex_stmt (ClientSpec.execs (ExS.evs 0)) = [0; 1; 0; 1]%nat /\
  map ValueSpec.ex_vals (ClientSpec.execs (ExS.evs 0)) = [[Some (DUint 43); Some (DUint 1)]; [Some (DUint 43)]; [Some (DUint 44); Some (DUint 1)]; [Some (DUint 44)]] /\
  map ValueSpec.ex_vals (ClientSpec.execs (ExS.evs 1)) = [[Some (DUint 42); Some (DUint 2)]; [Some (DUint 42)]].
Proof.
  destruct (ExS.out_some 0) as (st0 & pc0 & w0 & R0); [vm_compute; reflexivity|].
  destruct (ExS.out_some 1) as (st1 & pc1 & w1 & R1); [vm_compute; reflexivity|].
  exists st0, pc0, w0, st1, pc1, w1, (Data "" "auto-inc" "client-group" [("start", "41")]).
  split; [exact ExS.cs_ok|]. split; [exact ExS.enabled|]. split; [reflexivity|]. split; [exact ExS.l_ok|]. split; [exact ExS.result_ok|].
  split; [exact ExS.gens|]. split; [apply ExS.conf; vm_compute; reflexivity|]. split; [reflexivity|]. split; [vm_compute; reflexivity|].
  split; [exact ExS.client0|]. split; [exact ExS.client1|]. split; [exact ExS.start0|]. split; [exact ExS.plain0|]. split; [exact ExS.plain1|].
  split; [exact R0|]. split; [exact R1|]. split; [exact ExS.sized0|]. split; [exact ExS.sized1|]. split; [exact ExS.group|].
  rewrite ExS.execs0_eq, ExS.execs1_eq, ExS.c0_eq. split; [|repeat split].
  intros s j S J K. cbn in S. destruct S as [<-|[<-|[]]]; destruct j as [|[|j]]; cbn in K; try discriminate K; destruct j; discriminate K.
Qed.

(** ** Clients of several client groups *)

(** Two client groups of one exec group, with one client each, that share a counter and a client-id in exec-group scope. *)
Module ExT.
  Import ScopeModel ScopeSpec StmtModel WorkloadModel WorkloadSpec ClientModel ClientSpec ValueModel ValueSpec.
  Definition files (f : string) : option (list string) :=
    if String.eqb f "w.sql" then Some ["INSERT INTO x VALUES (@i, @w)"; ""; "UPDATE x SET n=1 WHERE id=@i"] else None.
  Definition fl (s : string) : bool := true.
  Definition P : penv := PEnv E0 (data_make fl) (fun ks => ks) (fun ks => ks) (fun _ => files) (fun _ i => i).
  Definition dat : smap data :=
    [("i", Data "" "auto-inc" "exec-group" [("start", "41")]); ("w", Data "" "client-id" "exec-group" [("ids", "client-group")])].
  Definition fs := [file (stage1 "b" [Trx "w" "w.sql" dat] [CGroup "1" "" false "" "" "" "g" "" "" "" "" "" "" "" []; CGroup "1" "" false "" "" "" "g" "" "" "" "" "" "" "" []])].
  Definition cs : list stage := match load E0 no_base fs [] "" "" with Some cs => cs | None => [] end.
  Lemma cs_ok : load E0 no_base fs [] "" "" = Some cs.
  Proof. vm_compute. reflexivity. Qed.
  Definition l : list (stage * tset) := match load_stages P cs [] with Some l => l | None => [] end.
  Lemma l_ok : load_stages P cs [] = Some l.
  Proof. vm_compute. reflexivity. Qed.
  Notation sts := (map (fun x => stage_of P (fst x) (snd x)) l).
  Definition w' : wst := match prepare_run P l with Some (w, _) => w | None => WSt scopes_new 0 end.
  Definition outs := match prepare_run P l with Some (_, o) => o | None => [] end.
  Definition defined : bool := match prepare_run P l with Some _ => true | None => false end.
  Lemma result_ok : prepare_run P l = Some (w', outs).
  Proof.
    unfold w', outs. assert (X : defined = true) by (vm_compute; reflexivity). revert X. unfold defined.
    destruct (prepare_run P l) as [[w o]|]; [reflexivity|discriminate].
  Qed.
  Definition c (k : nat) : client := match nth_error outs 0 with
    | Some out => match client_at out 0 k 0 with Some c => c | None => ValueProps.ExV.c end | None => ValueProps.ExV.c end.
  Definition c0 := Eval vm_compute in c 0.
  Definition c1 := Eval vm_compute in c 1.
  Lemma c0_eq : c 0 = c0. Proof. vm_cast_no_check (eq_refl c0). Qed.
  Lemma c1_eq : c 1 = c1. Proof. vm_cast_no_check (eq_refl c1). Qed.
  Definition lens := [2]%nat.
  Lemma client0 : EndSpec.client_of sts outs 0 0 0 0 1 (c 0) lens.
  Proof. do 5 eexists. do 6 (split; [vm_compute; reflexivity|]). vm_compute. reflexivity. Qed.
  Lemma client1 : EndSpec.client_of sts outs 0 0 1 0 1 (c 1) lens.
  Proof. do 5 eexists. do 6 (split; [vm_compute; reflexivity|]). vm_compute. reflexivity. Qed.

  Definition dr (i : nat) : draw := Draw 0 0 0 (fun _ => 0%N) 0 [].
  Definition made (key : string) : gen :=
    match sget (cfg_key key) dat with
    | Some d => match gen_make fl (d_gen d) (d_params d) with Some g => g | None => GCol false GenModel.column_new end
    | None => GCol false GenModel.column_new
    end.
  Definition gen0 (p : nat) : dgen := match nth_error (s_heap (w_sc w')) p with Some i => (made (id_key i), dr) | None => (GXid, dr) end.
  Definition ok : cenv := CEnv false None true false None (fun _ => None).
  Definition none : nat -> option dgen := fun _ => None.
  Definition q (ins : list (list dval)) := (IStmt (SEnv ins (Some true) None None false ok), none).
  (** The client of each group inserts 42 and 1. *)
  Definition run (k : nat) : list (cinput dval * (nat -> option dgen)) :=
    [(IConnect ok, none); (IGo, none); q [[DUint 42]; [DUint 1]]; q [[DUint 42]]; (IStop, none)].
  Definition out (k : nat) := vrun dgen_values (EndSpec.own_of w') (EndSpec.scope_of w') gen0 (c k) (run k).
  Definition res : Type := option (cst dval * cpc * world (G := dgen) (V := dval) * list (event dval) * list (vlog dgen dval)).
  Definition evs_of (o : res) : list (event dval) := match o with Some (_, _, _, e, _) => e | None => [] end.
  Definition log_of (o : res) : list (vlog dgen dval) := match o with Some (_, _, _, _, l) => l | None => [] end.
  Definition evs (k : nat) := evs_of (out k).
  Definition log (k : nat) := log_of (out k).
  Definition execs0 := Eval vm_compute in execs (evs 0).
  Lemma execs0_eq : execs (evs 0) = execs0. Proof. vm_cast_no_check (eq_refl execs0). Qed.
  Definition execs1 := Eval vm_compute in execs (evs 1).
  Lemma execs1_eq : execs (evs 1) = execs1. Proof. vm_cast_no_check (eq_refl execs1). Qed.
  Definition log0 := Eval vm_compute in log 0.
  Lemma log0_eq : log 0 = log0. Proof. vm_cast_no_check (eq_refl log0). Qed.
  Definition log1 := Eval vm_compute in log 1.
  Lemma log1_eq : log 1 = log1. Proof. vm_cast_no_check (eq_refl log1). Qed.

  Lemma enabled : Forall (fun c => s_disable c = false) cs.
  Proof. repeat constructor. Qed.
  Lemma run_fine : run_ok sts.
  Proof. exact (C92_run_ok _ _ _ _ _ _ _ _ _ cs_ok enabled l_ok). Qed.
  Lemma all_ok : prepare_all sts (WSt scopes_new 0) = Some (w', outs).
  Proof. exact (EndRunProps.prepared_all P l _ w' outs eq_refl result_ok). Qed.
  Lemma heap_key pl key p : used_at sts outs 0 pl key p -> key <> "_" -> exists i, nth_error (s_heap (w_sc w')) p = Some i /\ id_key i = key.
  Proof. exact (EndProofs.used_heap sts 0 w' outs run_fine all_ok 0 pl key p). Qed.

  (** The generators of the keys. *)
  Definition keys_of := map id_key (s_heap (w_sc w')).
  Definition keys_of' := Eval vm_compute in keys_of.
  Lemma keys_eq : keys_of = keys_of'. Proof. vm_cast_no_check (eq_refl keys_of'). Qed.
  Lemma start0 : trx_start_with_query (c 0) lens.
  Proof. rewrite c0_eq. intros [|[|i]] s E F; try (injection E as <-; reflexivity); try discriminate F. destruct i; discriminate E. Qed.
  Lemma plain0 : EndSpec.no_global (keys_at no_keys sts 0) (c 0).
  Proof.
    intros s key S K. rewrite c0_eq in S. cbn [In c0 c_stmts] in S.
    repeat (destruct S as [<-|S]; [cbn in K; repeat (destruct K as [<-|K]; [vm_compute; discriminate|]); destruct K|]). destruct S.
  Qed.
  Lemma plain1 : EndSpec.no_global (keys_at no_keys sts 0) (c 1).
  Proof.
    intros s key S K. rewrite c1_eq in S. cbn [In c1 c_stmts] in S.
    repeat (destruct S as [<-|S]; [cbn in K; repeat (destruct K as [<-|K]; [vm_compute; discriminate|]); destruct K|]). destruct S.
  Qed.
  Lemma out_some k : match out k with Some _ => true | None => false end = true ->
    exists st pc w, vrun dgen_values (EndSpec.own_of w') (EndSpec.scope_of w') gen0 (c k) (run k) = Some (st, pc, w, evs k, log k).
  Proof.
    intros X. unfold evs, log. revert X. unfold out. destruct (vrun _ _ _ _ _ _) as [[[[[st pc] w] e] l0]|]; [|discriminate]. intros _. exists st, pc, w. reflexivity.
  Qed.
  Lemma the_trx c0 set : nth_error l 0 = Some (c0, set) -> s_trx c0 = [Trx "w" "w.sql" dat].
  Proof.
    intros H. assert (X : option_map (fun x => s_trx (fst x)) (nth_error l 0) = Some [Trx "w" "w.sql" dat]) by (vm_compute; reflexivity).
    rewrite H in X. cbn in X. now injection X as ->.
  Qed.
  Lemma gens : gens_made fl l sts outs 0 gen0.
  Proof.
    intros key d pl p g0 (c0 & set & x & L & X & G & _) U M. rewrite (the_trx _ _ L) in X. destruct X as [<-|[]]. cbn [x_data] in G.
    assert (NN : key <> "_"). { intros ->. vm_compute in G. discriminate G. }
    destruct (heap_key pl key p U NN) as (i & H1 & H2). unfold gen0. rewrite H1, H2. unfold made. rewrite G, M. cbn [fst]. split.
    - exact (copy_make fl _ _ _ M).
    - assert (Y : In (d_gen d) ["auto-inc"; "client-id"]).
      { unfold dat in G. cbn [ConfigModel.sget] in G. repeat match type of G with (if ?b then _ else _) = _ => destruct b; [injection G as <-; cbn; tauto|] end. discriminate G. }
      intros len m F. exfalso. cbn [fst] in F. subst g0. apply made_from in M. cbn in M. destruct M as [M _]. rewrite M in Y. cbn in Y. intuition discriminate.
  Qed.
  Definition uncol (key : string) (keys : smap TrxModel.key) : bool := match sget key keys with Some k => match k_col k with None => true | _ => false end | None => true end.
  Lemma conf key d : sget (cfg_key key) dat = Some d ->
    option_map (fun x => uncol key (t_keys (snd x))) (nth_error l 0) = Some true ->
    configured l 0 key d.
  Proof.
    intros G C. destruct (nth_error l 0) as [[c0 set]|] eqn:L; [|discriminate]. cbn [option_map snd] in C. injection C as C. pose proof (the_trx _ _ L) as T.
    exists c0, set, (Trx "w" "w.sql" dat). split; [exact L|]. split; [rewrite T; now left|]. split; [exact G|]. split.
    - intros y d' Y G'. rewrite T in Y. destruct Y as [<-|[]]. cbn [x_data] in G'. rewrite G in G'. injection G' as <-. auto.
    - intros k K. unfold uncol in C. rewrite K in C. destruct (k_col k); [discriminate C|reflexivity].
  Qed.
  Lemma sane_d key d : sget key dat = Some d -> sane (d_gen d) (d_params d) /\ d_gen d <> "column".
  Proof.
    intros G. unfold dat in G. cbn [ConfigModel.sget] in G.
    repeat match type of G with (if ?b then _ else _) = _ => destruct b;
      [injection G as <-; split; [unfold sane; repeat split; intros; discriminate|discriminate]|] end; discriminate G.
  Qed.

  (** The first client uses the generators, then the second one does. *)
  Definition rc (k : nat) (s : N) : runcount := RC s 1 1 1 1 (N.of_nat (k + 1)) 1 1.
  Definition labels (key : string) : list mlabel :=
    if String.eqb key "@i" then [LUse 0 false (rc 0 1); LGo 0; LGo 0; LUse 0 false (rc 0 2); LUse 1 false (rc 1 1); LUse 1 false (rc 1 2)]
    else [LUse 0 false (rc 0 1); LGo 0; LGo 0; LUse 1 false (rc 1 1)].
  Definition hist (key : string) : option (mst dgen dval * list (mevent dval)) := m_run _ _ dgen_values (m_init (made key, dr)) (labels key).
  Definition tr_of (key : string) : list (mevent dval) := match hist key with Some (_, tr) => tr | None => [] end.
  Definition tr_i := Eval vm_compute in tr_of "@i".
  Definition tr_w := Eval vm_compute in tr_of "@w".
  Definition idle (s : mst dgen dval) (k : nat) : bool := match m_ph _ _ s k with MIdle _ => true | _ => false end.
  Lemma hist_i : exists s, hist "@i" = Some (s, tr_i) /\ idle s 0 = true /\ idle s 1 = true.
  Proof. eexists. split; [vm_compute; reflexivity|]. split; reflexivity. Qed.
  Lemma hist_w : exists s, hist "@w" = Some (s, tr_w) /\ idle s 0 = true /\ idle s 1 = true.
  Proof. eexists. split; [vm_compute; reflexivity|]. split; reflexivity. Qed.
  Lemma idle_ok s k : idle s k = true -> m_ph _ _ s k = MIdle _.
  Proof. unfold idle. destruct (m_ph _ _ s k); [reflexivity|discriminate|discriminate]. Qed.
  Lemma ptr_of pl key p m : used_at sts outs 0 pl key p -> key <> "_" -> (forall p, nth_error keys_of' p = Some key -> p = m) ->
    p = m /\ gen0 p = (made key, dr).
  Proof.
    intros U N K. destruct (heap_key pl key p U N) as (i & H1 & H2). split.
    - apply K. rewrite <- keys_eq. unfold keys_of. rewrite nth_error_map, H1. cbn. now f_equal.
    - unfold gen0. now rewrite H1, H2.
  Qed.
  Lemma ptr_i p : nth_error keys_of' p = Some "@i" -> p = 0%nat.
  Proof. destruct p as [|[|p]]; [reflexivity|discriminate|]. destruct p; discriminate. Qed.
  Lemma ptr_w p : nth_error keys_of' p = Some "@w" -> p = 1%nat.
  Proof. destruct p as [|[|p]]; [discriminate|reflexivity|]. destruct p; discriminate. Qed.
  Lemma together_i pl p : used_at sts outs 0 pl "@i" p ->
    exists s tr, history gen0 p s tr /\ takes_part (log 0) p 0 s tr /\ takes_part (log 1) p 1 s tr /\ List.length (ScopeSpec.all_calls tr) = 1%nat.
  Proof.
    intros U. destruct (ptr_of pl "@i" p 0 U) as [-> G]; [discriminate|exact ptr_i|].
    destruct hist_i as (s & H & I0 & I1). exists s, tr_i. split; [exists (labels "@i"); rewrite G; exact H|].
    rewrite log0_eq, log1_eq. repeat split; auto using idle_ok.
  Qed.
  Lemma together_w pl p : used_at sts outs 0 pl "@w" p -> exists s tr, history gen0 p s tr /\ takes_part (log 0) p 0 s tr /\ takes_part (log 1) p 1 s tr.
  Proof.
    intros U. destruct (ptr_of pl "@w" p 1 U) as [-> G]; [discriminate|exact ptr_w|].
    destruct hist_w as (s & H & I0 & I1). exists s, tr_w. split; [exists (labels "@w"); rewrite G; exact H|].
    rewrite log0_eq, log1_eq. repeat split; auto using idle_ok.
  Qed.
  Lemma sized0 : EndSpec.sized (c 0) (log 0).
  Proof.
    rewrite c0_eq, log0_eq. intros i rc us s I S. cbn in I. repeat (destruct I as [I|I]; [injection I as <- <- <-; cbn in S; injection S as <-; split; reflexivity|]). destruct I.
  Qed.
  Lemma sized1 : EndSpec.sized (c 1) (log 1).
  Proof.
    rewrite c1_eq, log1_eq. intros i rc us s I S. cbn in I. repeat (destruct I as [I|I]; [injection I as <- <- <-; cbn in S; injection S as <-; split; reflexivity|]). destruct I.
  Qed.
  Definition ran : Prop := exists st0 pc0 w0 st1 pc1 w1,
    load E0 no_base fs [] "" "" = Some cs /\ Forall (fun c => s_disable c = false) cs /\ pe_make P = data_make fl /\
    load_stages P cs [] = Some l /\ prepare_run P l = Some (w', outs) /\ gens_made fl l sts outs 0 gen0 /\
    EndSpec.client_of sts outs 0 0 0 0 1 (c 0) lens /\ EndSpec.client_of sts outs 0 0 1 0 1 (c 1) lens /\ trx_start_with_query (c 0) lens /\
    EndSpec.no_global (keys_at no_keys sts 0) (c 0) /\ EndSpec.no_global (keys_at no_keys sts 0) (c 1) /\
    vrun dgen_values (EndSpec.own_of w') (EndSpec.scope_of w') gen0 (c 0) (run 0) = Some (st0, pc0, w0, evs 0, log 0) /\
    vrun dgen_values (EndSpec.own_of w') (EndSpec.scope_of w') gen0 (c 1) (run 1) = Some (st1, pc1, w1, evs 1, log 1) /\
    EndSpec.sized (c 0) (log 0) /\ EndSpec.sized (c 1) (log 1).
  Lemma ran_ok : ran.
  Proof.
    destruct (out_some 0) as (st0 & pc0 & w0 & R0); [vm_compute; reflexivity|].
    destruct (out_some 1) as (st1 & pc1 & w1 & R1); [vm_compute; reflexivity|].
    exists st0, pc0, w0, st1, pc1, w1. split; [exact cs_ok|]. split; [exact enabled|]. split; [reflexivity|]. split; [exact l_ok|]. split; [exact result_ok|].
    split; [exact gens|]. split; [exact client0|]. split; [exact client1|]. split; [exact start0|]. split; [exact plain0|]. split; [exact plain1|].
    split; [exact R0|]. split; [exact R1|]. split; [exact sized0|exact sized1].
  Qed.
End ExT.

(** C135 is false for client-id: the client of the second client group executes its statement with the number of the first client group. *)
Theorem C135_refuted : exists d ex s,
  ExT.ran /\ configured ExT.l 0 "@w" d /\ shared_key ExT.sts 0 "@w" /\ sane (d_gen d) (d_params d) /\ d_gen d = "client-id" /\
  (forall pl p, WorkloadSpec.used_at ExT.sts ExT.outs 0 pl "@w" p ->
     exists st tr, history ExT.gen0 p st tr /\ takes_part (ExT.log 0) p 0 st tr /\ takes_part (ExT.log 1) p 1 st tr) /\
  In ex (ClientSpec.execs (ExT.evs 1)) /\ EndSpec.exec_uses (ExT.c 1) ex s 1 "@w" /\
  EndSpec.vals_at s 1 ex = [Some (DUint 1)] /\ ~ allowed (client_counters 0 1 0 1) (d_gen d) (d_params d) [DUint 1].
Proof.
  exists (Data "" "client-id" "exec-group" [("ids", "client-group")]). eexists _, _.
  split; [exact ExT.ran_ok|]. split; [apply ExT.conf; vm_compute; reflexivity|].
  split; [exists ScopeModel.SExecGroup; split; [vm_compute; reflexivity|right; now left]|].
  destruct (ExT.sane_d "w" (Data "" "client-id" "exec-group" [("ids", "client-group")]) eq_refl) as [A _]. split; [exact A|]. split; [reflexivity|].
  split; [exact ExT.together_w|]. rewrite ExT.execs1_eq, ExT.c1_eq. split; [left; reflexivity|]. split; [split; reflexivity|]. split; [reflexivity|].
  intros X. cbn [d_gen d_params] in X. inversion X as [| | | | | | |ps ws fs0 rc W F S0 E1 E2 E3]; subst.
  cbn in W. destruct W as [W NC]. destruct ws as [|x [|y ws]].
  - inversion F; subst. discriminate.
  - cbn in W. subst x. inversion F as [|? f ? ? F1 F2]; subst. inversion F2; subst. cbn in E3. injection E3 as E3.
    destruct S0 as (_ & S2 & _). cbn in S2. inversion F1; subst; cbn in *; lia.
  - inversion F as [|? f ? ? F1 F2]; subst. inversion F2; subst. cbn in E3. discriminate E3.
Qed.
Print Assumptions C135_refuted.

(** C136 is false for exec-group scope: the clients of two client groups insert the same number, for which the counter was called once. *)
Theorem C136_refuted : exists d ex0 ex1 s0 s1,
  ExT.ran /\ configured ExT.l 0 "@i" d /\ d_gen d = "auto-inc" /\
  WorkloadSpec.scope_in (WorkloadSpec.keys_at WorkloadSpec.no_keys ExT.sts 0) "@i" = Some ScopeModel.SExecGroup /\
  (forall pl p, WorkloadSpec.used_at ExT.sts ExT.outs 0 pl "@i" p ->
     exists st tr, history ExT.gen0 p st tr /\ takes_part (ExT.log 0) p 0 st tr /\ takes_part (ExT.log 1) p 1 st tr /\ List.length (ScopeSpec.all_calls tr) = 1%nat) /\
  In ex0 (ClientSpec.execs (ExT.evs 0)) /\ EndSpec.exec_uses (ExT.c 0) ex0 s0 0 "@i" /\
  In ex1 (ClientSpec.execs (ExT.evs 1)) /\ EndSpec.exec_uses (ExT.c 1) ex1 s1 0 "@i" /\
  EndSpec.vals_at s0 0 ex0 = [Some (DUint 42)] /\ EndSpec.vals_at s1 0 ex1 = [Some (DUint 42)].
Proof.
  exists (Data "" "auto-inc" "exec-group" [("start", "41")]). eexists _, _, _, _.
  split; [exact ExT.ran_ok|]. split; [apply ExT.conf; vm_compute; reflexivity|]. split; [reflexivity|]. split; [vm_compute; reflexivity|].
  split; [exact ExT.together_i|]. rewrite ExT.execs0_eq, ExT.execs1_eq, ExT.c0_eq, ExT.c1_eq.
  split; [left; reflexivity|]. split; [split; reflexivity|]. split; [left; reflexivity|]. split; [split; reflexivity|]. split; reflexivity.
Qed.
Print Assumptions C136_refuted.
