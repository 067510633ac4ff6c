(** C122-C124: the built-in data generators, from the configuration to the executed values. *)
From Verif Require Import Prelude ConfigModel ConfigProps TrxModel PipeModel PipeProps DataModel DataSpec DataProofs.
From Verif Require ScopeModel ScopeSpec StmtModel WorkloadModel WorkloadSpec ClientModel ClientSpec ValueModel ValueSpec EndSpec EndProofs EndValueProofs
  EndRunProps ValueProps GenModel GenSpec GapsModel DataSizeProofs.
#[local] Open Scope string_scope.
#[local] Open Scope list_scope.

(** ** C122: enough values *)

(** A built-in generator always returns as many values as documented and as its Format promises, whatever the random numbers. *)
Theorem C122_format fl name ps g : gen_make fl name ps = Some g ->
  arity ps name (fst (gen_format g)) /\
  forall r rc g' vs, gen_values g r rc = Some (g', vs) -> List.length vs = fst (gen_format g) /\ gen_format g' = gen_format g.
Proof.
  intros M. split.
  - apply made_from in M. destruct g; cbn [from_params] in M; cbn [gen_format fst];
      first [destruct M as (-> & M)|subst name]; try (apply ArOne; cbn; tauto); try (apply ArTwo; cbn; tauto).
    + destruct (cid_ok fl ps ids M) as (ws & fs & W & F & V). unfold GenModel.client_id_n.
      specialize (V (ScopeModel.RC 0 0 0 0 0 0 0 0)). apply (f_equal (@List.length _)) in V. unfold GenModel.client_id_values in V. rewrite !map_length in V.
      rewrite V. replace (List.length fs) with (List.length ws) by (clear - F; induction F; cbn; congruence). now apply ArIds.
  - clear M. intros r rc g' vs H. destruct g; cbn [gen_values] in H.
    + destruct (GenModel.int_values _ _ _ _); [|discriminate]. injection H as <- <-. auto.
    + destruct (GapsModel.gaps_values _ _); [|discriminate]. injection H as <- <-. auto.
    + destruct (GenModel.int_range_values _ _) as [[? ?]|]; [|discriminate]. injection H as <- <-. auto.
    + destruct (GenModel.int_seq_values _) as [? [? ?]]. injection H as <- <-. auto.
    + destruct (GenModel.auto_inc_values _) as [? ?]. injection H as <- <-. auto.
    + destruct (GenModel.str_values _ _ _); [|discriminate]. injection H as <- <-. auto.
    + injection H as <- <-. auto.
    + injection H as <- <-. split; [|reflexivity]. rewrite map_length. cbn. unfold GenModel.client_id_values, GenModel.client_id_n. now rewrite map_length.
    + injection H as <- <-. split; [|reflexivity]. rewrite map_length. unfold GenModel.column_values. destruct (GenModel.co_useBytes c); reflexivity.
Qed.
Print Assumptions C122_format.

(** The executions of an accepted configuration: if each data key of a client's statements has a generator for as many values as the key
    has placeholders, each execution gets as many values as it has placeholders, none of them nil.  Partial: the configuration does not
    make sure of it ([fitting]; C122_refuted), and the values of generators of several clients are the environment's. *)
Theorem C122_partial fl E bases fs kvs dsn db cs P l w' outs a e g k n c lens gen0 inps st pc w evs log :
  let sts := map (fun x => stage_of P (fst x) (snd x)) l in
  load E bases fs kvs dsn db = Some cs -> Forall (fun c => s_disable c = false) cs -> pe_make P = data_make fl ->
  load_stages P cs [] = Some l -> prepare_run P l = Some (w', outs) -> EndSpec.client_of sts outs a e g k n c lens ->
  ClientSpec.trx_start_with_query c lens -> EndSpec.no_global (WorkloadSpec.keys_at WorkloadSpec.no_keys sts a) c ->
  ValueModel.vrun dgen_values (EndSpec.own_of w') (EndSpec.scope_of w') gen0 c inps = Some (st, pc, w, evs, log) ->
  gens_made fl l sts outs a gen0 ->
  (forall i s j key, nth_error (WorkloadModel.c_stmts c) i = Some s -> nth_error (StmtModel.st_inputs s) j = Some key -> key <> "@PREV" ->
     key <> "_" /\ fitting l sts outs a c gen0 log s j key) ->
  (forall i s, nth_error (WorkloadModel.c_stmts c) i = Some s -> nth_error (StmtModel.st_inputs s) 0 <> Some "@PREV") ->
  EndSpec.sized c log /\
  forall ex s, In ex (ClientSpec.execs evs) -> nth_error (WorkloadModel.c_stmts c) (ClientSpec.ex_stmt ex) = Some s ->
    List.length (ValueSpec.ex_vals ex) = List.length (StmtModel.st_inputs s) /\ ~ In None (ValueSpec.ex_vals ex).
Proof.
  intros sts L D PM H PR CL TS NG R GM FIT FST. pose proof (C92_run_ok _ _ _ _ _ _ _ _ _ L D H) as OK. split.
  - exact (DataSizeProofs.all_sized fl P cs l w' outs PM H OK PR a e g k n c lens CL TS gen0 inps st pc w evs log R GM NG FIT FST).
  - exact (DataSizeProofs.all_full fl P cs l w' outs PM H OK PR a e g k n c lens CL TS gen0 inps st pc w evs log R GM NG FIT FST).
Qed.
Print Assumptions C122_partial.

(** ** C123: the documented values *)

(** Whenever a client executes a statement with data key [key], the values at its placeholders are some that the documentation of the
    key's generator allows with the parameters of the configuration.  Partial: keys of one client only (scope at most client), with
    [sane] parameters; [sized] comes from C122_partial. *)
Theorem C123_partial fl E bases fs kvs dsn db cs P l w' outs a e g k n c lens gen0 inps st pc w evs log key d pre ex post s j :
  let sts := map (fun x => stage_of P (fst x) (snd x)) l in
  load E bases fs kvs dsn db = Some cs -> Forall (fun c => s_disable c = false) cs -> pe_make P = data_make fl ->
  load_stages P cs [] = Some l -> prepare_run P l = Some (w', outs) -> EndSpec.client_of sts outs a e g k n c lens ->
  ClientSpec.trx_start_with_query c lens -> EndSpec.no_global (WorkloadSpec.keys_at WorkloadSpec.no_keys sts a) c ->
  ValueModel.vrun dgen_values (EndSpec.own_of w') (EndSpec.scope_of w') gen0 c inps = Some (st, pc, w, evs, log) ->
  gens_made fl l sts outs a gen0 -> EndSpec.sized c log ->
  key <> "_" -> key <> "@PREV" -> configured l a key d -> own_key sts a key -> EndSpec.never_saved c key ->
  sane (d_gen d) (d_params d) -> d_gen d <> "column" ->
  ClientSpec.execs evs = pre ++ ex :: post -> EndSpec.exec_uses c ex s j key ->
  exists vs, EndSpec.vals_at s j ex = map Some vs /\ allowed (client_counters e g k n) (d_gen d) (d_params d) vs.
Proof.
  intros sts L D PM H PR CL TS NG R GM SZ NN NP CF OW NS SN NC EX U. pose proof (C92_run_ok _ _ _ _ _ _ _ _ _ L D H) as OK.
  pose proof OW as (sc & SC & SG).
  destruct (EndValueProofs.exec_use dgen_values gen0 sts 0 w' outs OK PR a e g k n c lens CL NG inps st pc w evs log R SZ key sc NN NP SC SG pre ex post s j EX U)
    as (rc & us & m & u & A1 & A2 & A3 & A4 & A5).
  exists (ValueModel.u_vals u). split; [exact A5|].
  exact (DataSizeProofs.config_use fl P cs l w' outs PM H OK PR a e g k n c lens CL TS gen0 inps st pc w evs log R GM key d _ _ _ _ _ _ CF OW NS SN NC NN NP A3
    (nth_error_In _ _ A1) (nth_error_In _ _ A2) eq_refl).
Qed.
Print Assumptions C123_partial.

(** A stage whose trx uses a range, a column, a counter of its own, the client's numbers and a counter of the stage. *)
Module ExD.
  Import ScopeModel ScopeSpec StmtModel WorkloadModel WorkloadSpec ClientModel ClientSpec ValueModel ValueSpec.
  Definition files (f : string) : option (list string) :=
    if String.eqb f "w.sql" then Some ["-- save-columns: @c"; "SELECT c FROM x WHERE id BETWEEN @r AND @PREV AND n=@n"; "";
                                       "UPDATE x SET k=@i, s=@s WHERE c=@c AND who=(@w, @PREV)"] else None.
  Definition fl (s : string) : bool := true.
  Definition P : penv := PEnv E0 (data_make fl) (fun ks => ks) (fun ks => ks) (fun _ => files) (fun _ i => i).
  Definition dat : smap data :=
    [("r", Data "" "int-range" "trx" [("size", "10"); ("max", "500")]); ("n", Data "" "int" "statement" [("min", "5"); ("max", "7")]);
     ("i", Data "" "auto-inc" "client" [("start", "41")]); ("s", Data "" "auto-inc" "stage" []);
     ("w", Data "" "client-id" "statement" [("ids", "client,exec-group")])].
  Definition fs := [file (stage1 "b" [Trx "w" "w.sql" dat] [CGroup "2" "" false "" "" "" "g" "" "" "" "" "" "" "" []])].
  Definition cs : list stage := match load E0 no_base fs [] "" "" with Some cs => cs | None => [] end.
  Lemma cs_ok : load E0 no_base fs [] "" "" = Some cs.
  Proof. vm_compute. reflexivity. Qed.
  Definition l : list (stage * tset) := match load_stages P cs [] with Some l => l | None => [] end.
  Lemma l_ok : load_stages P cs [] = Some l.
  Proof. vm_compute. reflexivity. Qed.
  Notation sts := (map (fun x => stage_of P (fst x) (snd x)) l).
  Definition w' : wst := match prepare_run P l with Some (w, _) => w | None => WSt scopes_new 0 end.
  Definition outs := match prepare_run P l with Some (_, o) => o | None => [] end.
  Definition defined : bool := match prepare_run P l with Some _ => true | None => false end.
  Lemma result_ok : prepare_run P l = Some (w', outs).
  Proof.
    unfold w', outs. assert (X : defined = true) by (vm_compute; reflexivity). revert X. unfold defined.
    destruct (prepare_run P l) as [[w o]|]; [reflexivity|discriminate].
  Qed.
  Definition c : client := match nth_error outs 0 with
    | Some out => match client_at out 0 0 1 with Some c => c | None => ValueProps.ExV.c end | None => ValueProps.ExV.c end.
  Definition c' := Eval vm_compute in c.
  Lemma c_eq : c = c'.
  Proof. vm_cast_no_check (eq_refl c'). Qed.
  Definition lens := [2]%nat.
  Lemma client : EndSpec.client_of sts outs 0 0 0 1 1 c lens.
  Proof. do 5 eexists. do 6 (split; [vm_compute; reflexivity|]). vm_compute. reflexivity. Qed.

  Definition dr (i : nat) : draw := Draw (493 + N.of_nat i) 0 0 (fun _ => 0%N) 0 ["c"; "7"]%char.
  Definition made (key : string) : gen :=
    match sget (cfg_key key) dat with
    | Some d => match gen_make fl (d_gen d) (d_params d) with Some g => g | None => GCol false GenModel.column_new end
    | None => GCol false GenModel.column_new
    end.
  Definition gen0 (p : nat) : dgen := match nth_error (s_heap (w_sc w')) p with Some i => (made (id_key i), dr) | None => (GXid, dr) end.
  Definition col (v : Z) : dgen := (GCol false (GenModel.Column (GenModel.CVVal v) None false), dr).
  Definition ok : cenv := CEnv false None true false None (fun _ => None).
  Definition none : nat -> option dgen := fun _ => None.
  Definition q (ins : list (list dval)) (sv : nat -> option dgen) := (IStmt (SEnv ins (Some true) None None false ok), sv).
  Definition run : list (cinput dval * (nat -> option dgen)) :=
    [(IConnect ok, none); (IGo, none); q [] (fun _ => Some (col 77)); q [[]; [DUint 8]] none;
     (IGo, none); q [] (fun _ => Some (col 78)); q [[]; [DUint 12]] none; (IStop, none)].
  Definition out := vrun dgen_values (EndSpec.own_of w') (EndSpec.scope_of w') gen0 c run.
  Definition res : Type := option (cst dval * cpc * world (G := dgen) (V := dval) * list (event dval) * list (vlog dgen dval)).
  Definition evs_of (o : res) : list (event dval) := match o with Some (_, _, _, e, _) => e | None => [] end.
  Definition log_of (o : res) : list (vlog dgen dval) := match o with Some (_, _, _, _, l) => l | None => [] end.
  Definition evs := evs_of out.
  Definition log := log_of out.
  Definition execs' := Eval vm_compute in execs evs.
  Lemma execs_eq : execs evs = execs'.
  Proof. vm_cast_no_check (eq_refl execs'). Qed.

  Lemma enabled : Forall (fun c => s_disable c = false) cs.
  Proof. repeat constructor. Qed.
  Lemma run_fine : run_ok sts.
  Proof. exact (C92_run_ok _ _ _ _ _ _ _ _ _ cs_ok enabled l_ok). Qed.
  Lemma all_ok : prepare_all sts (WSt scopes_new 0) = Some (w', outs).
  Proof. exact (EndRunProps.prepared_all P l _ w' outs eq_refl result_ok). Qed.
  Lemma heap_key pl key p : used_at sts outs 0 pl key p -> key <> "_" -> exists i, nth_error (s_heap (w_sc w')) p = Some i /\ id_key i = key.
  Proof. exact (EndProofs.used_heap sts 0 w' outs run_fine all_ok 0 pl key p). Qed.
  Lemma start : trx_start_with_query c lens.
  Proof. rewrite c_eq. intros [|[|i]] s E F; try (injection E as <-; reflexivity); try discriminate F. destruct i; discriminate E. Qed.
  Lemma no_globals : EndSpec.no_global (keys_at no_keys sts 0) c.
  Proof.
    intros s key S K. rewrite c_eq in S. cbn [In c' c_stmts] in S.
    repeat (destruct S as [<-|S]; [cbn in K; repeat (destruct K as [<-|K]; [vm_compute; discriminate|]); destruct K|]). destruct S.
  Qed.
  Lemma out_some : exists st pc w, vrun dgen_values (EndSpec.own_of w') (EndSpec.scope_of w') gen0 c run = Some (st, pc, w, evs, log).
  Proof.
    assert (X : match out with Some _ => true | None => false end = true) by (vm_compute; reflexivity).
    unfold evs, log. revert X. unfold out. destruct (vrun _ _ _ _ _ _) as [[[[[st pc] w] e] l0]|]; [|discriminate]. intros _. exists st, pc, w. reflexivity.
  Qed.
  Definition stage0 : stage := match l with (c0, _) :: _ => c0 | [] => stage1 "" [] [] end.
  Lemma the_trx c0 set : nth_error l 0 = Some (c0, set) -> s_trx c0 = [Trx "w" "w.sql" dat].
  Proof.
    intros H. assert (X : option_map (fun x => s_trx (fst x)) (nth_error l 0) = Some [Trx "w" "w.sql" dat]) by (vm_compute; reflexivity).
    rewrite H in X. cbn in X. now injection X as ->.
  Qed.
  Lemma gens : gens_made fl l sts outs 0 gen0.
  Proof.
    intros key d pl p g0 (c0 & set & x & L & X & G & _) U M. rewrite (the_trx _ _ L) in X. destruct X as [<-|[]]. cbn [x_data] in G.
    assert (NN : key <> "_"). { intros ->. vm_compute in G. discriminate G. }
    destruct (heap_key pl key p U NN) as (i & H1 & H2). unfold gen0. rewrite H1, H2. unfold made. rewrite G, M. cbn [fst]. split.
    - exact (copy_make fl _ _ _ M).
    - assert (Y : In (d_gen d) ["int-range"; "int"; "auto-inc"; "client-id"]).
      { unfold dat in G. cbn [ConfigModel.sget] in G. repeat match type of G with (if ?b then _ else _) = _ => destruct b; [injection G as <-; cbn; tauto|] end. discriminate G. }
      intros len m F. exfalso. cbn [fst] in F. subst g0. apply made_from in M. cbn in M. destruct M as [M _]. rewrite M in Y. cbn in Y. intuition discriminate.
  Qed.
  Definition uncol (key : string) (keys : smap TrxModel.key) : bool := match sget key keys with Some k => match k_col k with None => true | _ => false end | None => true end.
  Lemma conf key d : sget (cfg_key key) dat = Some d ->
    option_map (fun x => uncol key (t_keys (snd x))) (nth_error l 0) = Some true ->
    configured l 0 key d.
  Proof.
    intros G C. destruct (nth_error l 0) as [[c0 set]|] eqn:L; [|discriminate]. cbn [option_map snd] in C. injection C as C. pose proof (the_trx _ _ L) as T.
    exists c0, set, (Trx "w" "w.sql" dat). split; [exact L|]. split; [rewrite T; now left|]. split; [exact G|]. split.
    - intros y d' Y G'. rewrite T in Y. destruct Y as [<-|[]]. cbn [x_data] in G'. rewrite G in G'. injection G' as <-. auto.
    - intros k K. unfold uncol in C. rewrite K in C. destruct (k_col k); [discriminate C|reflexivity].
  Qed.
  Lemma unsaved key : key <> "@c" -> key <> "" -> EndSpec.never_saved c key.
  Proof.
    intros N1 N2 s S. rewrite c_eq in S. cbn [In c' c_stmts] in S.
    repeat (destruct S as [<-|S]; [cbn; split; [intuition congruence|congruence]|]). destruct S.
  Qed.
  Lemma one_client key sc : scope_in (keys_at no_keys sts 0) key = Some sc -> ScopeSpec.single_client sc -> own_key sts 0 key.
  Proof. intros H S. exists sc. auto. Qed.
  Lemma cols : forallb (fun x => match x with LSave _ _ (GCol _ _, _) => true | LSave _ _ _ => false | LUses _ _ _ => true end) log = true.
  Proof. vm_compute. reflexivity. Qed.
  Lemma shared : forallb (fun x : nat * runcount * list (suse dval) => forallb (fun u => match nth_error (s_heap (w_sc w')) (u_ptr u) with
     Some i => if String.eqb (id_key i) "@s" then Nat.eqb (List.length (u_vals u)) 1 else true | None => true end) (snd x)) (groups log) = true.
  Proof. vm_compute. reflexivity. Qed.
  Lemma sane_d key d : sget key dat = Some d -> sane (d_gen d) (d_params d) /\ d_gen d <> "column".
  Proof.
    intros G. unfold dat in G. cbn [ConfigModel.sget] in G.
    repeat match type of G with (if ?b then _ else _) = _ => destruct b;
      [injection G as <-; split; [unfold sane; repeat split; intros; try discriminate; cbn; try lia|discriminate]|] end; try discriminate G.
    all: match goal with H : normal_dist _ |- _ => exfalso; destruct H as (x & X & _); discriminate X end.
  Qed.
  Lemma fits : forall i s j key, nth_error (c_stmts c) i = Some s -> nth_error (st_inputs s) j = Some key -> key <> "@PREV" ->
     key <> "_" /\ fitting l sts outs 0 c gen0 log s j key.
  Proof.
    assert (CF : forall s j key d, sget (cfg_key key) dat = Some d -> own_key sts 0 key -> key <> "@c" -> key <> "" ->
      option_map (fun x => uncol key (t_keys (snd x))) (nth_error l 0) = Some true ->
      arity (d_params d) (d_gen d) (wants s j) -> fitting l sts outs 0 c gen0 log s j key).
    { intros s j key d G O N1 N2 C A. destruct (sane_d _ _ G). apply FConfig with d; auto. { now apply conf. } now apply unsaved. }
    intros [|[|i]] s j key S J NP; rewrite c_eq in S; cbn [nth_error c' c_stmts] in S; [| |destruct i; discriminate S];
      injection S as <-; cbn [st_inputs] in J.
    - destruct j as [|[|[|j]]]; cbn [nth_error] in J; try (injection J as <-; first [exfalso; apply NP; reflexivity|split; [discriminate|]]); [| |destruct j; discriminate J].
      + eapply CF; [vm_compute; reflexivity| |discriminate|discriminate|vm_compute; reflexivity|].
        * eapply one_client; [vm_compute; reflexivity|]. right. now left.
        * apply ArTwo. cbn. tauto.
      + eapply CF; [vm_compute; reflexivity| |discriminate|discriminate|vm_compute; reflexivity|].
        * eapply one_client; [vm_compute; reflexivity|]. now left.
        * apply ArOne. cbn. tauto.
    - destruct j as [|[|[|[|[|j]]]]]; cbn [nth_error] in J; try (injection J as <-; first [exfalso; apply NP; reflexivity|split; [discriminate|]]); [| | | |destruct j; discriminate J].
      + eapply CF; [vm_compute; reflexivity| |discriminate|discriminate|vm_compute; reflexivity|].
        * eapply one_client; [vm_compute; reflexivity|]. unfold ScopeSpec.single_client. tauto.
        * apply ArOne. cbn. tauto.
      + apply FShared. intros pl p i rc us u U I1 I2 I3. destruct (heap_key pl "@s" p U) as (h & H1 & H2); [discriminate|].
        pose proof shared as X. rewrite forallb_forall in X. specialize (X _ I1). cbn [snd] in X. rewrite forallb_forall in X. specialize (X _ I2).
        rewrite I3, H1, H2, String.eqb_refl in X. apply Nat.eqb_eq in X. exact X.
      + apply FColumn; [eapply one_client; [vm_compute; reflexivity|]; right; now left|reflexivity|].
        intros pl p U. split.
        * destruct (heap_key pl "@c" p U) as (h & H1 & H2); [discriminate|]. unfold gen0. rewrite H1, H2. eexists _, _. vm_compute. reflexivity.
        * intros i g0 I. pose proof cols as X. rewrite forallb_forall in X. specialize (X _ I). cbn in X. destruct g0 as [[] ?]; try discriminate X. eexists _, _. reflexivity.
      + eapply CF; [vm_compute; reflexivity| |discriminate|discriminate|vm_compute; reflexivity|].
        * eapply one_client; [vm_compute; reflexivity|]. now left.
        * apply (ArIds _ ["client"; "exec-group"]). cbn. split; [reflexivity|]. intros w [<-|[<-|[]]] X; cbn in X; intuition discriminate.
  Qed.
End ExD.

Example C122_example : exists st pc w,
  load E0 no_base ExD.fs [] "" "" = Some ExD.cs /\ Forall (fun c => s_disable c = false) ExD.cs /\ pe_make ExD.P = data_make ExD.fl /\
  load_stages ExD.P ExD.cs [] = Some ExD.l /\ prepare_run ExD.P ExD.l = Some (ExD.w', ExD.outs) /\
  EndSpec.client_of ExD.sts ExD.outs 0 0 0 1 1 ExD.c ExD.lens /\ ClientSpec.trx_start_with_query ExD.c ExD.lens /\
  EndSpec.no_global (WorkloadSpec.keys_at WorkloadSpec.no_keys ExD.sts 0) ExD.c /\
  ValueModel.vrun dgen_values (EndSpec.own_of ExD.w') (EndSpec.scope_of ExD.w') ExD.gen0 ExD.c ExD.run = Some (st, pc, w, ExD.evs, ExD.log) /\
  gens_made ExD.fl ExD.l ExD.sts ExD.outs 0 ExD.gen0 /\
  (forall i s j key, nth_error (WorkloadModel.c_stmts ExD.c) i = Some s -> nth_error (StmtModel.st_inputs s) j = Some key -> key <> "@PREV" ->
     key <> "_" /\ fitting ExD.l ExD.sts ExD.outs 0 ExD.c ExD.gen0 ExD.log s j key) /\
  (forall i s, nth_error (WorkloadModel.c_stmts ExD.c) i = Some s -> nth_error (StmtModel.st_inputs s) 0 <> Some "@PREV") /\
  map ValueSpec.ex_vals (ClientSpec.execs ExD.evs) =
    [[Some (DInt 494); Some (DInt 500); Some (DInt 5)];
     [Some (DUint 42); Some (DUint 8); Some (DCol (GenModel.CVVal 77)); Some (DUint 2); Some (DUint 1)];
     [Some (DInt 495); Some (DInt 500); Some (DInt 5)];
     [Some (DUint 42); Some (DUint 12); Some (DCol (GenModel.CVVal 78)); Some (DUint 2); Some (DUint 1)]].
Proof.
  destruct ExD.out_some as (st & pc & w & R). exists st, pc, w.
  split; [exact ExD.cs_ok|]. split; [exact ExD.enabled|]. split; [reflexivity|]. split; [exact ExD.l_ok|]. split; [exact ExD.result_ok|].
  split; [exact ExD.client|]. split; [exact ExD.start|]. split; [exact ExD.no_globals|]. split; [exact R|]. split; [exact ExD.gens|].
  split; [exact ExD.fits|]. split; [|rewrite ExD.execs_eq; reflexivity].
  intros [|[|i]] s S; rewrite ExD.c_eq in S; cbn [nth_error ExD.c' WorkloadModel.c_stmts] in S; [| |destruct i; discriminate S]; injection S as <-; discriminate.
Qed.

(** The hypotheses of C123_partial for the range. *)
Example C123_example : exists d,
  configured ExD.l 0 "@r" d /\ own_key ExD.sts 0 "@r" /\ EndSpec.never_saved ExD.c "@r" /\ sane (d_gen d) (d_params d) /\ d_gen d <> "column" /\
  EndSpec.sized ExD.c ExD.log /\
  exists ex post s, ClientSpec.execs ExD.evs = [] ++ ex :: post /\ EndSpec.exec_uses ExD.c ex s 0 "@r" /\
    EndSpec.vals_at s 0 ex = [Some (DInt 494); Some (DInt 500)] /\
    allowed (client_counters 0 0 1 1) (d_gen d) (d_params d) [DInt 494; DInt 500] /\
    ~ allowed (client_counters 0 0 1 1) (d_gen d) (d_params d) [DInt 494; DInt 503].
Proof.
  exists (Data "" "int-range" "trx" [("size", "10"); ("max", "500")]).
  split; [apply ExD.conf; vm_compute; reflexivity|]. split; [eapply ExD.one_client; [vm_compute; reflexivity|right; now left]|].
  split; [apply ExD.unsaved; discriminate|]. destruct (ExD.sane_d "r" (Data "" "int-range" "trx" [("size", "10"); ("max", "500")]) eq_refl) as [A B].
  split; [exact A|]. split; [exact B|]. split.
  { destruct C122_example as (st & pc & w & H1 & H2 & H3 & H4 & H5 & H6 & H7 & H8 & H9 & H10 & H11 & H12 & _).
    exact (proj1 (C122_partial _ _ _ _ _ _ _ _ _ _ _ _ _ _ _ _ _ _ _ _ _ _ _ _ _ _ H1 H2 H3 H4 H5 H6 H7 H8 H9 H10 H11 H12)). }
  rewrite ExD.execs_eq. eexists _, _, _. split; [reflexivity|]. split; [rewrite ExD.c_eq; split; reflexivity|]. split; [reflexivity|]. split.
  - apply ARange; vm_compute; [split; discriminate|discriminate|right; split; reflexivity].
  - intros X. inversion X; subst. match goal with H : (503 <= ?m)%Z |- _ => assert (Y : m = 500%Z) by (vm_compute; reflexivity); lia end.
Qed.

(** C122 is false: the number of values that Format promises is not compared with the placeholders of the key. *)
Module ExB.
  Import ScopeModel StmtModel WorkloadModel WorkloadSpec ClientModel ClientSpec ValueModel ValueSpec.
  Definition fl (s : string) : bool := true.
  Section One.
    Context (query : string) (dat : smap data).
    Definition P : penv := PEnv E0 (data_make fl) (fun ks => ks) (fun ks => ks) (fun _ f => if String.eqb f "w.sql" then Some [query] else None) (fun _ i => i).
    Definition fs := [file (stage1 "b" [Trx "w" "w.sql" dat] [CGroup "1" "" false "" "" "" "g" "" "" "" "" "" "" "" []])].
    Definition cs : list stage := match load E0 no_base fs [] "" "" with Some cs => cs | None => [] end.
    Definition l : list (stage * tset) := match load_stages P cs [] with Some l => l | None => [] end.
    Definition sts := map (fun x => stage_of P (fst x) (snd x)) l.
    Definition w' : wst := match prepare_run P l with Some (w, _) => w | None => WSt scopes_new 0 end.
    Definition outs := match prepare_run P l with Some (_, o) => o | None => [] end.
    Definition defined : bool := match load E0 no_base fs [] "" "", load_stages P cs [], prepare_run P l with Some _, Some _, Some _ => true | _, _, _ => false end.
    Definition c : client := match nth_error outs 0 with
      | Some out => match client_at out 0 0 0 with Some c => c | None => ValueProps.ExV.c end | None => ValueProps.ExV.c end.
    Definition made (key : string) : gen :=
      match sget (cfg_key key) dat with
      | Some d => match gen_make fl (d_gen d) (d_params d) with Some g => g | None => GXid end
      | None => GXid
      end.
    Definition gen0 (p : nat) : dgen := match nth_error (s_heap (w_sc w')) p with Some i => (made (id_key i), ExD.dr) | None => (GXid, ExD.dr) end.
    Definition run := [(IConnect ExD.ok, ExD.none); (IGo, ExD.none); ExD.q [] ExD.none; (IStop, ExD.none)].
    Definition out := vrun dgen_values (EndSpec.own_of w') (EndSpec.scope_of w') gen0 c run.
    Definition evs := ExD.evs_of out.
    Lemma all_ok : defined = true -> load E0 no_base fs [] "" "" = Some cs /\ load_stages P cs [] = Some l /\ prepare_run P l = Some (w', outs).
    Proof.
      unfold defined. intros X. split; [|split].
      - unfold cs. destruct (load E0 no_base fs [] "" ""); [reflexivity|discriminate].
      - unfold l. destruct (load_stages P cs []); [reflexivity|]. destruct (load E0 no_base fs [] "" ""); discriminate.
      - unfold w', outs. destruct (prepare_run P l) as [[w o]|]; [reflexivity|]. destruct (load E0 no_base fs [] "" ""); [|discriminate]. destruct (load_stages P cs []); discriminate.
    Qed.
    Lemma heap_key pl key p : defined = true -> Forall (fun c => s_disable c = false) cs -> used_at sts outs 0 pl key p -> key <> "_" ->
      exists i, nth_error (s_heap (w_sc w')) p = Some i /\ id_key i = key.
    Proof.
      intros D F. destruct (all_ok D) as (A & B & C).
      exact (EndProofs.used_heap sts 0 w' outs (C92_run_ok _ _ _ _ _ _ _ _ _ A F B) C 0 pl key p).
    Qed.
    Lemma out_some : match out with Some _ => true | None => false end = true ->
      exists st pc w log, vrun dgen_values (EndSpec.own_of w') (EndSpec.scope_of w') gen0 c run = Some (st, pc, w, evs, log).
    Proof. unfold evs, out. destruct (vrun _ _ _ _ _ _) as [[[[[st pc] w] e] l0]|]; [|discriminate]. intros _. exists st, pc, w, l0. reflexivity. Qed.
    Lemma gens : defined = true -> Forall (fun c => s_disable c = false) cs -> sget (cfg_key "_") dat = None ->
      option_map (fun x => s_trx (fst x)) (nth_error l 0) = Some [Trx "w" "w.sql" dat] ->
      Forall (fun x => d_gen (snd x) <> "str-fill-az") dat -> gens_made fl l sts outs 0 gen0.
    Proof.
      intros D F U0 T NS key d pl p g0 (c0 & set & x & L & X & G & _) U M. rewrite L in T. cbn in T. injection T as T. rewrite T in X. destruct X as [<-|[]].
      cbn [x_data] in G. assert (NN : key <> "_") by (intros ->; congruence).
      destruct (heap_key pl key p D F U NN) as (i & H1 & H2). unfold gen0. rewrite H1, H2. unfold made. rewrite G, M. cbn [fst]. split.
      - exact (copy_make fl _ _ _ M).
      - intros len m Q. exfalso. cbn [fst] in Q. subst g0. apply made_from in M. cbn in M. destruct M as [M _]. clear - G NS M.
        revert G. generalize (cfg_key key). induction NS as [|[k0 d0] dat' H _ IH]; intros ky G; [discriminate|]. cbn in G.
        destruct (String.eqb ky k0); [injection G as ->; cbn in H; congruence|eauto].
    Qed.
  End One.
End ExB.

(** The configuration is accepted and its client has run. *)
Definition ran (query : string) (dat : smap data) : Prop := exists st pc w log,
  let cs := ExB.cs dat in let P := ExB.P query in let l := ExB.l query dat in let sts := map (fun x => stage_of P (fst x) (snd x)) l in
  let w' := ExB.w' query dat in let outs := ExB.outs query dat in let c := ExB.c query dat in
  load E0 no_base (ExB.fs dat) [] "" "" = Some cs /\ Forall (fun c => s_disable c = false) cs /\ pe_make P = data_make ExB.fl /\
  load_stages P cs [] = Some l /\ prepare_run P l = Some (w', outs) /\
  EndSpec.client_of sts outs 0 0 0 0 1 c [1]%nat /\ ClientSpec.trx_start_with_query c [1]%nat /\
  EndSpec.no_global (WorkloadSpec.keys_at WorkloadSpec.no_keys sts 0) c /\
  ValueModel.vrun dgen_values (EndSpec.own_of w') (EndSpec.scope_of w') (ExB.gen0 query dat) c ExB.run = Some (st, pc, w, ExB.evs query dat, log) /\
  gens_made ExB.fl l sts outs 0 (ExB.gen0 query dat).

Definition qA := "SELECT c FROM x WHERE a=@d AND b=@PREV".
Definition dA : smap data := [("d", Data "" "int" "" [])].
Definition qB := "SELECT c FROM x WHERE a=@r AND b=@n".
Definition dB : smap data := [("r", Data "" "int-range" "" [("size", "10")]); ("n", Data "" "int" "" [("max", "9")])].
Ltac ran_tac q d := 
  let st := fresh in let pc := fresh in let w := fresh in let log := fresh in let R := fresh in
  assert (D : ExB.defined q d = true) by (vm_compute; reflexivity);
  assert (F : Forall (fun c => s_disable c = false) (ExB.cs d)) by (repeat constructor);
  destruct (ExB.out_some q d) as (st & pc & w & log & R); [vm_compute; reflexivity|];
  destruct (ExB.all_ok q d D) as (A & B & C);
  exists st, pc, w, log; split; [exact A|]; split; [exact F|]; split; [reflexivity|]; split; [exact B|]; split; [exact C|];
  split; [do 5 eexists; do 6 (split; [vm_compute; reflexivity|]); vm_compute; reflexivity|].
Lemma ran_A : ran qA dA.
Proof.
  ran_tac qA dA. set (c' := ExB.c qA dA). assert (E : c' = c') by reflexivity.
  let v := eval vm_compute in (WorkloadModel.c_stmts c') in assert (S : WorkloadModel.c_stmts c' = v) by (vm_compute; reflexivity).
  split; [intros [|i] s X Y; rewrite S in X; [injection X as <-; reflexivity|destruct i; discriminate X]|].
  split. { intros s key X K. rewrite S in X. destruct X as [<-|[]]. cbn in K. repeat (destruct K as [<-|K]; [vm_compute; discriminate|]). destruct K. }
  split; [eassumption|]. apply ExB.gens; auto; try (vm_compute; reflexivity). repeat constructor; discriminate.
Qed.
Lemma ran_B : ran qB dB.
Proof.
  ran_tac qB dB. set (c' := ExB.c qB dB). assert (E : c' = c') by reflexivity.
  let v := eval vm_compute in (WorkloadModel.c_stmts c') in assert (S : WorkloadModel.c_stmts c' = v) by (vm_compute; reflexivity).
  split; [intros [|i] s X Y; rewrite S in X; [injection X as <-; reflexivity|destruct i; discriminate X]|].
  split. { intros s key X K. rewrite S in X. destruct X as [<-|[]]. cbn in K. repeat (destruct K as [<-|K]; [vm_compute; discriminate|]). destruct K. }
  split; [eassumption|]. apply ExB.gens; auto; try (vm_compute; reflexivity). repeat constructor; discriminate.
Qed.

(** A placeholder gets nil: @PREV after a key of one value; *)
Theorem C122_refuted : exists query dat, ran query dat /\
  exists ex, In ex (ClientSpec.execs (ExB.evs query dat)) /\ In None (ValueSpec.ex_vals ex).
Proof.
  exists qA, dA. split; [exact ran_A|].
  assert (X : map ValueSpec.ex_vals (ClientSpec.execs (ExB.evs qA dA)) = [[Some (DInt 493); None]]) by (vm_compute; reflexivity).
  destruct (ClientSpec.execs (ExB.evs qA dA)) as [|ex es]; [discriminate|]. exists ex. split; [now left|]. cbn in X. injection X as X _. rewrite X. right. now left.
Qed.
Print Assumptions C122_refuted.

(** a placeholder gets the second value of the key before it, which is not followed by @PREV; so C123 is false for the key of the placeholder. *)
Theorem C123_refuted : exists query dat key d, ran query dat /\ sget (cfg_key key) dat = Some d /\
  exists ex s j, In ex (ClientSpec.execs (ExB.evs query dat)) /\ EndSpec.exec_uses (ExB.c query dat) ex s j key /\
    sane (d_gen d) (d_params d) /\
    ~ exists vs, EndSpec.vals_at s j ex = map Some vs /\ allowed (client_counters 0 0 0 1) (d_gen d) (d_params d) vs.
Proof.
  exists qB, dB, "@n", (Data "" "int" "" [("max", "9")]). split; [exact ran_B|]. split; [vm_compute; reflexivity|].
  assert (X : map (fun e => (ClientSpec.ex_stmt e, ValueSpec.ex_vals e)) (ClientSpec.execs (ExB.evs qB dB)) = [(0%nat, [Some (DInt 494); Some (DInt 503)])])
    by (vm_compute; reflexivity).
  destruct (ClientSpec.execs (ExB.evs qB dB)) as [|ex es]; [discriminate|]. cbn [map] in X. injection X as X1 X2 _.
  destruct (WorkloadModel.c_stmts (ExB.c qB dB)) as [|s ss] eqn:S; [vm_compute in S; discriminate S|].
  exists ex, s, 1%nat. split; [now left|].
  assert (I : StmtModel.st_inputs s = ["@r"; "@n"]). { apply (f_equal (fun l => match l with x :: _ => StmtModel.st_inputs x | [] => [] end)) in S. cbn beta iota in S. rewrite <- S. vm_compute. reflexivity. }
  split. { split; [rewrite X1, S; reflexivity|rewrite I; reflexivity]. }
  split. { clear. unfold sane. repeat split; intros; try discriminate; cbn; try lia.
    all: match goal with H : normal_dist _ |- _ => exfalso; destruct H as (x & Q & _); discriminate Q end. }
  intros (vs & V & A). unfold EndSpec.vals_at in V. rewrite X2, I in V. cbn in V.
  destruct vs as [|v [|v2 vs]]; try discriminate V. cbn in V. injection V as <-.
  inversion A; subst. match goal with H : (_ <= 503 <= _)%Z |- _ => destruct H as [_ H]; vm_compute in H; now apply H end.
Qed.
Print Assumptions C123_refuted.

(** ** C124: the registry *)

(** The factory for a name is the first one that was registered for it; a second registration is refused and changes nothing, for this
    name and for all others. *)
Theorem C124_first_wins {F} (l : list (string * F)) : forall r name,
  factory_of (registers r l) name =
  match factory_of r name with
  | Some f => Some f
  | None => option_map snd (find (fun x => String.eqb (fst x) name) l)
  end.
Proof.
  induction l as [|[n f] l IH]; intros r name; cbn [registers find fst snd]; [destruct (factory_of r name); reflexivity|]. rewrite IH.
  unfold register, factory_of in *. destruct (sget n r) as [f0|] eqn:E.
  - destruct (sget name r) eqn:E2; [reflexivity|]. destruct (String.eqb_spec n name); [congruence|reflexivity].
  - rewrite ConfigProofs.sget_sset. rewrite (String.eqb_sym name n). destruct (String.eqb_spec n name) as [->|]; [rewrite E|]; reflexivity.
Qed.
Print Assumptions C124_first_wins.
Theorem C124_refused {F} (r : smap F) name f : register r name f = None <-> factory_of r name <> None.
Proof. unfold register, factory_of. destruct (sget name r); split; congruence. Qed.
Print Assumptions C124_refused.

(** The names of the documentation are registered with the built-in factory and no others; it makes a generator of this name or refuses,
    and refuses every other name. *)
Theorem C124_builtin {F} (f : F) (l : list (string * F)) fl name :
  let doc := ["int"; "int-gaps"; "int-range"; "int-range-seq"; "auto-inc"; "str-fill-az"; "xid"; "client-id"; "column"] in
  (In name doc -> factory_of (registers (init_registry f) l) name = Some f) /\
  (factory_of (init_registry f) name <> None -> In name doc) /\
  (forall ps g, gen_make fl name ps = Some g -> In name doc /\ gen_name g = name).
Proof.
  intros doc. split; [|split].
  - intros I. rewrite C124_first_wins. assert (X : factory_of (init_registry f) name = Some f); [|now rewrite X].
    cbn in I. repeat (destruct I as [<-|I]; [reflexivity|]). destruct I.
  - unfold init_registry. rewrite C124_first_wins. cbn [factory_of ConfigModel.sget]. intros X.
    destruct (find _ _) as [[n f0]|] eqn:E in X; [|now destruct X]. apply find_some in E as [E1 E2]. cbn [fst] in E2. apply String.eqb_eq in E2 as ->.
    apply in_map_iff in E1 as (n' & E1 & E3). injection E1 as -> _. exact E3.
  - intros ps g M. pose proof (made_from _ _ _ _ M) as X.
    destruct g; cbn [from_params] in X; cbn [gen_name]; first [destruct X as [-> _]|subst name]; (split; [cbn; tauto|reflexivity]).
Qed.
Print Assumptions C124_builtin.

(** Copies are independent: Copy of a generator that was just made is a generator that behaves like a new one. *)
Theorem C124_copy fl name ps g : gen_make fl name ps = Some g -> gen_copy g = Some g.
Proof. apply copy_make. Qed.
Print Assumptions C124_copy.

Example C124_example :
  let r := registers (init_registry 0%nat) [("mine", 1); ("int", 2); ("mine", 3)]%nat in
  map (factory_of r) ["mine"; "int"; "xid"; "other"] = [Some 1; Some 0; Some 0; None]%nat /\
  gen_make ExB.fl "client-id" [("ids", "client,trx")] = Some (GCid [4; 1]%nat) /\ gen_make ExB.fl "client-id" [("ids", "clients")] = None /\
  gen_make ExB.fl "other" [] = None /\ gen_make ExB.fl "int" [("min", "x")] = None /\ gen_make ExB.fl "column" [("quote-value", "Yes")] = Some (GCol true GenModel.column_new).
Proof. repeat split. Qed.
