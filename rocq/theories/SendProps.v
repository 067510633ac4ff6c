(** C127: the text of the queries that clients send, from the trx file. *)
From Coq Require Import Permutation.
From Verif Require Import Prelude ConfigModel ConfigProps TrxModel TrxSpec PipeModel PipeProps DataModel DataSpec DataProofs DataProps SendModel SendSpec.
From Verif Require SendProofs TrxSentProofs TrxLineProofs PipeRunProofs LoadSpec LoadProps LoopProps GenModel.
From Verif Require ScopeModel ScopeSpec StmtModel WorkloadModel WorkloadSpec ClientModel ClientSpec ValueModel ValueSpec EndSpec.
#[local] Open Scope string_scope.
#[local] Open Scope list_scope.

Lemma client_stmt E bases fs kvs dsn db cs P l w' outs a c0 set out e g k c grp i s name j :
  load E bases fs kvs dsn db = Some cs -> Forall (fun c => s_disable c = false) cs ->
  load_stages P cs [] = Some l -> prepare_run P l = Some (w', outs) -> nth_error l a = Some (c0, set) -> nth_error outs a = Some out ->
  WorkloadSpec.client_at out e g k = Some c -> LoopProps.group_at c0 out e g grp ->
  nth_error (WorkloadModel.c_stmts c) i = Some s -> LoadSpec.place (LoadProps.stmts_in set) (LoopProps.trx_names c0 grp) i = Some (name, j) ->
  In name (map x_name (s_trx c0)) /\ exists ss p, sget name (t_stmts set) = Some ss /\ nth_error ss j = Some p /\
    StmtModel.st_query s = p_query p /\ StmtModel.st_inputs s = p_inputs p /\ StmtModel.st_prepare s = p_prepare p.
Proof.
  intros L D H PR Ha Ho CA G Hs PL.
  destruct (stage_facts _ _ _ _ _ _ _ _ _ _ _ a c0 set out L D H PR Ha Ho) as (keys0 & w1 & w2 & TN & NK & LS & PS & IN & NA).
  unfold WorkloadSpec.client_at in CA. destruct (nth_error out e) as [css|] eqn:He; [|discriminate].
  destruct (nth_error css g) as [cls|] eqn:Hg; [|discriminate]. apply nth_error_In in CA.
  rewrite (PipeRunProofs.client_trx P c0 keys0 set LS NK TN _ _ _ _ _ _ _ _ _ PS He Hg CA G) in Hs. fold (LoopProps.trx_names c0 grp) in Hs.
  pose proof (LoadProps.place_nth P set (LoopProps.trx_names c0 grp) i) as PN. rewrite PL in PN. destruct PN as (I & p & (ss & S1 & S2) & N).
  split.
  - unfold LoopProps.trx_names in I. destruct (g_trx grp) as [|t ts] eqn:GT; [auto|]. rewrite <- GT in I.
    destruct (TN grp name (nth_error_In _ _ G) I) as (x & Hx & <-). now apply in_map.
  - exists ss, p. rewrite Hs in N. injection N as ->. cbn. auto.
Qed.

(** Each statement of a client is the statement of its trx file at the same place.  If it is prepared, it is prepared with ? in
    place of each data key; if not, the text that is sent for values of the kinds of the keys is that of the file with the values
    written out in place of the keys, strings in quotes, numbers not, saved columns as quote-value says.  Partial: files without "copies";
    texts without CSV templates, with no key that is the beginning of another one, without per cent signs; keys that other stages do not
    see; if several @PREV, then for the same kind of key. *)
Theorem C127_text_partial fl E bases fs kvs dsn db cs P l w' outs a c0 set out e g k c grp i s name j :
  let sts := map (fun x => stage_of P (fst x) (snd x)) l in
  load E bases fs kvs dsn db = Some cs -> Forall (fun c => s_disable c = false) cs -> pe_make P = data_make fl ->
  (forall ks, Permutation (pe_order P ks) ks) ->
  load_stages P cs [] = Some l -> prepare_run P l = Some (w', outs) -> nth_error l a = Some (c0, set) -> nth_error outs a = Some out ->
  NoDup (map x_name (s_trx c0)) -> WorkloadSpec.client_at out e g k = Some c -> LoopProps.group_at c0 out e g grp ->
  nth_error (WorkloadModel.c_stmts c) i = Some s -> LoadSpec.place (LoadProps.stmts_in set) (LoopProps.trx_names c0 grp) i = Some (name, j) ->
  no_copies P c0 name -> sget "@PREV" (t_keys set) = None ->
  exists q, file_stmt P c0 name j q /\ forall t, sql t = q -> clear t -> keys_prefix_free (key_names t) -> ~ occurs "/*!" q ->
    (StmtModel.st_prepare s = true -> StmtModel.st_query s = filled (fun _ => "?") "" t /\ StmtModel.st_inputs s = key_names t) /\
    (StmtModel.st_prepare s = false -> forall quote kind,
       (forall k, In k (key_names t) -> k <> "@PREV" -> written l sts a k (quote k) (kind k)) ->
       (forall x y, In x (prevs "" t) -> In y (prevs "" t) -> quote x = quote y /\ kind x = kind y) ->
       (forall s, In (TLit s) t -> no_percent s) ->
       StmtModel.st_inputs s = key_names t /\
       forall xs, kinds kind "" (key_names t) xs ->
         exists texts, Forall2 text_of xs texts /\ sprint (StmtModel.st_query s) (map Some xs) = Some (sent quote quote "" t texts)).
Proof.
  intros sts L D PM O H PR Ha Ho ND CA G Hs PL NC NP.
  destruct (client_stmt _ _ _ _ _ _ _ _ _ _ _ _ _ _ _ _ _ _ _ _ _ _ _ _ L D H PR Ha Ho CA G Hs PL) as (IN & ss & p & S1 & S2 & -> & -> & ->).
  exact (SendProofs.stmt_text fl P cs l a c0 set PM O H Ha ND name ss j p IN NC S1 S2 NP).
Qed.
Print Assumptions C127_text_partial.

(** The value of the key at slot [j] is what its kind says: the key is configured and of one client, or a column that was saved before. *)
Inductive kind_known l sts (a : nat) (c : WorkloadModel.client) (ex : ClientModel.event dval) (s : StmtModel.stmt) (j : nat) (key : string) : vkind -> Prop :=
  | KkConfig d kd : configured l a key d -> own_key sts a key -> EndSpec.never_saved c key -> sane (d_gen d) (d_params d) ->
      (In (d_gen d) numbers /\ kd = KNumber \/ In (d_gen d) strings /\ kd = KText) -> kind_known l sts a c ex s j key kd
  | KkSaved v : EndSpec.vals_at s j ex = [Some (DCol v)] -> v <> GenModel.CVNil -> kind_known l sts a c ex s j key KSaved.

(** What a client that runs sends for a statement that is not prepared is the text of its trx file with the values in place of the
    data keys.  Partial as C127_text_partial and C122_partial, from which the number of values comes ([EndSpec.sized] and the next). *)
Theorem C127_run_partial fl E bases fs kvs dsn db cs P l w' outs a c0 set out grp e g k n c lens gen0 inps st pc w evs log pre ex post s name j :
  let sts := map (fun x => stage_of P (fst x) (snd x)) l in
  load E bases fs kvs dsn db = Some cs -> Forall (fun c => s_disable c = false) cs -> pe_make P = data_make fl ->
  (forall ks, Permutation (pe_order P ks) ks) ->
  load_stages P cs [] = Some l -> prepare_run P l = Some (w', outs) -> EndSpec.client_of sts outs a e g k n c lens ->
  ClientSpec.trx_start_with_query c lens -> EndSpec.no_global (WorkloadSpec.keys_at WorkloadSpec.no_keys sts a) c ->
  ValueModel.vrun dgen_values (EndSpec.own_of w') (EndSpec.scope_of w') gen0 c inps = Some (st, pc, w, evs, log) ->
  gens_made fl l sts outs a gen0 -> EndSpec.sized c log ->
  ClientSpec.execs evs = pre ++ ex :: post -> nth_error (WorkloadModel.c_stmts c) (ClientSpec.ex_stmt ex) = Some s ->
  List.length (ValueSpec.ex_vals ex) = List.length (StmtModel.st_inputs s) -> ~ In None (ValueSpec.ex_vals ex) ->
  nth_error l a = Some (c0, set) -> nth_error outs a = Some out -> LoopProps.group_at c0 out e g grp ->
  NoDup (map x_name (s_trx c0)) -> LoadSpec.place (LoadProps.stmts_in set) (LoopProps.trx_names c0 grp) (ClientSpec.ex_stmt ex) = Some (name, j) ->
  no_copies P c0 name -> sget "@PREV" (t_keys set) = None -> StmtModel.st_prepare s = false ->
  exists q, file_stmt P c0 name j q /\ forall t quote kind, sql t = q -> clear t -> keys_prefix_free (key_names t) -> ~ occurs "/*!" q ->
    (forall k, In k (key_names t) -> k <> "@PREV" -> written l sts a k (quote k) (kind k)) ->
    (forall x y, In x (prevs "" t) -> In y (prevs "" t) -> quote x = quote y /\ kind x = kind y) ->
    (forall s, In (TLit s) t -> no_percent s) ->
    nth_error (key_names t) 0 <> Some "@PREV" ->
    (forall m k, nth_error (key_names t) m = Some k -> k <> "@PREV" -> kind_known l sts a c ex s m k (kind k)) ->
    exists xs texts, ValueSpec.ex_vals ex = map Some xs /\ Forall2 text_of xs texts /\
      sprint (StmtModel.st_query s) (ValueSpec.ex_vals ex) = Some (sent quote quote "" t texts).
Proof.
  intros sts L D PM O H PR CL TS NG R GM SZ EX Hs LEN NN Ha Ho G ND PL NC NP PRE.
  pose proof CL as (st0 & out0 & wl & gs & cg & _ & Ho' & _ & _ & CA & _). rewrite Ho in Ho'. injection Ho' as <-.
  destruct (C127_text_partial fl E bases fs kvs dsn db cs P l w' outs a c0 set out e g k c grp _ s name j L D PM O H PR Ha Ho ND CA G Hs PL NC NP) as (q & FS & T).
  exists q. split; [exact FS|]. intros t quote kind SQ CLR PF OC W AG LT F0 KK.
  destruct (T t SQ CLR PF OC) as (_ & T2). destruct (T2 PRE quote kind W AG LT) as (EI & TX).
  assert (XS : exists xs, ValueSpec.ex_vals ex = map Some xs).
  { clear - NN. induction (ValueSpec.ex_vals ex) as [|[x|] v IH]; [now exists []| |exfalso; apply NN; now left].
    destruct IH as (xs & ->); [intros X; apply NN; now right|]. now exists (x :: xs). }
  destruct XS as (xs & XS).
  assert (KS : kinds kind "" (key_names t) xs).
  { apply SendProofs.kinds_of.
    - rewrite XS, map_length in LEN. congruence.
    - intros m key Hm NPk. specialize (KK m key Hm NPk).
      assert (NU : key <> "_"). { destruct (SendProofs.key_names_at t key) as (nm & ->); [eapply nth_error_In; eauto|]. discriminate. }
      assert (V : forall vs, EndSpec.vals_at s m ex = map Some vs -> firstn (S (EndSpec.prevs (skipn (S m) (key_names t)))) (skipn m xs) = vs).
      { intros vs V. unfold EndSpec.vals_at in V. rewrite XS, EI in V. rewrite skipn_map, firstn_map in V.
        clear - V. revert vs V. generalize (firstn (S (EndSpec.prevs (skipn (S m) (key_names t)))) (skipn m xs)). intros l0.
        induction l0 as [|x0 l0 IH]; intros [|v vs] V; try discriminate; [reflexivity|]. cbn in V. injection V as -> V. f_equal. auto. }
      inversion KK as [d kd CF OW NS SN GK|v VA NV E0].
      + destruct (C123_partial fl E bases fs kvs dsn db cs P l w' outs a e g k n c lens gen0 inps st pc w evs log key d pre ex post s m
          L D PM H PR CL TS NG R GM SZ NU NPk CF OW NS SN) as (vs & V1 & V2).
        * intros X. rewrite X in GK. cbn in GK. intuition discriminate.
        * exact EX.
        * split; [exact Hs|]. now rewrite EI.
        * rewrite (V vs V1). destruct GK as [[G1 ->]|[G1 ->]]; [eapply SendProofs.allowed_numbers|eapply SendProofs.allowed_strings]; eauto.
      + rewrite (V [DCol v] VA). constructor; [|constructor]. destruct v; [congruence|exact I|exact I].
    - destruct (key_names t) as [|k0 ks]; [constructor|]. cbn [EndSpec.prevs]. change ScopeModel.PREV with "@PREV".
      destruct (String.eqb_spec k0 "@PREV") as [->|]; [exfalso; now apply F0|constructor]. }
  destruct (TX xs KS) as (texts & A & B). exists xs, texts. rewrite XS. auto.
Qed.
Print Assumptions C127_run_partial.

(** ** A client that runs *)
Definition qC := "SELECT c FROM x WHERE a BETWEEN @r AND @PREV AND s=@x".
Definition dC : smap data := [("r", Data "" "int-range" "" [("size", "10")]); ("x", Data "" "xid" "" [])].
Definition tC : list tok := [TLit "SELECT c FROM x WHERE a BETWEEN "; TKey "r" false; TLit " AND "; TKey "PREV" false; TLit " AND s="; TKey "x" false].
Definition quoteC (k : string) : string := if String.eqb k "@x" then "'" else "".
Definition kindC (k : string) : vkind := if String.eqb k "@x" then KText else KNumber.
Lemma ran_C : ran qC dC.
Proof.
  ran_tac qC dC. set (c' := ExB.c qC dC). assert (E : c' = c') by reflexivity.
  let v := eval vm_compute in (WorkloadModel.c_stmts c') in assert (S : WorkloadModel.c_stmts c' = v) by (vm_compute; reflexivity).
  split; [intros [|i] s X Y; rewrite S in X; [injection X as <-; reflexivity|destruct i; discriminate X]|].
  split. { intros s key X K. rewrite S in X. destruct X as [<-|[]]. cbn in K. repeat (destruct K as [<-|K]; [vm_compute; discriminate|]). destruct K. }
  split; [eassumption|]. apply ExB.gens; auto; try (vm_compute; reflexivity). repeat constructor; discriminate.
Qed.

Lemma conf_C key d : sget (cfg_key key) dC = Some d -> key <> "_" ->
  (forall k, option_map (fun x => sget key (t_keys (snd x))) (nth_error (ExB.l qC dC) 0) = Some (Some k) -> k_col k = None) ->
  configured (ExB.l qC dC) 0 key d.
Proof.
  intros G N K. assert (T : option_map (fun x => s_trx (fst x)) (nth_error (ExB.l qC dC) 0) = Some [Trx "w" "w.sql" dC]) by (vm_compute; reflexivity).
  destruct (nth_error (ExB.l qC dC) 0) as [[c0 set]|] eqn:L; [|discriminate]. cbn in T, K. injection T as T.
  exists c0, set, (Trx "w" "w.sql" dC). rewrite T. split; [exact L|]. split; [now left|]. split; [exact G|]. split.
  - intros y d' [<-|[]] X. cbn [x_data] in X. rewrite G in X. injection X as <-. auto.
  - intros k X. apply K. now rewrite X.
Qed.
Example C127_example : let l := ExB.l qC dC in let sts := map (fun x => stage_of (ExB.P qC) (fst x) (snd x)) l in
  ran qC dC /\ exists c0 set out grp ex s,
    ClientSpec.execs (ExB.evs qC dC) = [] ++ ex :: [] /\ nth_error (WorkloadModel.c_stmts (ExB.c qC dC)) (ClientSpec.ex_stmt ex) = Some s /\
    List.length (ValueSpec.ex_vals ex) = List.length (StmtModel.st_inputs s) /\ ~ In None (ValueSpec.ex_vals ex) /\
    nth_error l 0 = Some (c0, set) /\ nth_error (ExB.outs qC dC) 0 = Some out /\ LoopProps.group_at c0 out 0 0 grp /\
    NoDup (map x_name (s_trx c0)) /\ LoadSpec.place (LoadProps.stmts_in set) (LoopProps.trx_names c0 grp) (ClientSpec.ex_stmt ex) = Some ("w", 0%nat) /\
    no_copies (ExB.P qC) c0 "w" /\ sget "@PREV" (t_keys set) = None /\ StmtModel.st_prepare s = false /\
    sql tC = qC /\ clear tC /\ keys_prefix_free (key_names tC) /\ ~ occurs "/*!" qC /\
    (forall k, In k (key_names tC) -> k <> "@PREV" -> written l sts 0 k (quoteC k) (kindC k)) /\
    (forall x y, In x (prevs "" tC) -> In y (prevs "" tC) -> quoteC x = quoteC y /\ kindC x = kindC y) /\
    (forall s, In (TLit s) tC -> no_percent s) /\ nth_error (key_names tC) 0 <> Some "@PREV" /\
    (forall m k, nth_error (key_names tC) m = Some k -> k <> "@PREV" -> kind_known l sts 0 (ExB.c qC dC) ex s m k (kindC k)) /\
    sprint (StmtModel.st_query s) (ValueSpec.ex_vals ex) = Some "SELECT c FROM x WHERE a BETWEEN 494 AND 503 AND s='c7'".
Proof.
  intros l sts. split; [exact ran_C|].
  assert (X : map (fun e => (ClientSpec.ex_stmt e, ValueSpec.ex_vals e)) (ClientSpec.execs (ExB.evs qC dC)) =
    [(0%nat, [Some (DInt 494); Some (DInt 503); Some (DStr ["c"; "7"]%char)])]) by (vm_compute; reflexivity).
  destruct (ClientSpec.execs (ExB.evs qC dC)) as [|ex [|ex2 es]]; [discriminate| |discriminate]. cbn [map] in X. injection X as X1 X2.
  let v := eval vm_compute in (WorkloadModel.c_stmts (ExB.c qC dC)) in assert (S : WorkloadModel.c_stmts (ExB.c qC dC) = v) by (vm_compute; reflexivity).
  assert (T : option_map (fun x => (s_trx (fst x), t_keys (snd x), sget "w" (t_stmts (snd x)))) (nth_error l 0) <> None) by (vm_compute; discriminate).
  let v := eval vm_compute in (option_map (fun x => (s_trx (fst x), t_keys (snd x), sget "w" (t_stmts (snd x)), s_workload (fst x), s_params (fst x), s_file (fst x))) (nth_error l 0)) in
    assert (T' : option_map (fun x => (s_trx (fst x), t_keys (snd x), sget "w" (t_stmts (snd x)), s_workload (fst x), s_params (fst x), s_file (fst x))) (nth_error l 0) = v) by (vm_compute; reflexivity).
  clear T.
  destruct (nth_error l 0) as [[c0 set]|] eqn:L; [|discriminate]. cbn [option_map fst snd] in T'. injection T' as T1 T2 T3 T4 T5 T6.
  let v := eval vm_compute in (ExB.outs qC dC) in assert (OUT : nth_error (ExB.outs qC dC) 0 = nth_error v 0) by (vm_compute; reflexivity).
  cbn [nth_error] in OUT.
  destruct (s_workload c0) as [|grp [|]] eqn:WL; try discriminate T4.
  do 3 eexists. exists grp, ex. eexists. split; [reflexivity|]. split; [rewrite X1, S; reflexivity|].
  split; [rewrite X2; reflexivity|]. split; [rewrite X2; cbn; intuition discriminate|].
  split; [reflexivity|]. split; [exact OUT|]. split; [unfold LoopProps.group_at; rewrite WL; reflexivity|].
  split; [rewrite T1; repeat constructor; intros []|].
  split. { injection T4 as ->. rewrite X1. unfold LoopProps.trx_names. cbn [g_trx]. rewrite ?T1. unfold LoadProps.stmts_in. cbn [map x_name LoadSpec.place]. rewrite T3. reflexivity. }
  split. { intros x ls t m Hx _ R It M. rewrite T1 in Hx. destruct Hx as [<-|[]]. cbn in R. injection R as <-. cbn in It. destruct It as [<-|[]].
    destruct M as (r & M & _). discriminate M. }
  split; [rewrite T2; reflexivity|]. split; [reflexivity|]. split; [reflexivity|]. split; [now apply TrxSentProofs.clearb_spec|].
  split; [now apply TrxSentProofs.prefix_freeb_spec|]. split; [now apply TrxSentProofs.no_occurs_check|].
  assert (OWN : forall key, In key ["@r"; "@x"] -> own_key sts 0 key).
  { intros key K. exists ScopeModel.SStatement. split; [|now left]. cbn in K. destruct K as [<-|[<-|[]]]; vm_compute; reflexivity. }
  assert (LOC : forall key, In key ["@r"; "@x"] -> local_key sts 0 key).
  { intros key K. destruct (OWN key K) as (sc & A & B). exists sc. split; [exact A|]. destruct B as [-> | [-> | [-> | ->]]]; split; discriminate. }
  assert (CR : configured l 0 "@r" (Data "" "int-range" "" [("size", "10")])).
  { apply conf_C; [reflexivity|discriminate|]. fold l. rewrite L. cbn [option_map snd]. rewrite T2. intros k K. vm_compute in K. injection K as <-. reflexivity. }
  assert (CX : configured l 0 "@x" (Data "" "xid" "" [])).
  { apply conf_C; [reflexivity|discriminate|]. fold l. rewrite L. cbn [option_map snd]. rewrite T2. intros k K. vm_compute in K. injection K as <-. reflexivity. }
  assert (NS : forall key, key <> "" -> EndSpec.never_saved (ExB.c qC dC) key).
  { intros key K s Hs. rewrite S in Hs. destruct Hs as [<-|[]]. cbn. split; [tauto|auto]. }
  split. { intros k K N. cbn in K. destruct K as [<-|[<-|[<-|[]]]]; [|congruence|].
    - eapply WNumber; [exact CR|apply LOC; cbn; auto|cbn; auto].
    - eapply WString; [exact CX|apply LOC; cbn; auto|cbn; auto]. }
  split. { intros x y Hx Hy. cbn in Hx, Hy. destruct Hx as [<-|[]], Hy as [<-|[]]. auto. }
  split. { intros s Hs. apply TrxSentProofs.no_percent_check. cbn in Hs.
    repeat (destruct Hs as [Hs|Hs]; [first [discriminate Hs|injection Hs as <-; reflexivity]|]). destruct Hs. }
  split; [discriminate|]. split.
  { intros m k Hm N. destruct m as [|[|[|m]]]; cbn in Hm.
    - injection Hm as <-. eapply KkConfig; [exact CR|apply OWN; cbn; auto|apply NS; discriminate| |left; cbn; auto].
      repeat split; intros; try discriminate; vm_compute; try (intros Z; discriminate Z).
    - injection Hm as <-. congruence.
    - injection Hm as <-. eapply KkConfig; [exact CX|apply OWN; cbn; auto|apply NS; discriminate| |right; cbn; auto].
      repeat split; intros; discriminate.
    - destruct m; discriminate. }
  rewrite X2. reflexivity.
Qed.

(** ** Saved columns and prepared statements *)
Module ExS.
  Import ScopeModel StmtModel WorkloadModel WorkloadSpec.
  Definition files (f : string) : option (list string) :=
    if String.eqb f "w.sql" then Some ["-- save-columns: @n, @m"; "SELECT n, m FROM x WHERE id=@d"; "";
      "UPDATE x SET a=1"; "  WHERE n=@n AND m=@m  "; ""; "-- prepare"; "SELECT c FROM x WHERE id=@d AND n=@n"] else None.
  Definition P : penv := PEnv E0 (data_make ExB.fl) (fun ks => ks) (fun ks => ks) (fun _ => files) (fun _ i => i).
  Definition dat : smap data := [("d", Data "" "int" "" []); ("n", Data "" "column" "trx" [("quote-value", "yes")])].
  Definition fs := [file (stage1 "b" [Trx "w" "w.sql" dat] [CGroup "1" "" false "" "" "" "g" "" "" "" "" "" "" "" []])].
  Definition cs : list stage := match load E0 no_base fs [] "" "" with Some cs => cs | None => [] end.
  Definition l : list (stage * tset) := match load_stages P cs [] with Some l => l | None => [] end.
  Definition w' : wst := match prepare_run P l with Some (w, _) => w | None => WSt scopes_new 0 end.
  Definition outs := match prepare_run P l with Some (_, o) => o | None => [] end.
  Definition c : client := match nth_error outs 0 with
    | Some out => match client_at out 0 0 0 with Some c => c | None => ValueProps.ExV.c end | None => ValueProps.ExV.c end.
  Definition defined : bool := match load E0 no_base fs [] "" "", load_stages P cs [], prepare_run P l with Some _, Some _, Some _ => true | _, _, _ => false end.
  Lemma all_ok : load E0 no_base fs [] "" "" = Some cs /\ load_stages P cs [] = Some l /\ prepare_run P l = Some (w', outs).
  Proof.
    assert (X : defined = true) by (vm_compute; reflexivity). unfold defined in X. split; [|split].
    - unfold cs. destruct (load E0 no_base fs [] "" ""); [reflexivity|discriminate].
    - unfold l. destruct (load_stages P cs []); [reflexivity|]. destruct (load E0 no_base fs [] "" ""); discriminate.
    - unfold w', outs. destruct (prepare_run P l) as [[w o]|]; [reflexivity|]. destruct (load E0 no_base fs [] "" ""); [|discriminate]. destruct (load_stages P cs []); discriminate.
  Qed.
  Definition t1 : list tok := [TLit "UPDATE x SET a=1 WHERE n="; TKey "n" false; TLit " AND m="; TKey "m" false].
  Definition t2 : list tok := [TLit "SELECT c FROM x WHERE id="; TKey "d" false; TLit " AND n="; TKey "n" false].
  Definition quote (k : string) : string := if String.eqb k "@n" then "'" else "".
  Definition texts := [string_of_list_ascii ["a"; "b"]%char; "-7"].
End ExS.
Example C127_text_example : let sts := map (fun x => stage_of ExS.P (fst x) (snd x)) ExS.l in exists c0 set out grp s1 s2,
  load E0 no_base ExS.fs [] "" "" = Some ExS.cs /\ Forall (fun c => s_disable c = false) ExS.cs /\ pe_make ExS.P = data_make ExB.fl /\
  (forall ks, Permutation (pe_order ExS.P ks) ks) /\
  load_stages ExS.P ExS.cs [] = Some ExS.l /\ prepare_run ExS.P ExS.l = Some (ExS.w', ExS.outs) /\ nth_error ExS.l 0 = Some (c0, set) /\
  nth_error ExS.outs 0 = Some out /\ NoDup (map x_name (s_trx c0)) /\ WorkloadSpec.client_at out 0 0 0 = Some ExS.c /\ LoopProps.group_at c0 out 0 0 grp /\
  nth_error (WorkloadModel.c_stmts ExS.c) 1 = Some s1 /\ LoadSpec.place (LoadProps.stmts_in set) (LoopProps.trx_names c0 grp) 1 = Some ("w", 1%nat) /\
  nth_error (WorkloadModel.c_stmts ExS.c) 2 = Some s2 /\ LoadSpec.place (LoadProps.stmts_in set) (LoopProps.trx_names c0 grp) 2 = Some ("w", 2%nat) /\
  no_copies ExS.P c0 "w" /\ sget "@PREV" (t_keys set) = None /\
  file_stmt ExS.P c0 "w" 1 (sql ExS.t1) /\ clear ExS.t1 /\ keys_prefix_free (key_names ExS.t1) /\ ~ occurs "/*!" (sql ExS.t1) /\
  (forall k, In k (key_names ExS.t1) -> k <> "@PREV" -> written ExS.l sts 0 k (ExS.quote k) KSaved) /\ (forall s, In (TLit s) ExS.t1 -> no_percent s) /\
  StmtModel.st_prepare s1 = false /\
  kinds (fun _ => KSaved) "" (key_names ExS.t1) [DCol (GenModel.CVStr ["a"; "b"]%char); DCol (GenModel.CVVal (-7))] /\
  sprint (StmtModel.st_query s1) [Some (DCol (GenModel.CVStr ["a"; "b"]%char)); Some (DCol (GenModel.CVVal (-7)))] = Some "UPDATE x SET a=1 WHERE n='ab' AND m=-7" /\
  file_stmt ExS.P c0 "w" 2 (sql ExS.t2) /\ StmtModel.st_prepare s2 = true /\ StmtModel.st_query s2 = "SELECT c FROM x WHERE id=? AND n=?".
Proof.
  intros sts. destruct ExS.all_ok as (A & B & C).
  let v := eval vm_compute in (WorkloadModel.c_stmts ExS.c) in assert (S : WorkloadModel.c_stmts ExS.c = v) by (vm_compute; reflexivity).
  let v := eval vm_compute in (option_map (fun x => (s_trx (fst x), t_keys (snd x), sget "w" (t_stmts (snd x)), s_workload (fst x), s_params (fst x), s_file (fst x))) (nth_error ExS.l 0)) in
    assert (T' : option_map (fun x => (s_trx (fst x), t_keys (snd x), sget "w" (t_stmts (snd x)), s_workload (fst x), s_params (fst x), s_file (fst x))) (nth_error ExS.l 0) = v) by (vm_compute; reflexivity).
  destruct (nth_error ExS.l 0) as [[c0 set]|] eqn:L; [|discriminate]. cbn [option_map fst snd] in T'. injection T' as T1 T2 T3 T4 T5 T6.
  assert (OUT : match nth_error ExS.outs 0 with Some out => List.length out = 1%nat /\ WorkloadSpec.client_at out 0 0 0 <> None | None => False end) by (vm_compute; split; [reflexivity|discriminate]).
  assert (CC : forall out, nth_error ExS.outs 0 = Some out -> WorkloadSpec.client_at out 0 0 0 <> None -> WorkloadSpec.client_at out 0 0 0 = Some ExS.c).
  { intros out O X. unfold ExS.c. rewrite O. destruct (WorkloadSpec.client_at out 0 0 0); [reflexivity|destruct (X eq_refl)]. }
  destruct (nth_error ExS.outs 0) as [out|] eqn:O; [|contradiction]. destruct OUT as (_ & OUT).
  destruct (s_workload c0) as [|grp [|]] eqn:WL; try discriminate T4. injection T4 as ->.
  do 4 eexists. do 2 eexists. split; [exact A|]. split; [repeat constructor|]. split; [reflexivity|]. split; [reflexivity|]. split; [exact B|]. split; [exact C|].
  split; [reflexivity|]. split; [reflexivity|].
  split; [rewrite T1; repeat constructor; intros []|]. split; [exact (CC _ eq_refl OUT)|]. split; [unfold LoopProps.group_at; rewrite WL; reflexivity|].
  assert (PLC : forall i, (i < 3)%nat -> LoadSpec.place (LoadProps.stmts_in set) ["w"] i = Some ("w", i)).
  { intros i Hi. unfold LoadProps.stmts_in. cbn [LoadSpec.place]. rewrite T3. destruct i as [|[|[|i]]]; [reflexivity..|lia]. }
  assert (NMS : forall g, g_trx g = [] -> LoopProps.trx_names c0 g = ["w"]) by (intros g Hg; unfold LoopProps.trx_names; now rewrite Hg, T1).
  split; [rewrite S; reflexivity|]. split; [rewrite NMS by reflexivity; apply PLC; lia|].
  split; [rewrite S; reflexivity|]. split; [rewrite NMS by reflexivity; apply PLC; lia|].
  split. { intros x ls t m Hx _ R It M. rewrite T1 in Hx. destruct Hx as [<-|[]]. cbn in R. injection R as <-. cbn in It.
    assert (NM : forall t', In t' ["-- save-columns: @n, @m"; "-- prepare"] -> modifier_of (tenv_of ExS.P c0) t' m -> ~ occurs "copies" m).
    { intros t' K (r & Q & V). cbn [te_env te_params tenv_of pe_env ExS.P] in V. rewrite T5 in V.
      destruct K as [<-|[<-|[]]]; injection Q as <-; vm_compute in V; injection V as <-; now apply TrxSentProofs.no_occurs_check. }
    repeat (destruct It as [<-|It]; [first [exact (NM _ (or_introl eq_refl) M)|exact (NM _ (or_intror (or_introl eq_refl)) M)|destruct M as (r & Q & _); discriminate Q]|]). destruct It. }
  split; [rewrite T2; reflexivity|].
  assert (FS : forall j q mods, nth_error (units [] (runs [] (before_eof (map trim_space
     ["-- save-columns: @n, @m"; "SELECT n, m FROM x WHERE id=@d"; ""; "UPDATE x SET a=1"; "  WHERE n=@n AND m=@m  "; ""; "-- prepare"; "SELECT c FROM x WHERE id=@d AND n=@n"])))) j = Some (q, mods) ->
     file_stmt ExS.P c0 "w" j q).
  { intros j q mods X. do 3 eexists. rewrite T1. split; [now left|]. split; [reflexivity|]. split; [reflexivity|]. exact X. }
  split; [eapply FS; reflexivity|]. split; [now apply TrxSentProofs.clearb_spec|]. split; [now apply TrxSentProofs.prefix_freeb_spec|].
  split; [now apply TrxSentProofs.no_occurs_check|].
  split. { intros k K N. cbn in K.
    assert (LK : forall k, In k ["@n"; "@m"] -> local_key sts 0 k).
    { intros k' K'. exists ScopeModel.STrx. split; [|split; discriminate]. cbn in K'. destruct K' as [<-|[<-|[]]]; vm_compute; reflexivity. }
    destruct K as [<-|[<-|[]]].
    - eapply WQuoted; [exact L|rewrite T2; reflexivity|discriminate|apply LK; cbn; auto|].
      rewrite T1. intros x [<-|[]]. do 2 eexists. split; [reflexivity|]. split; [reflexivity|]. cbn. auto.
    - eapply WBare; [exact L|rewrite T2; reflexivity|discriminate|apply LK; cbn; auto|].
      rewrite T1. intros x [<-|[]] (d & s & Q & _). discriminate Q. }
  split. { intros s Hs. apply TrxSentProofs.no_percent_check. cbn in Hs.
    repeat (destruct Hs as [Hs|Hs]; [first [discriminate Hs|injection Hs as <-; reflexivity]|]). destruct Hs. }
  split; [reflexivity|]. split; [cbn; auto|]. split; [reflexivity|]. split; [eapply FS; reflexivity|]. split; reflexivity.
Qed.

(** C127 is false for a query with a per cent sign that is not prepared: it is sent as something else, though it has no data keys. *)
Definition qD := "SELECT c FROM x WHERE n LIKE '%x'".
Lemma ran_D : ran qD [].
Proof.
  ran_tac qD (@nil (string * data)). set (c' := ExB.c qD []). assert (E : c' = c') by reflexivity.
  let v := eval vm_compute in (WorkloadModel.c_stmts c') in assert (S : WorkloadModel.c_stmts c' = v) by (vm_compute; reflexivity).
  split; [intros [|i] s X Y; rewrite S in X; [injection X as <-; reflexivity|destruct i; discriminate X]|].
  split. { intros s key X K. rewrite S in X. destruct X as [<-|[]]. destruct K. }
  split; [eassumption|]. apply ExB.gens; auto; try (vm_compute; reflexivity).
Qed.
Theorem C127_refuted : exists query dat, ran query dat /\ exists ex s, In ex (ClientSpec.execs (ExB.evs query dat)) /\
  nth_error (WorkloadModel.c_stmts (ExB.c query dat)) (ClientSpec.ex_stmt ex) = Some s /\ StmtModel.st_prepare s = false /\
  StmtModel.st_inputs s = [] /\ query = "SELECT c FROM x WHERE n LIKE '%x'" /\
  sprint (StmtModel.st_query s) (ValueSpec.ex_vals ex) = Some "SELECT c FROM x WHERE n LIKE '%!x(MISSING)'".
Proof.
  exists qD, []. split; [exact ran_D|].
  assert (X : map (fun e => (ClientSpec.ex_stmt e, ValueSpec.ex_vals e)) (ClientSpec.execs (ExB.evs qD [])) = [(0%nat, [])]) by (vm_compute; reflexivity).
  destruct (ClientSpec.execs (ExB.evs qD [])) as [|ex es]; [discriminate|]. cbn [map] in X. injection X as X1 X2 _.
  let v := eval vm_compute in (WorkloadModel.c_stmts (ExB.c qD [])) in assert (S : WorkloadModel.c_stmts (ExB.c qD []) = v) by (vm_compute; reflexivity).
  exists ex. eexists. split; [now left|]. split; [rewrite X1, S; reflexivity|]. rewrite X2. repeat split; reflexivity.
Qed.
Print Assumptions C127_refuted.

(** C127 as documented is false for a saved column whose quote-value is not given, which is documented to be yes: it is written without
    quotes. *)
Theorem C127_refuted_quote : exists c0 set s,
  load E0 no_base ExS.fs [] "" "" = Some ExS.cs /\ load_stages ExS.P ExS.cs [] = Some ExS.l /\ nth_error ExS.l 0 = Some (c0, set) /\
  (forall x d, In x (s_trx c0) -> sget (cfg_key "@m") (x_data x) = Some d -> sget "quote-value" (d_params d) = None) /\
  In s (WorkloadModel.c_stmts ExS.c) /\ StmtModel.st_inputs s = ["@n"; "@m"] /\
  sprint (StmtModel.st_query s) [Some (DCol (GenModel.CVStr ["a"]%char)); Some (DCol (GenModel.CVStr ["b"]%char))] = Some "UPDATE x SET a=1 WHERE n='a' AND m=b".
Proof.
  destruct ExS.all_ok as (A & B & _).
  let v := eval vm_compute in (WorkloadModel.c_stmts ExS.c) in assert (S : WorkloadModel.c_stmts ExS.c = v) by (vm_compute; reflexivity).
  assert (T : option_map (fun x => s_trx (fst x)) (nth_error ExS.l 0) = Some [Trx "w" "w.sql" ExS.dat]) by (vm_compute; reflexivity).
  destruct (nth_error ExS.l 0) as [[c0 set]|] eqn:L; [|discriminate]. injection T as T. cbn [fst] in T.
  do 3 eexists. split; [exact A|]. split; [exact B|]. split; [reflexivity|]. split.
  { rewrite T. intros x d [<-|[]] X. discriminate X. }
  split; [rewrite S; right; left; reflexivity|]. split; reflexivity.
Qed.
Print Assumptions C127_refuted_quote.
