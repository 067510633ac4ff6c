(** C132: the reports of a stage count what its clients did. *)
From Verif Require Import Prelude ListAux ScopeModel StmtModel WorkloadModel WorkloadSpec ClientModel ClientSpec.
From Verif Require Import StatsModel StatsSpec CollectorModel CollectorSpec TotalModel TotalSpec.
From Verif Require Import IterModel IterSpec IterProofs LoopModel LoopSpec LoopProofs LoopCountProofs LoopProps WholeModel WholeSpec WholeProofs WholeProps TallySpec TallyProofs TallyProps LedgerSpec.
From Verif Require ConfigModel ConfigSpec ConfigProps TrxModel StageProps PipeModel PipeProps TotalProofs TotalProps TrxLineProofs LedgerProofs.
#[local] Open Scope string_scope.
#[local] Open Scope list_scope.

Lemma some_inj {A} (x y : A) : Some x = Some y -> x = y.
Proof. congruence. Qed.
Lemma sumN_cons x l : sumN (x :: l) = (x + sumN l)%N.
Proof. reflexivity. Qed.
Lemma cntN_cons {A} (f : A -> bool) x l : cntN f (x :: l) = ((if f x then 1 else 0) + cntN f l)%N.
Proof. unfold cntN. cbn [filter]. destruct (f x); cbn [length]; lia. Qed.
Lemma sum_map_add {A} (f g : A -> N) l : sumN (map (fun x => f x + g x)%N l) = (sumN (map f l) + sumN (map g l))%N.
Proof. induction l as [|x l IH]; [reflexivity|]. cbn [map]. rewrite !sumN_cons, IH. lia. Qed.
Lemma sum_at (b : bool) i : forall n a, sumN (map (fun j => if (Nat.eqb i j && b)%bool then 1 else 0)%N (seq a n)) = (if (b && (a <=? i) && (i <? a + n))%bool%nat then 1 else 0)%N.
Proof.
  induction n as [|n IH]; intros a; cbn [seq map].
  - replace (a + 0)%nat with a by lia. destruct b; cbn [andb]; [|reflexivity]. destruct (Nat.leb_spec a i), (Nat.ltb_spec i a); try reflexivity; lia.
  - rewrite sumN_cons, IH. destruct b; [|rewrite andb_false_r; reflexivity]. rewrite andb_true_r. cbn [andb].
    destruct (Nat.eqb_spec i a); destruct (Nat.leb_spec (S a) i), (Nat.leb_spec a i), (Nat.ltb_spec i (S a + n)), (Nat.ltb_spec i (a + S n)); cbn [andb]; lia.
Qed.
Lemma sum_events {V} (F : nat -> event V -> bool) n : forall l, Forall (fun x => fst x < n)%nat l ->
  sumN (map (fun j => cntN (F j) (events_of j l)) (seq 0 n)) = cntN (fun x => F (fst x) (snd x)) l.
Proof.
  induction l as [|[i e] l IH]; intros B.
  - cbn. induction (seq 0 n) as [|y ys IH]; [reflexivity|]. cbn [map]. rewrite sumN_cons, IH. reflexivity.
  - inversion B as [|? ? B1 B2]; subst. cbn [fst] in B1. rewrite cntN_cons, <- (IH B2). cbn [fst snd].
    transitivity (sumN (map (fun j => (if (Nat.eqb i j && F i e)%bool then 1 else 0) + cntN (F j) (events_of j l))%N (seq 0 n))).
    + f_equal. apply map_ext. intros j. unfold events_of. cbn [filter fst]. destruct (Nat.eqb_spec i j) as [->|N]; cbn [andb].
      * cbn [map snd]. now rewrite cntN_cons.
      * reflexivity.
    + rewrite sum_map_add, sum_at. f_equal. destruct (F i e); [|reflexivity]. cbn [andb Nat.leb Nat.add]. now rewrite (proj2 (Nat.ltb_lt _ _) B1).
Qed.
Lemma map_seq {A B} (K : A -> B) (h : nat -> B) (l : list A) : (forall j x, nth_error l j = Some x -> K x = h j) -> map K l = map h (seq 0 (length l)).
Proof.
  intros H. apply list_ext. intros j. rewrite !nth_error_map. destruct (nth_error l j) as [x|] eqn:J.
  - assert (L : (j < length l)%nat) by (apply nth_error_Some; congruence). rewrite (nth_error_nth' _ 0%nat) by (now rewrite seq_length). rewrite seq_nth by exact L. cbn. f_equal. now apply H.
  - apply nth_error_None in J. rewrite (proj2 (nth_error_None (seq 0 (length l)) j)) by (now rewrite seq_length). reflexivity.
Qed.

(** The statistics of a statement are those of its trx. *)
Lemma stat_of (f : string -> list stmt) (on : bool) : forall names i s, (forall t, In t names -> Forall (fun s => st_trx s = t) (f t)) ->
  nth_error (concat (map f names)) i = Some s ->
  nth_error (map (fun t => if on then Some t else None) names) (block_index (map (fun t => length (f t)) names) i) = Some (if on then Some (st_trx s) else None).
Proof.
  induction names as [|t ns IH]; intros i s H N; [destruct i; discriminate|]. cbn [map concat] in N. cbn [map block_index].
  destruct (Nat.ltb_spec i (length (f t))) as [I|I].
  - rewrite nth_error_app1 in N by lia. cbn [nth_error]. specialize (H t (or_introl eq_refl)). rewrite Forall_forall in H. now rewrite (H s (nth_error_In _ _ N)).
  - rewrite nth_error_app2 in N by lia. cbn [nth_error]. apply IH; [|exact N]. intros t' I'. apply H. now right.
Qed.

Section Any.
  Context {V : Type}.
  Variables (E : C.env) (bases : string -> option (option C.base)) (fs : list C.stage_file) (kvs : list string) (dsn db : string) (Pe : P.penv) (a : nat).
  Variables (c : C.stage) (set : T.tset) (out : list (list (list client))) (acts : list (waction V)) (st : wst V) (tr : list (wevent V)).
  Hypothesis CF : configured E bases fs kvs dsn db Pe a c set out.
  Hypothesis NW : C.s_workload c <> [].
  Hypothesis ND : NoDup (map C.x_name (C.s_trx c)).
  Hypothesis R : whole_run c out (whole_init out) acts = Some (st, tr).
  Hypothesis SQ : forall x ps, In x (C.s_trx c) -> C.sget (C.x_name x) (T.t_stmts set) = Some ps -> match ps with p :: _ => T.p_idle p = 0%Z | [] => True end.

  Lemma lens_of grp : map (fun t => length (stmts_of_trx set t)) (trx_names c grp) = map (fun t => length (ts_stmts (P.trxset_of (P.pe_lid Pe) set) t)) (trx_names c grp).
  Proof. apply map_ext. intros t. now rewrite trx_stmts, length_stmts. Qed.
  Lemma player_at j e g cl : nth_error (labelled out) j = Some (e, g, cl) -> exists grp css cls,
    nth_error out e = Some css /\ nth_error css g = Some cls /\ In cl cls /\ group_at c out e g grp /\
    nth_error (players set c out tr) j = Some (Played cl (map (fun t => length (ts_stmts (P.trxset_of (P.pe_lid Pe) set) t)) (trx_names c grp)) (events_of j (numbered out tr))).
  Proof.
    intros LJ. destruct (labelled_at _ _ _ _ _ LJ) as (css & cls & He & Hg & Hc). destruct (has_group _ _ _ _ _ _ _ _ _ _ _ _ _ _ _ CF NW He Hg) as (grp & G).
    exists grp, css, cls. do 4 (split; [assumption|]). unfold players. rewrite nth_error_mapi_from, LJ. cbn [option_map fst snd Nat.add]. rewrite G, <- lens_of. f_equal. f_equal.
    unfold trx_names, group_trx. apply map_ext. intros t. unfold stmts_of_trx. destruct (C.sget t (T.t_stmts set)); reflexivity.
  Qed.
  Lemma player_in p : In p (players set c out tr) -> exists j e g cl grp css cls, nth_error (labelled out) j = Some (e, g, cl) /\
    nth_error out e = Some css /\ nth_error css g = Some cls /\ In cl cls /\ group_at c out e g grp /\
    p = Played cl (map (fun t => length (ts_stmts (P.trxset_of (P.pe_lid Pe) set) t)) (trx_names c grp)) (events_of j (numbered out tr)).
  Proof.
    intros I. destruct (In_nth_error _ _ I) as (j & J). destruct (nth_error (labelled out) j) as [[[e g] cl]|] eqn:LJ.
    2:{ unfold players in J. rewrite nth_error_mapi_from, LJ in J. discriminate. }
    destruct (player_at _ _ _ _ LJ) as (grp & css & cls & He & Hg & Hc & G & Q). rewrite J in Q. injection Q as ->. exists j, e, g, cl, grp, css, cls. auto 8.
  Qed.
  Lemma players_group : Forall of_group (players set c out tr).
  Proof.
    apply Forall_forall. intros p I. destruct (player_in p I) as (j & e & g & cl & grp & css & cls & J & He & Hg & Hc & G & ->).
    destruct (client_facts _ _ _ _ _ _ _ _ _ _ _ _ _ _ _ _ CF He Hg G) as (_ & _ & _ & X). destruct (X cl Hc) as (_ & _ & HT & ON & _). split; [exact HT|exact ON].
  Qed.
  Lemma players_ran n p ac : In p (players set c out tr) -> collected n p ac -> ran n p ac.
  Proof.
    intros I (C1 & C2). destruct (player_in p I) as (j & e & g & cl & grp & css & cls & J & He & Hg & Hc & G & EQ). subst p. cbn [pl_c pl_evs pl_lens] in *.
    pose proof (winv_run _ _ _ _ _ R) as W. destruct (w_sched _ _ _ W) as (sched & LR).
    destruct (client_facts _ _ _ _ _ _ _ _ _ _ _ _ _ _ _ _ CF He Hg G) as (_ & _ & TX & X). destruct (X cl Hc) as (S1 & _ & HT & _ & NE).
    split; [|split; [exact NE|split; [|split; [exact C1|exact C2]]]]; cbn [pl_c pl_evs pl_lens].
    - intros i s. rewrite S1. apply starts_with.
      + intros t Ht. rewrite trx_stmts. destruct (TX t Ht) as (x & Ix & <-). unfold stmts_of_trx.
        destruct (C.sget (C.x_name x) (T.t_stmts set)) as [ps|] eqn:Q; [|exact Logic.I]. specialize (SQ x ps Ix Q). destruct ps as [|p ps]; [exact Logic.I|].
        cbn [P.stmts_of]. unfold is_idle. cbn [P.stmt_of st_idle]. now rewrite SQ.
      + destruct HT as (F & _). rewrite Forall_map in F. exact F.
    - assert (JC : nth_error (map snd (labelled out)) j = Some cl) by (now rewrite nth_error_map, J).
      destruct (loop_has _ _ _ _ _ _ LR JC) as (k & K & KC). destruct (sim_run _ _ _ _ LR) as (_ & ON & _). destruct (ON _ k K) as ((inps & CR) & _).
      rewrite KC in CR. eauto.
  Qed.

  Lemma names_of t x : In x (C.s_trx c) -> C.x_name x = t -> Forall (fun s => st_trx s = t) (ts_stmts (P.trxset_of (P.pe_lid Pe) set) t).
  Proof.
    intros Ix <-. pose proof CF as (cs & l & w & outs & L & D & H & PR & Ha & Ho).
    destruct (PipeProps.stage_facts _ _ _ _ _ _ _ _ _ _ _ a c set out L D H PR Ha Ho) as (keys0 & w1 & w2 & TN & NK & LS & PS & IN & NA).
    unfold P.load_stage in LS. apply TrxLineProofs.load_trx_spec in LS as (_ & _ & LS & _); [|exact ND|reflexivity].
    destruct (LS x Ix) as (ls & keys & ss & f & Q1 & Q2 & Q3 & _). apply LedgerProofs.load_file_named in Q2. rewrite trx_stmts. unfold stmts_of_trx. rewrite Q3.
    clear - Q2. generalize 0%nat as i. induction Q2 as [|p ps X Q IH]; intros i; [constructor|]. cbn [P.stmts_of]. constructor; [exact X|apply IH].
  Qed.

  Definition body (sel : string -> bool) (f : stmt -> bool) (h : event V -> bool) (j : nat) (ev : event V) : bool :=
    match ev with
    | EvExec i _ _ _ _ _ _ =>
      match nth_error (labelled out) j with
      | Some (e, g, cl) =>
        match nth_error (C.s_workload c) (list_sum (map (@length _) (firstn e out)) + g) with
        | Some grp => match nth_error (c_stmts cl) i with Some s => (with_stats c grp && sel (st_trx s) && f s && h ev)%bool | None => false end
        | None => false end
      | None => false end
    | _ => false end.
  Lemma body_does sel f h : cntN (does c out sel f h) tr = cntN (fun x => body sel f h (fst x) (snd x)) (numbered out tr).
  Proof.
    clear R. induction tr as [|[w|x ev] l IH]; [reflexivity|exact IH|]. cbn [numbered flat_map app]. rewrite !cntN_cons. fold (numbered out l). rewrite IH. f_equal.
    cbn [fst snd]. unfold body, does, group_of. destruct ev; try reflexivity.
    destruct (nth_error (labelled out) (idx out x)) as [[[e g] cl]|]; [|reflexivity]. destruct (nth_error (C.s_workload c) _); reflexivity.
  Qed.
  Lemma in_range : Forall (fun x => fst x < length (labelled out))%nat (numbered out tr).
  Proof.
    pose proof (winv_run _ _ _ _ _ R) as W. apply Forall_forall. intros [j ev] I. unfold numbered in I. apply in_flat_map in I as ([y|x w] & Y & Z); [destruct Z|].
    destruct Z as [Z|[]]. injection Z as <- <-. cbn [fst]. assert (VX : valid out x) by (eapply start_valid; [exact (w_reach _ _ _ W)|exact (w_started _ _ _ W x w Y)]).
    destruct (labelled_idx out x VX) as (g & cl & LB). apply nth_error_Some. congruence.
  Qed.
  Lemma trace_sum sel f h (K : played V -> N) :
    (forall p, K p = cntN (fun ev => match nth_error (c_stmts (pl_c p)) (ex_stmt ev), nth_error (c_stats (pl_c p)) (block_index (pl_lens p) (ex_stmt ev)) with
                                 | Some s, Some (Some x) => (sel x && f s && h ev)%bool | _, _ => false end) (execs (pl_evs p))) ->
    sumN (map K (players set c out tr)) = cntN (does c out sel f h) tr.
  Proof.
    intros HK. rewrite body_does, <- (sum_events (body sel f h) _ _ in_range).
    assert (LP : length (players set c out tr) = length (labelled out)) by (unfold players; apply length_mapi_from).
    f_equal. rewrite <- LP. apply map_seq. intros j p J. destruct (nth_error (labelled out) j) as [[[e g] cl]|] eqn:LJ.
    2:{ apply nth_error_None in LJ. assert (j < length (players set c out tr))%nat by (apply nth_error_Some; congruence). lia. }
    destruct (player_at _ _ _ _ LJ) as (grp & css & cls & He & Hg & Hc & G & Q). rewrite J in Q. apply some_inj in Q. subst p. rewrite HK. cbn [pl_c pl_lens pl_evs]. unfold execs. rewrite cntN_filter.
    destruct (client_facts _ _ _ _ _ _ _ _ _ _ _ _ _ _ _ _ CF He Hg G) as (_ & _ & TX & X). destruct (X cl Hc) as (S1 & S2 & _).
    apply cntN_ext. intros ev _. unfold body. destruct ev; try reflexivity. rewrite LJ. unfold group_at in G. rewrite G. cbn [is_exec ex_stmt andb].
    destruct (nth_error (c_stmts cl) _) as [s|] eqn:NS; [|reflexivity]. rewrite S1 in NS.
    rewrite S2, (stat_of _ (with_stats c grp) _ _ _ (fun t Ht => match TX t Ht with ex_intro _ x (conj Ix Nx) => names_of t x Ix Nx end) NS).
    destruct (with_stats c grp); reflexivity.
  Qed.
  Lemma sent_executed sel q : TotalSpec.executed (players set c out tr) sel q = sent c out tr sel q.
  Proof.
    unfold TotalSpec.executed, sent. apply trace_sum. intros p. apply cntN_ext. intros ev _. unfold executes.
    destruct (nth_error _ _); [|reflexivity]. destruct (nth_error (c_stats _) _) as [[x|]|]; try reflexivity. now rewrite andb_true_r.
  Qed.
  Lemma errors_failed sel code : TotalSpec.failed (players set c out tr) sel code = errors c out tr sel code.
  Proof.
    unfold TotalSpec.failed, errors. apply trace_sum. intros p. apply cntN_ext. intros ev _. unfold executes.
    destruct (nth_error _ _); [|reflexivity]. destruct (nth_error (c_stats _) _) as [[x|]|]; reflexivity.
  Qed.
  Lemma counted_clients : cntN (fun p : played V => existsb (fun s => match s with Some _ => true | None => false end) (c_stats (pl_c p))) (players set c out tr) = counted c out.
  Proof.
    unfold counted.
    assert (CS1 : forall A (h : A -> bool) l0, cntN h l0 = sumN (map (fun x => if h x then 1%N else 0%N) l0)).
    { clear. intros A h l. induction l as [|x l IH]; [reflexivity|]. cbn [map]. now rewrite cntN_cons, sumN_cons, IH. }
    rewrite !CS1. f_equal.
    assert (LP : length (players set c out tr) = length (labelled out)) by (unfold players; apply length_mapi_from).
    apply list_ext. intros j. rewrite !nth_error_map. destruct (nth_error (labelled out) j) as [[[e g] cl]|] eqn:LJ.
    - destruct (player_at _ _ _ _ LJ) as (grp & css & cls & He & Hg & Hc & G & Q). rewrite Q. cbn [option_map pl_c fst snd]. unfold group_at in G. rewrite G.
      destruct (client_facts _ _ _ _ _ _ _ _ _ _ _ _ _ _ _ _ CF He Hg G) as (_ & NT & _ & X). destruct (X cl Hc) as (_ & S2 & _). rewrite S2.
      destruct (trx_names c grp) as [|t ts]; [now destruct NT|]. destruct (with_stats c grp); [reflexivity|]. cbn [map existsb orb].
      assert (Z : existsb (fun s : option string => match s with Some _ => true | None => false end) (map (fun _ => None) ts) = false) by (clear; induction ts as [|y ts IH]; [reflexivity|exact IH]).
      now rewrite Z.
    - assert (QN : nth_error (players set c out tr) j = None) by (apply nth_error_None; rewrite LP; now apply nth_error_None). now rewrite QN.
  Qed.
  Lemma stats_name grp e g cls css name : nth_error out e = Some css -> nth_error css g = Some cls -> cls <> [] -> group_at c out e g grp ->
    with_stats c grp = true -> In name (trx_names c grp) -> exists p, In p (players set c out tr) /\ In (Some name) (c_stats (pl_c p)).
  Proof.
    intros He Hg NC G WS IN'. destruct cls as [|cl cls]; [congruence|].
    destruct (client_facts _ _ _ _ _ _ _ _ _ _ _ _ _ _ _ _ CF He Hg G) as (_ & _ & _ & X).
    destruct (X cl (or_introl eq_refl)) as (_ & S2 & _). pose proof (at_labelled _ _ _ _ _ _ He Hg (or_introl eq_refl)) as LB.
    destruct (In_nth_error _ _ LB) as (j & J). destruct (player_at _ _ _ _ J) as (grp' & css' & cls' & _ & _ & _ & _ & Q).
    eexists. split; [eapply nth_error_In; exact Q|]. cbn [pl_c]. rewrite S2, WS. apply in_map_iff. exists name. split; [reflexivity|exact IN'].
  Qed.
End Any.

(** The statements of a client, which [sent] counts, are those of the trx files of its group, with the name of the trx, and in the class of
    the file. *)
Theorem C132_kinds : forall E bases fs kvs dsn db Pe a c set out e css g cls grp cl,
  configured E bases fs kvs dsn db Pe a c set out -> NoDup (map C.x_name (C.s_trx c)) ->
  nth_error out e = Some css -> nth_error css g = Some cls -> group_at c out e g grp -> In cl cls ->
  exists ss, (forall x, In x (C.s_trx c) -> file_stmts Pe c x (ss (C.x_name x))) /\
    forall q, map (fun s => (st_trx s, (negb (is_idle s) && in_class q s)%bool)) (c_stmts cl) =
              concat (map (fun t => map (fun p => (t, counts q p)) (ss t)) (group_trx c grp)).
Proof.
  intros E bases fs kvs dsn db Pe a c set out e css g cls grp cl CF ND He Hg G Hc. exists (stmts_of_trx set). split.
  - intros x Hx. pose proof CF as (cs & l & w & outs & L & D & H & PR & Ha & Ho).
    destruct (PipeProps.stage_facts _ _ _ _ _ _ _ _ _ _ _ a c set out L D H PR Ha Ho) as (keys0 & w1 & w2 & TN & NK & LS & PS & IN & NA).
    unfold P.load_stage in LS. apply TrxLineProofs.load_trx_spec in LS as (_ & _ & LS & _); [|exact ND|reflexivity].
    destruct (LS x Hx) as (ls & keys & ss & f & Q1 & Q2 & Q3 & _). unfold stmts_of_trx. rewrite Q3. exists ls, keys, f. auto.
  - intros q. destruct (client_facts _ _ _ _ _ _ _ _ _ _ _ _ _ _ _ _ CF He Hg G) as (_ & _ & TX & X). destruct (X cl Hc) as (S1 & _). rewrite S1.
    change (group_trx c grp) with (trx_names c grp). rewrite concat_map, map_map. f_equal. apply map_ext_in. intros t It. destruct (TX t It) as (x & Ix & XN).
    pose proof (names_of _ _ _ _ _ _ _ _ _ _ _ CF ND t x Ix XN) as NM. rewrite trx_stmts in NM |- *. revert NM. generalize (P.pe_lid Pe t) as lid, 0%nat as i. generalize (stmts_of_trx set t) as ps. clear.
    induction ps as [|p ps IH]; intros lid i NM; [reflexivity|]. cbn [P.stmts_of map] in *. inversion NM as [|? ? N1 N2]; subst. f_equal; [|eauto]. f_equal.
    unfold counts, is_idle, in_class. cbn [P.stmt_of st_idle st_resultset st_write st_commit]. rewrite negb_involutive.
    destruct (T.p_idle p =? 0)%Z; [|reflexivity]. destruct q; cbn; try reflexivity; destruct (T.p_resultset p), (T.p_write p); cbn; try reflexivity; destruct (T.p_commit p); reflexivity.
Qed.
Print Assumptions C132_kinds.

(** Whatever the limits of the stage, whatever fails, however it ends, and at any time of it: if statistics are collected once, when the
    clients are done, the report counts every execution in the trace by a client of a group with statistics exactly once, in total and
    for its trx, in its class, and every error; and it states the number of those clients. *)
Theorem C132_report : forall V flog E bases fs kvs dsn db Pe a c set out acts (st : wst V) tr actss,
  configured E bases fs kvs dsn db Pe a c set out -> C.s_workload c <> [] -> NoDup (map C.x_name (C.s_trx c)) ->
  whole_run c out (whole_init out) acts = Some (st, tr) ->
  (forall x ps, In x (C.s_trx c) -> C.sget (C.x_name x) (T.t_stmts set) = Some ps -> match ps with p :: _ => T.p_idle p = 0%Z | [] => True end) ->
  Forall2 collected_once (players set c out tr) actss ->
  exists w r, watch_all watch_new (map (fun p => c_stats (pl_c p)) (players set c out tr)) = Some w /\ stage_reports flog w (concat actss) 1 = Some [r] /\
    wt_clients w = counted c out /\
    (forall q, total_n r q = sent c out tr (fun _ => true) q) /\ (forall code, total_err r code = errors c out tr (fun _ => true) code) /\
    forall e css g cls grp name, nth_error out e = Some css -> nth_error css g = Some cls -> cls <> [] -> group_at c out e g grp ->
      with_stats c grp = true -> In name (group_trx c grp) ->
      (forall q, trx_n name r q = sent c out tr (String.eqb name) q) /\ (forall code, trx_err name r code = errors c out tr (String.eqb name) code).
Proof.
  intros V flog E bases fs kvs dsn db Pe a c set out acts st tr actss CF NW ND R SQ AC.
  pose proof (players_group (V := V) _ _ _ _ _ _ _ _ _ _ _ tr CF NW) as OG.
  assert (ON : forall p ac, collected_once (V := V) p ac -> collected 1 p ac).
  { intros p ac (C1 & C2). split; [exact C1|]. intros k ak A. destruct (C2 k ak A) as (es & F & ->). split.
    - assert (Q : loads (flat_map (fun e => [ALoad e; AWrite]) es ++ [AReset; AStore; ARead]) = es).
      { clear. unfold loads. rewrite flat_map_app. cbn. rewrite app_nil_r. induction es as [|e es IH]; [reflexivity|]. cbn. now rewrite IH. }
      rewrite Q. exact F.
    - exact (proj2 (proj2 (TotalProofs.once_ok es))). }
  assert (RN : Forall2 (ran 1) (players set c out tr) actss) by (refine (Forall2_in _ _ _ _ AC _); intros p ac I X; eapply players_ran; eauto).
  assert (DB : Forall done_before actss).
  { clear - AC. revert AC. generalize (players set c out tr). intros pls AC. induction AC as [|p ac ps acs (_ & C1) C2 IH]; constructor; [|exact IH]. apply Forall_forall. intros x I. destruct (In_nth_error _ _ I) as (k & K).
    destruct (C1 k x K) as (es & _ & ->). eauto. }
  destruct (TotalProps.C104_one_report_partial flog _ _ OG RN DB) as (wt & r & WT & SR & T1 & T2 & T3).
  destruct (TotalProps.C104_counts_partial flog 1 _ _ OG RN) as (wt' & reports & WT' & _ & _ & CN & _).
  { eapply Forall_impl; [|exact DB]. intros ac. apply Forall_impl. intros x (es & ->). apply (TotalProofs.once_ok es). }
  { eapply Forall_impl; [|exact DB]. intros ac. apply Forall_impl. intros x (es & ->). apply (TotalProofs.once_ok es). }
  rewrite WT in WT'. injection WT' as <-. exists wt, r. split; [exact WT|]. split; [exact SR|]. split; [|split; [|split]].
  - rewrite CN. eapply counted_clients; eauto.
  - intros q. rewrite T1. eapply sent_executed; eauto.
  - intros code. rewrite T2. eapply errors_failed; eauto.
  - intros e css g cls grp name He Hg NC G WS IN'. destruct (stats_name (V := V) _ _ _ _ _ _ _ _ _ _ _ tr CF NW _ _ _ _ _ _ He Hg NC G WS IN') as (p & Ip & Sp).
    destruct (T3 p name Ip Sp) as (Q1 & Q2). split; [intros q; rewrite Q1; eapply sent_executed; eauto|intros code; rewrite Q2; eapply errors_failed; eauto].
Qed.

(** With [n] collections while the clients run: nothing is counted that was not executed, and if no collection reads statistics that a
    client is just writing to ([C104_refuted]) and the last is made after the clients are done, the reports together count everything. *)
Theorem C132_reports : forall V flog E bases fs kvs dsn db Pe a c set out acts (st : wst V) tr n actss,
  configured E bases fs kvs dsn db Pe a c set out -> C.s_workload c <> [] -> NoDup (map C.x_name (C.s_trx c)) ->
  whole_run c out (whole_init out) acts = Some (st, tr) ->
  (forall x ps, In x (C.s_trx c) -> C.sget (C.x_name x) (T.t_stmts set) = Some ps -> match ps with p :: _ => T.p_idle p = 0%Z | [] => True end) ->
  Forall2 (collected n) (players set c out tr) actss ->
  exists w reports, watch_all watch_new (map (fun p => c_stats (pl_c p)) (players set c out tr)) = Some w /\
    stage_reports flog w (concat actss) n = Some reports /\ length reports = n /\
    (forall q, (sumN (map (fun r => total_n r q) reports) <= sent c out tr (fun _ => true) q)%N) /\
    (forall code, (sumN (map (fun r => total_err r code) reports) <= errors c out tr (fun _ => true) code)%N) /\
    (forall e css g cls grp name, nth_error out e = Some css -> nth_error css g = Some cls -> cls <> [] -> group_at c out e g grp ->
      with_stats c grp = true -> In name (group_trx c grp) ->
      (forall q, (sumN (map (fun r => trx_n name r q) reports) <= sent c out tr (String.eqb name) q)%N) /\
      (forall code, (sumN (map (fun r => trx_err name r code) reports) <= errors c out tr (String.eqb name) code)%N)) /\
    (Forall (Forall collected_last) actss -> Forall (Forall (quiet sw_init)) actss ->
      (forall q, sumN (map (fun r => total_n r q) reports) = sent c out tr (fun _ => true) q) /\
      (forall code, sumN (map (fun r => total_err r code) reports) = errors c out tr (fun _ => true) code) /\
      forall e css g cls grp name, nth_error out e = Some css -> nth_error css g = Some cls -> cls <> [] -> group_at c out e g grp ->
        with_stats c grp = true -> In name (group_trx c grp) ->
        (forall q, sumN (map (fun r => trx_n name r q) reports) = sent c out tr (String.eqb name) q) /\
        (forall code, sumN (map (fun r => trx_err name r code) reports) = errors c out tr (String.eqb name) code)).
Proof.
  intros V flog E bases fs kvs dsn db Pe a c set out acts st tr n actss CF NW ND R SQ AC.
  pose proof (players_group (V := V) _ _ _ _ _ _ _ _ _ _ _ tr CF NW) as OG.
  assert (RN : Forall2 (ran n) (players set c out tr) actss) by (refine (Forall2_in _ _ _ _ AC _); intros p ac I X; eapply players_ran; eauto).
  assert (SE : forall sel q, TotalSpec.executed (players set c out tr) sel q = sent c out tr sel q) by (intros; eapply sent_executed; eauto).
  assert (ER : forall sel q, TotalSpec.failed (players set c out tr) sel q = errors c out tr sel q) by (intros; eapply errors_failed; eauto).
  destruct (TotalProps.C104_at_most_partial flog n _ _ OG RN) as (wt & rs & WT & SR & LN & T1 & T2 & T3).
  exists wt, rs. do 3 (split; [assumption|]). split; [intros q; rewrite <- SE; apply T1|]. split; [intros q; rewrite <- ER; apply T2|]. split.
  - intros e css g cls grp name He Hg NC G WS IN'. destruct (stats_name (V := V) _ _ _ _ _ _ _ _ _ _ _ tr CF NW _ _ _ _ _ _ He Hg NC G WS IN') as (p & Ip & Sp).
    destruct (T3 p name Ip Sp) as (Q1 & Q2). split; [intros q; rewrite <- SE; apply Q1|intros code; rewrite <- ER; apply Q2].
  - intros CL QT. destruct (TotalProps.C104_counts_partial flog n _ _ OG RN CL QT) as (wt' & rs' & WT' & SR' & _ & _ & A1 & A2 & A3).
    rewrite WT in WT'. injection WT' as <-. rewrite SR in SR'. injection SR' as <-.
    split; [intros q; rewrite <- SE; apply A1|]. split; [intros q; rewrite <- ER; apply A2|].
    intros e css g cls grp name He Hg NC G WS IN'. destruct (stats_name (V := V) _ _ _ _ _ _ _ _ _ _ _ tr CF NW _ _ _ _ _ _ He Hg NC G WS IN') as (p & Ip & Sp).
    destruct (A3 p name Ip Sp) as (Q1 & Q2). split; [intros q; rewrite <- SE; apply Q1|intros code; rewrite <- ER; apply Q2].
Qed.
Print Assumptions C132_report.
Print Assumptions C132_reports.

(* ------------------------------------------------------------------------------------ *)
Module ExG.
  (** The stage of ExY: some queries fail with a deadlock, and CTRL-C ends it. *)
  Definition fails (t : nat) (a : waction Z) : waction Z :=
    match a with
    | WClient x (LStmt se) => if Nat.eqb (Nat.modulo t 7) 3 then WClient x (LStmt (SEnv (v_inputs se) (Some true) (Some (Err 1213 false false)) None false (v_conn se))) else a
    | _ => a end.
  Fixpoint drive (t n : nat) (st : wst Z) : list (waction Z) :=
    match n with
    | O => []
    | S n' =>
      match ExW.pick ExY.conf ExY.out false t st with
      | Some a => let a := fails t a in
                  match whole_step ExY.conf ExY.out st a with Some (st', _) => a :: drive (S t) n' st' | None => [] end
      | None => []
      end
    end.
  Definition acts := drive 0 120 (whole_init ExY.out) ++ [WStage G.AStop].
  Definition tr : list (wevent Z) := match whole_run ExY.conf ExY.out (whole_init ExY.out) acts with Some (_, t) => t | None => [] end.
  Definition ps := players ExY.set ExY.conf ExY.out tr.
  (** two collections *)
  Definition mk2 (p : played Z) : list (list (swact sev)) :=
    map (fun k => TotalProps.ExT.rec (firstn 3 (TotalProps.ExT.sevs k p)) ++ TotalProps.ExT.collect ++ TotalProps.ExT.rec (skipn 3 (TotalProps.ExT.sevs k p)) ++ TotalProps.ExT.collect)
      (seq 0 (length (filter (fun s => match s with Some _ => true | None => false end) (c_stats (pl_c p))))).
  Definition actss := Eval vm_compute in map mk2 ps.
  Ltac each tac := repeat (apply Forall_cons || apply Forall_nil); tac.
  Lemma last : Forall (Forall collected_last) actss.
  Proof. unfold actss. each ltac:(apply TotalProps.ExT.last_ok; vm_compute; repeat split; reflexivity). Qed.
  Lemma no_overlap : Forall (Forall (quiet sw_init)) actss.
  Proof. unfold actss. each ltac:(vm_compute; tauto). Qed.
  Lemma coll_mk2 p : (forall k a, nth_error (mk2 p) k = Some a -> exists s, sw_run sw_init a = Some s /\ length (sw_reported s) = 2%nat) -> collected 2 p (mk2 p).
  Proof.
    intros H. split; [unfold mk2; now rewrite map_length, seq_length|]. intros k a A. split; [|exact (H k a A)].
    unfold mk2 in A. rewrite nth_error_map in A. destruct (nth_error (seq 0 _) k) as [k'|] eqn:Q; [|discriminate]. unfold option_map in A. apply some_inj in A. subst a.
    assert (k' = k) as ->.
    { assert (L := Q). apply nth_error_nth with (d := 0%nat) in Q. rewrite seq_nth in Q; [lia|]. rewrite <- (seq_length (length (filter (fun s : option string => match s with Some _ => true | None => false end) (c_stats (pl_c p)))) 0). apply nth_error_Some. congruence. }
    assert (LR : forall l, loads (TotalProps.ExT.rec l) = l) by (clear; unfold loads, TotalProps.ExT.rec; induction l as [|e l IH]; [reflexivity|cbn; now rewrite IH]).
    unfold loads in *. rewrite !flat_map_app, !LR. cbn [TotalProps.ExT.collect flat_map app]. rewrite app_nil_r, firstn_skipn. apply ExY.sevs_ok.
  Qed.
  Definition two (a : list (swact sev)) : bool := match sw_run sw_init a with Some s => Nat.eqb (length (sw_reported s)) 2 | None => false end.
  Lemma coll_all : Forall2 (collected 2) ps actss.
  Proof.
    assert (X : forallb (forallb two) (map mk2 ps) = true) by (vm_compute; reflexivity). rewrite forallb_forall in X.
    assert (EQ : actss = map mk2 ps) by (vm_compute; reflexivity). rewrite EQ. clear EQ. revert X. generalize ps as pl. induction pl as [|p l IH]; intros X; cbn [map]; constructor.
    - apply coll_mk2. intros k a A. specialize (X _ (or_introl eq_refl)). rewrite forallb_forall in X. specialize (X _ (nth_error_In _ _ A)). unfold two in X.
      destruct (sw_run sw_init a) as [s|]; [|discriminate]. exists s. split; [reflexivity|]. now apply Nat.eqb_eq.
    - apply IH. intros x I. apply X. now right.
  Qed.
End ExG.

Example C132_example : exists st tr w r,
  configured ExL.E ConfigProps.no_base [ConfigProps.file (PipeProps.stage1 "s" ExL.xs ExY.gs)] [] "" "" (PipeProps.P1 ExL.files) 0 ExY.conf ExY.set ExY.out /\
  C.s_workload ExY.conf <> [] /\ NoDup (map C.x_name (C.s_trx ExY.conf)) /\
  whole_run ExY.conf ExY.out (whole_init ExY.out) ExG.acts = Some (st, tr) /\
  (forall x ps, In x (C.s_trx ExY.conf) -> C.sget (C.x_name x) (T.t_stmts ExY.set) = Some ps -> match ps with p :: _ => T.p_idle p = 0%Z | [] => True end) /\
  Forall2 collected_once (ExY.ps tr) (map ExY.collected (ExY.ps tr)) /\
  watch_all watch_new (map (fun p => c_stats (pl_c p)) (ExY.ps tr)) = Some w /\
  stage_reports TotalProps.ExT.flog w (concat (map ExY.collected (ExY.ps tr))) 1 = Some [r] /\
  wt_clients w = 5%N /\ counted ExY.conf ExY.out = 5%N /\ length (labelled ExY.out) = 7%nat /\ map (total_n r) [READ; WRITE; COMMIT; TOTAL] = [26; 5; 0; 31]%N /\
  map (trx_n "r" r) [READ; TOTAL] = [20; 20]%N /\ map (sent ExY.conf ExY.out tr (String.eqb "r")) [READ; TOTAL] = [20; 20]%N /\ total_err r 1213 = 8%N.
Proof.
  do 4 eexists. split; [config_ok|]. split; [discriminate|]. split; [repeat constructor; cbn; intuition discriminate|]. split; [vm_compute; reflexivity|].
  split; [intros x ps [<-|[<-|[]]] Q; vm_compute in Q; injection Q as <-; reflexivity|]. split; [apply ExY.collected_ok|].
  split; [vm_compute; reflexivity|]. split; [vm_compute; reflexivity|]. repeat split; vm_compute; reflexivity.
Qed.

(** As above, with a collection while the clients run and one after it. *)
Example C132_reports_example : exists st w r1 r2,
  whole_run ExY.conf ExY.out (whole_init ExY.out) ExG.acts = Some (st, ExG.tr) /\
  Forall2 (collected 2) ExG.ps ExG.actss /\ Forall (Forall collected_last) ExG.actss /\ Forall (Forall (quiet sw_init)) ExG.actss /\
  watch_all watch_new (map (fun p => c_stats (pl_c p)) ExG.ps) = Some w /\
  stage_reports TotalProps.ExT.flog w (concat ExG.actss) 2 = Some [r1; r2] /\
  map (total_n r1) [READ; WRITE; COMMIT; TOTAL] = [17; 1; 0; 18]%N /\ map (total_n r2) [READ; WRITE; COMMIT; TOTAL] = [9; 4; 0; 13]%N /\
  map (sent ExY.conf ExY.out ExG.tr (fun _ => true)) [READ; WRITE; COMMIT; TOTAL] = [26; 5; 0; 31]%N.
Proof.
  do 4 eexists. split; [vm_compute; reflexivity|]. split; [exact ExG.coll_all|]. split; [exact ExG.last|]. split; [exact ExG.no_overlap|].
  split; [vm_compute; reflexivity|]. split; [vm_compute; reflexivity|]. repeat split; vm_compute; reflexivity.
Qed.
