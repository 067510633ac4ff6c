(** C130: the report of a stage, from its configuration file. *)
From Verif Require Import Prelude ListAux ScopeModel StmtModel WorkloadModel WorkloadSpec ClientModel ClientSpec.
From Verif Require Import StatsModel StatsSpec CollectorModel CollectorSpec TotalModel TotalSpec.
From Verif Require Import IterModel IterSpec IterProofs LoopModel LoopSpec LoopProofs LoopCountProofs LoopProps WholeModel WholeSpec WholeProofs WholeProps TallySpec TallyProofs.
From Verif Require ConfigModel ConfigSpec ConfigProps TrxModel StageProps PipeModel PipeProofs PipeKeyProofs PipeRunProofs PipeProps TotalProofs TotalProps ClientProps InstanceProofs TrxLineProofs.
#[local] Open Scope string_scope.
#[local] Open Scope list_scope.

Definition stmts_of_trx (set : T.tset) (t : string) : list T.pstmt := match C.sget t (T.t_stmts set) with Some ps => ps | None => [] end.

Lemma pos_sum l : Forall (fun L => 0 < L)%nat l -> l <> [] -> list_sum l <> 0%nat.
Proof. intros F N. destruct l as [|x l]; [now destruct N|]. inversion F; subst. change (list_sum (x :: l)) with (x + list_sum l)%nat. lia. Qed.
Lemma client_facts E bases fs kvs dsn db Pe a c set out e css g cls grp : configured E bases fs kvs dsn db Pe a c set out ->
  nth_error out e = Some css -> nth_error css g = Some cls -> group_at c out e g grp ->
  CS.decimal (C.g_clients grp) (N.of_nat (length cls)) /\ trx_names c grp <> [] /\
  (forall t, In t (trx_names c grp) -> exists x, In x (C.s_trx c) /\ C.x_name x = t) /\
  forall cl, In cl cls -> let f := ts_stmts (P.trxset_of (P.pe_lid Pe) set) in
    c_stmts cl = concat (map f (trx_names c grp)) /\
    c_stats cl = map (fun t => if with_stats c grp then Some t else None) (trx_names c grp) /\
    has_trx cl (map (fun t => length (f t)) (trx_names c grp)) /\ (stats_on cl \/ stats_off cl) /\ c_stmts cl <> [].
Proof.
  intros CF He Hg G. pose proof CF as (cs & l & w & outs & L & D & H & PR & Ha & Ho).
  assert (NW : C.s_workload c <> []) by (intros Z; unfold group_at in G; rewrite Z in G; apply nth_error_In in G; destruct G).
  destruct (PipeProps.stage_facts _ _ _ _ _ _ _ _ _ _ _ a c set out L D H PR Ha Ho) as (keys0 & w1 & w2 & TN & NK & LS & PS & IN & NA).
  assert (NT : trx_names c grp <> []).
  { unfold trx_names. destruct (C.g_trx grp) as [|t ts] eqn:Q; [|discriminate].
    destruct (ConfigProps.C65_accepted_partial _ _ _ _ _ _ _ _ L IN (proj1 (Forall_forall _ _) D _ IN)) as (X & _).
    destruct (C.s_trx c); [destruct (X eq_refl)|discriminate]. }
  destruct (PipeProps.C112_clients _ _ _ _ _ _ _ _ _ _ _ _ _ _ _ L D H PR Ha Ho NW) as (_ & CC). destruct (CC e css g cls grp He Hg G) as (DC & _).
  split; [exact DC|]. split; [exact NT|]. split.
  { intros t Ht. unfold trx_names in Ht. destruct (C.g_trx grp) as [|t0 ts] eqn:Q.
    - apply in_map_iff in Ht as (x & X & I). eauto.
    - rewrite <- Q in Ht. exact (TN grp t (nth_error_In _ _ G) Ht). }
  intros cl Hc f. destruct (PipeRunProofs.group_clients Pe c keys0 set LS NK TN _ _ _ _ _ _ _ _ PS He Hg G) as (name & _ & CL).
  fold (trx_names c grp) in CL. destruct (In_nth_error _ _ Hc) as (k & K). destruct (CL k cl K) as (S1 & _ & _ & _ & S2 & _).
  cbn [cg_with cg_trx cg_disableStats P.cgcfg_of] in S1, S2.
  destruct (config_facts _ _ _ _ _ _ _ _ _ _ _ CF) as (ws & sn & wl0 & qn & tn & v1 & v2 & wl & gs & HA & HG & NE & SH & CG & _ & NUM).
  destruct (CG e css g cls grp He Hg G) as (name' & X & _).
  assert (CA : client_at out e g k = Some cl) by (unfold client_at; now rewrite He, Hg).
  destruct (ClientProps.C30_clients_have_trx _ _ _ _ _ _ _ _ _ _ _ _ _ _ _ _ HA HG NE CA X) as (HT & _).
  assert (S3 : c_stats cl = map (fun t => if with_stats c grp then Some t else None) (trx_names c grp)).
  { rewrite S2. apply map_ext. intros t. unfold with_stats. cbn. destruct (C.st_disable (C.s_stats c)) as [[]|]; cbn; reflexivity. }
  split; [exact S1|]. split; [exact S3|]. split; [exact HT|]. split.
  - unfold stats_on, stats_off. rewrite S3. destruct (with_stats c grp); [left|right]; apply Forall_forall; intros s I; apply in_map_iff in I as (t & <- & _); congruence.
  - destruct HT as (F & LN & _). intros Z. rewrite Z in LN.
    apply (pos_sum _ F); [|symmetry; exact LN]. unfold trx_lens. cbn [cg_with cg_trx]. now destruct (trx_names c grp).
Qed.

Lemma length_stmts lid : forall ps i, length (P.stmts_of lid i ps) = length ps.
Proof. induction ps as [|p ps IH]; intros i; [reflexivity|]. cbn. now rewrite IH. Qed.
Lemma count_stmts lid q : forall ps i, cntN (fun s => (negb (is_idle s) && in_class q s)%bool) (P.stmts_of lid i ps) = cntN (counts q) ps.
Proof.
  induction ps as [|p ps IH]; intros i; [reflexivity|]. cbn [P.stmts_of]. change (?x :: ?l) with ([x] ++ l). rewrite !cntN_app, IH. f_equal.
  unfold cntN, counts. cbn [filter]. unfold is_idle, in_class. cbn [P.stmt_of st_idle st_resultset st_write st_commit]. rewrite negb_involutive.
  destruct (T.p_idle p =? 0)%Z; [|reflexivity]. destruct q; cbn; try reflexivity; destruct (T.p_resultset p), (T.p_write p); cbn; try reflexivity; destruct (T.p_commit p); reflexivity.
Qed.
Lemma trx_stmts Pe set t : ts_stmts (P.trxset_of (P.pe_lid Pe) set) t = P.stmts_of (P.pe_lid Pe t) 0 (stmts_of_trx set t).
Proof. unfold stmts_of_trx. cbn. destruct (C.sget t (T.t_stmts set)); reflexivity. Qed.

Lemma map_mapi {A B D} (K : B -> D) (F : nat -> A -> B) (H : A -> D) : forall l n,
  (forall j x, nth_error l j = Some x -> K (F (n + j)%nat x) = H x) -> map K (mapi_from F n l) = map H l.
Proof.
  induction l as [|x l IH]; intros n Q; [reflexivity|]. cbn. f_equal.
  - specialize (Q 0%nat x eq_refl). now rewrite Nat.add_0_r in Q.
  - apply IH. intros j y J. specialize (Q (S j) y J). now replace (S n + j)%nat with (n + S j)%nat by lia.
Qed.
Lemma concat_len {A} (l : list (list A)) : length (concat l) = list_sum (map (@length _) l).
Proof. induction l as [|x l IH]; [reflexivity|]. cbn [concat map]. rewrite app_length, IH. reflexivity. Qed.
Lemma combine_nth {A B} : forall (a : list A) (b : list B) m, nth_error (List.combine a b) m =
  match nth_error a m, nth_error b m with Some x, Some y => Some (x, y) | _, _ => None end.
Proof. induction a as [|x a IH]; intros [|y b] [|m]; cbn; try reflexivity; [destruct (nth_error a m); reflexivity|apply IH]. Qed.
Lemma Forall2_at {A B} (R : A -> B -> Prop) l l' : Forall2 R l l' -> forall m x, nth_error l m = Some x -> exists y, nth_error l' m = Some y /\ R x y.
Proof. induction 1; intros [|m] z Z; try discriminate; [injection Z as <-; eexists; split; [reflexivity|assumption]|cbn in *; eauto]. Qed.
Lemma Forall2_in {A B} (R Q : A -> B -> Prop) l l' : Forall2 R l l' -> (forall x y, In x l -> R x y -> Q x y) -> Forall2 Q l l'.
Proof. induction 1; intros H1; constructor; [apply H1; [now left|assumption]|apply IHForall2; intros; apply H1; [now right|assumption]]. Qed.
Lemma Forall2_len {A B} (R : A -> B -> Prop) l l' : Forall2 R l l' -> length l = length l'.
Proof. induction 1; cbn; congruence. Qed.

Definition only_iter (grp : C.cgroup) (kn : N * N) : Prop :=
  CS.decimal (C.g_clients grp) (fst kn) /\ CS.decimal (C.g_iter grp) (snd kn) /\ snd kn <> 0%N /\
  unset (C.g_iter_c grp) /\ unset (C.g_iter_x grp) /\ C.g_runtime grp = "".

Section Sum.
  Context {V : Type}.
  Variables (E : C.env) (bases : string -> option (option C.base)) (fs : list C.stage_file) (kvs : list string) (dsn db : string) (Pe : P.penv) (a : nat).
  Variables (c : C.stage) (set : T.tset) (out : list (list (list client))) (tr : list (wevent V)) (ns : list (N * N)).
  Hypothesis CF : configured E bases fs kvs dsn db Pe a c set out.
  Hypothesis NW : C.s_workload c <> [].
  Hypothesis GH : Forall2 only_iter (C.s_workload c) ns.

  Definition off (e : nat) : nat := list_sum (map (@length _) (firstn e out)).
  (** A number per client that depends on its client group. *)
  Lemma sum_players (K : played V -> N) (U : C.cgroup -> N * N -> N) :
    (forall j e g cl grp kn css cls, nth_error (labelled out) j = Some (e, g, cl) -> nth_error out e = Some css -> nth_error css g = Some cls -> In cl cls ->
       group_at c out e g grp -> nth_error ns (off e + g) = Some kn ->
       K (Played cl (map (fun t => length (stmts_of_trx set t)) (trx_names c grp)) (events_of j (numbered out tr))) = U grp kn) ->
    sumN (map K (players set c out tr)) = sumN (map (fun x => (fst (snd x) * U (fst x) (snd x))%N) (List.combine (C.s_workload c) ns)).
  Proof.
    intros H.
    set (W := fun m => match nth_error (C.s_workload c) m, nth_error ns m with Some grp, Some kn => U grp kn | _, _ => 0%N end).
    transitivity (sumN (map (fun x : nat * nat * client => W (off (fst (fst x)) + snd (fst x))%nat) (labelled out))).
    - f_equal. unfold players. apply map_mapi. intros j [[e g] cl] J. cbn [fst snd Nat.add].
      destruct (labelled_at _ _ _ _ _ J) as (css & cls & He & Hg & Hc). destruct (has_group _ _ _ _ _ _ _ _ _ _ _ _ _ _ _ CF NW He Hg) as (grp & G).
      destruct (Forall2_at _ _ _ GH _ _ G) as (kn & N & _). rewrite G. unfold W. fold (off e) in G, N. rewrite G, N.
      erewrite <- (H j e g cl grp kn css cls J He Hg Hc G N). f_equal. f_equal. unfold trx_names, group_trx. apply map_ext. intros t. unfold stmts_of_trx.
      destruct (C.sget t (T.t_stmts set)); reflexivity.
    - change (labelled out) with (concat (mapi_from block 0 out)). rewrite (sum_clients W off out 0 0) by (intros k _; reflexivity). f_equal.
      destruct (config_facts _ _ _ _ _ _ _ _ _ _ _ CF) as (ws & sn & wl0 & qn & tn & v1 & v2 & wl & gs & HA & HG & NE & SH & CG & AG & NUM). specialize (AG NW).
      apply list_ext. intros m. rewrite nth_error_mapi_from, nth_error_map, combine_nth. cbn [Nat.add].
      destruct (nth_error (concat out) m) as [cls|] eqn:M.
      + destruct (concat_at _ _ _ M) as (e & g & css & He & Hg & EQ). unfold offset in EQ. rewrite firstn_map in EQ.
        destruct (has_group _ _ _ _ _ _ _ _ _ _ _ _ _ _ _ CF NW He Hg) as (grp & G). pose proof G as G0. unfold group_at in G0.
        destruct (Forall2_at _ _ _ GH _ _ G0) as (kn & N & (D1 & _)). unfold W. rewrite EQ, G0, N. cbn [fst snd].
        destruct (client_facts _ _ _ _ _ _ _ _ _ _ _ _ _ _ _ _ CF He Hg G) as (D2 & _). f_equal. cbn [option_map fst snd]. now rewrite (PipeProps.decimal_fun _ _ _ D1 D2).
      + apply nth_error_None in M. rewrite concat_len, AG in M. apply nth_error_None in M. now rewrite M.
  Qed.
End Sum.

(** A stage whose client groups have only the limit iter, without periodic statistics (one collection, when the clients are done): if no
    query failed, the report counts, in total and for each trx, the queries of the files of the workload, times iter, times clients. *)
Theorem C130_report : forall V flog E bases fs kvs dsn db Pe a c set out acts (st : wst V) tr ns actss,
  configured E bases fs kvs dsn db Pe a c set out -> C.s_workload c <> [] -> NoDup (map C.x_name (C.s_trx c)) ->
  Forall2 only_iter (C.s_workload c) ns ->
  whole_run c out (whole_init out) acts = Some (st, tr) -> returned st -> undisturbed st ->
  (forall e i g cl, client_is out e i g cl -> no_data_limit cl /\ no_failure (done_by (e, i) tr) /\
     forall s r, In (EvDone s r) (done_by (e, i) tr) -> r = None) ->
  (forall x ps, In x (C.s_trx c) -> C.sget (C.x_name x) (T.t_stmts set) = Some ps -> match ps with p :: _ => T.p_idle p = 0%Z | [] => True end) ->
  Forall2 collected_once (players set c out tr) actss ->
  exists ss w r, (forall x, In x (C.s_trx c) -> file_stmts Pe c x (ss (C.x_name x))) /\
    watch_all watch_new (map (fun p => c_stats (pl_c p)) (players set c out tr)) = Some w /\ stage_reports flog w (concat actss) 1 = Some [r] /\
    wt_clients w = sumN (map (fun x => if with_stats c (fst x) then fst (snd x) else 0%N) (List.combine (C.s_workload c) ns)) /\
    (forall q, total_n r q = expected c ns ss (fun _ => true) q) /\ (forall code, total_err r code = 0%N) /\
    forall grp kn name, In (grp, kn) (List.combine (C.s_workload c) ns) -> fst kn <> 0%N -> with_stats c grp = true -> In name (group_trx c grp) ->
      (forall q, trx_n name r q = expected c ns ss (String.eqb name) q) /\ forall code, trx_err name r code = 0%N.
Proof.
  intros V flog E bases fs kvs dsn db Pe a c set out acts st tr ns actss CF NW ND GH R RT U CH SQ AC.
  pose proof (winv_run _ _ _ _ _ R) as W. destruct (w_sched _ _ _ W) as (sched & LR).
  pose proof CF as (cs & l & w & outs & L & D & H & PR & Ha & Ho).
  destruct (PipeProps.stage_facts _ _ _ _ _ _ _ _ _ _ _ a c set out L D H PR Ha Ho) as (keys0 & w1 & w2 & TN & NK & LS & PS & IN & NA).
  unfold P.load_stage in LS. apply TrxLineProofs.load_trx_spec in LS as (_ & _ & LS & _); [|exact ND|reflexivity].
  assert (LENS : forall grp, map (fun t => length (stmts_of_trx set t)) (trx_names c grp) =
    map (fun t => length (ts_stmts (P.trxset_of (P.pe_lid Pe) set) t)) (trx_names c grp)).
  { intros grp. apply map_ext. intros t. now rewrite trx_stmts, length_stmts. }
  (* what each client did *)
  assert (ONE : forall j e g cl grp kn css cls, nth_error (labelled out) j = Some (e, g, cl) -> nth_error out e = Some css -> nth_error css g = Some cls -> In cl cls ->
     group_at c out e g grp -> nth_error ns (off out e + g) = Some kn ->
     map ex_stmt (execs (events_of j (numbered out tr))) = concat (repeat (queries cl) (N.to_nat (snd kn))) /\ no_failure (events_of j (numbered out tr))).
  { intros j e g cl grp kn css cls J He Hg Hc G N. destruct (labelled_is _ _ _ _ _ J) as (i & CI & <-).
    destruct (CH _ _ _ _ CI) as (DL & NF & NR). destruct (Forall2_at _ _ _ GH _ _ G) as (kn' & N' & (_ & DI & NZ & U1 & U2 & RG)).
    unfold off in N. rewrite N in N'. injection N' as <-. destruct (client_labelled _ _ _ _ _ CI) as (VC & LB).
    pose proof (by_limit _ _ _ _ _ _ _ _ _ _ _ _ _ _ _ _ _ _ _ _ CF R RT U CI G RG NR) as RL.
    destruct (C115_iter _ _ _ _ _ _ _ _ _ _ _ _ _ _ _ _ _ _ _ _ _ CF LR LB G DI NZ) as (_ & X). destruct (X U1 U2 DL RL) as (_ & B).
    rewrite <- (same_events _ _ _ _ W VC) in NF. split; [exact (proj1 (B NF))|exact NF]. }
  assert (PL : forall p, In p (players set c out tr) -> exists j e g cl grp kn css cls, nth_error (labelled out) j = Some (e, g, cl) /\
     nth_error out e = Some css /\ nth_error css g = Some cls /\ In cl cls /\ group_at c out e g grp /\ nth_error ns (off out e + g) = Some kn /\
     p = Played cl (map (fun t => length (ts_stmts (P.trxset_of (P.pe_lid Pe) set) t)) (trx_names c grp)) (events_of j (numbered out tr))).
  { intros p I. destruct (In_nth_error _ _ I) as (j & J). unfold players in J. rewrite nth_error_mapi_from in J.
    destruct (nth_error (labelled out) j) as [[[e g] cl]|] eqn:LJ; [|discriminate]. injection J as <-. cbn [fst snd Nat.add].
    destruct (labelled_at _ _ _ _ _ LJ) as (css & cls & He & Hg & Hc). destruct (has_group _ _ _ _ _ _ _ _ _ _ _ _ _ _ _ CF NW He Hg) as (grp & G).
    destruct (Forall2_at _ _ _ GH _ _ G) as (kn & N & _). exists j, e, g, cl, grp, kn, css, cls. do 6 (split; [assumption|]).
    rewrite G, <- LENS. f_equal. unfold trx_names, group_trx. apply map_ext. intros t. unfold stmts_of_trx. destruct (C.sget t (T.t_stmts set)); reflexivity. }
  assert (OG : Forall of_group (players set c out tr)).
  { apply Forall_forall. intros p I. destruct (PL p I) as (j & e & g & cl & grp & kn & css & cls & J & He & Hg & Hc & G & N & ->).
    destruct (client_facts _ _ _ _ _ _ _ _ _ _ _ _ _ _ _ _ CF He Hg G) as (_ & _ & _ & X). destruct (X cl Hc) as (_ & _ & HT & ON & _). split; [exact HT|exact ON]. }
  assert (RN : Forall2 (ran 1) (players set c out tr) actss).
  { assert (Z : forall p ac, In p (players set c out tr) -> collected_once p ac -> ran 1 p ac).
    { intros p ac I (C1 & C2). destruct (PL p I) as (j & e & g & cl & grp & kn & css & cls & J & He & Hg & Hc & G & N & EQ). subst p. cbn [pl_c pl_evs pl_lens] in *.
      destruct (client_facts _ _ _ _ _ _ _ _ _ _ _ _ _ _ _ _ CF He Hg G) as (_ & _ & TX & X). destruct (X cl Hc) as (S1 & _ & HT & _ & NE).
      split; [|split; [exact NE|split; [|split; [exact C1|]]]]; cbn [pl_c pl_evs pl_lens].
      - intros i s. rewrite S1. apply starts_with.
        + intros t Ht. rewrite trx_stmts. destruct (TX t Ht) as (x & Ix & <-). unfold stmts_of_trx.
          destruct (C.sget (C.x_name x) (T.t_stmts set)) as [ps|] eqn:Q; [|exact Logic.I]. specialize (SQ x ps Ix Q). destruct ps as [|p ps]; [exact Logic.I|].
          cbn [P.stmts_of]. unfold is_idle. cbn [P.stmt_of st_idle]. now rewrite SQ.
        + destruct HT as (F & _). rewrite Forall_map in F. exact F.
      - assert (JC : nth_error (map snd (labelled out)) j = Some cl) by (now rewrite nth_error_map, J).
        destruct (loop_has _ _ _ _ _ _ LR JC) as (k & K & KC). destruct (sim_run _ _ _ _ LR) as (_ & ON & _). destruct (ON _ k K) as ((inps & CR) & _).
        rewrite KC in CR. eauto.
      - intros k ak A. destruct (C2 k ak A) as (es & F & ->). split.
        + assert (Q : loads (flat_map (fun e => [ALoad e; AWrite]) es ++ [AReset; AStore; ARead]) = es).
          { clear. unfold loads. rewrite flat_map_app. cbn. rewrite app_nil_r. induction es as [|e es IH]; [reflexivity|]. cbn. now rewrite IH. }
          rewrite Q. exact F.
        + exact (proj2 (proj2 (TotalProofs.once_ok es))). }
    exact (Forall2_in _ _ _ _ AC Z). }
  assert (DB : Forall done_before actss).
  { clear - AC. revert AC. generalize (players set c out tr). intros pls AC. induction AC as [|p ac ps acs (_ & C1) C2 IH]; constructor; [|exact IH]. apply Forall_forall. intros x I. destruct (In_nth_error _ _ I) as (k & K).
    destruct (C1 k x K) as (es & _ & ->). eauto. }
  assert (EXE : forall sel q, TotalSpec.executed (players set c out tr) sel q = expected c ns (stmts_of_trx set) sel q).
  { intros sel q. unfold TotalSpec.executed, expected.
    rewrite (sum_players _ _ _ _ _ _ _ _ _ _ _ tr ns CF NW GH _ (fun grp kn => (snd kn * per_iteration c (stmts_of_trx set) sel q grp)%N)).
    - f_equal. apply map_ext. intros x. lia.
    - intros j e g cl grp kn css cls J He Hg Hc G N. destruct (ONE _ _ _ _ _ _ _ _ J He Hg Hc G N) as (M & _).
      destruct (client_facts _ _ _ _ _ _ _ _ _ _ _ _ _ _ _ _ CF He Hg G) as (_ & _ & _ & X). destruct (X cl Hc) as (S1 & S2 & _).
      rewrite (executes_count V _ (with_stats c grp) sel q (trx_names c grp) (Played _ _ _) _ S1 S2 (LENS grp) M). rewrite N2Nat.id. f_equal.
      unfold per_iteration. destruct (with_stats c grp); [|reflexivity]. f_equal. apply map_ext. intros t. now rewrite trx_stmts, count_stmts. }
  assert (FLD : forall sel code, TotalSpec.failed (players set c out tr) sel code = 0%N).
  { intros sel code. unfold TotalSpec.failed. assert (Z : forall l : list N, Forall (fun x => x = 0%N) l -> sumN l = 0%N).
    { clear. induction 1 as [|x l -> _ IH]; [reflexivity|]. change (sumN (?x :: ?l)) with (x + sumN l)%N. rewrite IH. reflexivity. }
    apply Z. apply Forall_map, Forall_forall. intros p I. destruct (PL p I) as (j & e & g & cl & grp & kn & css & cls & J & He & Hg & Hc & G & N & ->).
    destruct (ONE _ _ _ _ _ _ _ _ J He Hg Hc G N) as (_ & NF). apply cntN_false. intros ev Iv. cbn [pl_evs] in Iv.
    unfold no_failure in NF. rewrite Forall_forall in NF. specialize (NF ev Iv). unfold fails_with, failed_exec in *.
    destruct ev as [| | | | | | | | | | | |]; try apply andb_false_r. destruct res; [discriminate|apply andb_false_r]. }
  destruct (TotalProps.C104_one_report_partial flog _ _ OG RN DB) as (wt & r & WT & SR & T1 & T2 & T3).
  exists (stmts_of_trx set), wt, r. split.
  { intros x Hx. destruct (LS x Hx) as (ls & keys & ss & f & Q1 & Q2 & Q3 & _). unfold stmts_of_trx. rewrite Q3. exists ls, keys, f. auto. }
  split; [exact WT|]. split; [exact SR|]. split; [|split; [|split]].
  - destruct (TotalProps.C104_counts_partial flog 1 _ _ OG RN) as (wt' & reports & WT' & _ & _ & CN & _).
    + eapply Forall_impl; [|exact DB]. intros ac. apply Forall_impl. intros x (es & ->). apply (TotalProofs.once_ok es).
    + eapply Forall_impl; [|exact DB]. intros ac. apply Forall_impl. intros x (es & ->). apply (TotalProofs.once_ok es).
    + rewrite WT in WT'. injection WT' as <-. rewrite CN.
      assert (CS1 : forall A (h : A -> bool) l0, cntN h l0 = sumN (map (fun x => if h x then 1%N else 0%N) l0)).
      { clear. intros A h l. induction l as [|x l IH]; [reflexivity|]. change (x :: l) with ([x] ++ l). rewrite cntN_app, IH. cbn [map app].
        change (sumN (?x :: ?l)) with (x + sumN l)%N. f_equal. unfold cntN. cbn. destruct (h x); reflexivity. }
      rewrite CS1. rewrite (sum_players _ _ _ _ _ _ _ _ _ _ _ tr ns CF NW GH _ (fun grp kn => if with_stats c grp then 1%N else 0%N)).
      * f_equal. apply map_ext. intros x. destruct (with_stats c (fst x)); lia.
      * intros j e g cl grp kn css cls J He Hg Hc G N. cbn [pl_c].
        destruct (client_facts _ _ _ _ _ _ _ _ _ _ _ _ _ _ _ _ CF He Hg G) as (_ & NT & _ & X). destruct (X cl Hc) as (_ & S2 & _). rewrite S2.
        destruct (trx_names c grp) as [|t ts]; [now destruct NT|]. destruct (with_stats c grp); [reflexivity|]. cbn [map existsb orb].
        clear. induction ts as [|y ts IH]; [reflexivity|exact IH].
  - intros q. rewrite T1. apply EXE.
  - intros code. rewrite T2. apply FLD.
  - intros grp kn name IG NZ WS IN'.
    assert (EP : exists p, In p (players set c out tr) /\ In (Some name) (c_stats (pl_c p))).
    { destruct (In_nth_error _ _ IG) as (m & M). rewrite combine_nth in M. destruct (nth_error (C.s_workload c) m) as [grp'|] eqn:M1; [|discriminate].
      destruct (nth_error ns m) as [kn'|] eqn:M2; [|discriminate]. injection M as -> ->.
      destruct (config_facts _ _ _ _ _ _ _ _ _ _ _ CF) as (ws & sn & wl0 & qn & tn & v1 & v2 & wl & gs & HA & HG & NE & SH & CG & AG & NUM). specialize (AG NW).
      destruct (nth_error (concat out) m) as [cls|] eqn:MO.
      2:{ apply nth_error_None in MO. rewrite concat_len, AG in MO. apply nth_error_None in MO. congruence. }
      destruct (concat_at _ _ _ MO) as (e & g & css & He & Hg & EQ). unfold offset in EQ. rewrite firstn_map in EQ.
      assert (G : group_at c out e g grp) by (unfold group_at; rewrite <- EQ; exact M1).
      destruct (client_facts _ _ _ _ _ _ _ _ _ _ _ _ _ _ _ _ CF He Hg G) as (D2 & NT & _ & X).
      destruct (Forall2_at _ _ _ GH _ _ M1) as (kn' & N' & (D1 & _)). rewrite M2 in N'. injection N' as <-.
      pose proof (PipeProps.decimal_fun _ _ _ D1 D2) as LK. destruct cls as [|cl cls]; [exfalso; apply NZ; exact LK|].
      destruct (X cl (or_introl eq_refl)) as (_ & S2 & _). pose proof (at_labelled _ _ _ _ _ _ He Hg (or_introl eq_refl)) as LB.
      destruct (In_nth_error _ _ LB) as (j & J).
      destruct (nth_error (players set c out tr) j) as [p|] eqn:PJ.
      2:{ unfold players in PJ. rewrite nth_error_mapi_from, J in PJ. discriminate. }
      exists p. split; [eapply nth_error_In; eauto|]. unfold players in PJ. rewrite nth_error_mapi_from, J in PJ. injection PJ as <-. cbn [pl_c snd].
      rewrite S2, WS. apply in_map_iff. exists name. split; [reflexivity|exact IN']. }
    destruct EP as (p & Ip & Sp). destruct (T3 p name Ip Sp) as (Q1 & Q2). split; [intros q; rewrite Q1; apply EXE|intros code; rewrite Q2; apply FLD].
Qed.

Module ExY.
  Definition gs : list C.cgroup :=
    [C.CGroup "2" "" false "3" "" "" "a" "" "" "" "" "" "" "" ["b"; "r"];
     C.CGroup "3" "" false "5" "" "" "a" "" "" "" "" "" "" "" ["r"];
     C.CGroup "2" "" true "2" "" "" "b" "" "" "" "" "" "" "" ["b"]].
  Definition ns : list (N * N) := [(2, 3); (3, 5); (2, 2)]%N.
  Definition conf : C.stage := match C.load ExL.E ConfigProps.no_base [ConfigProps.file (PipeProps.stage1 "s" ExL.xs gs)] [] "" "" with
    | Some (c :: _) => c | _ => PipeProps.stage1 "" [] [] end.
  Definition set : T.tset := match P.load_stages (PipeProps.P1 ExL.files) [conf] [] with Some ((_, s) :: _) => s | _ => T.TSet [] [] [] [] end.
  Definition out := match P.load_stages (PipeProps.P1 ExL.files) [conf] [] with
    | Some l => match P.prepare_run (PipeProps.P1 ExL.files) l with Some (_, [o]) => o | _ => [] end
    | None => [] end.
  Definition acts := ExW.drive conf out (fun _ => false) 0 500 (whole_init out).
  Definition ps (tr : list (wevent Z)) := players set conf out tr.
  Definition collected (p : played Z) : list (list (swact sev)) :=
    map (fun k => TotalProps.ExT.rec (TotalProps.ExT.sevs k p) ++ TotalProps.ExT.collect)
      (seq 0 (length (filter (fun s => match s with Some _ => true | None => false end) (c_stats (pl_c p))))).
  Lemma sevs_ok k p : Forall2 same_act (filter (at_slot k) (pl_evs p)) (TotalProps.ExT.sevs k p).
  Proof.
    unfold TotalProps.ExT.sevs. induction (pl_evs p) as [|e l IH]; [constructor|]. cbn [filter].
    destruct (at_slot k e) eqn:Q; [|exact IH]. cbn [flat_map]. destruct e; try discriminate; constructor; try exact IH; cbn; repeat split; auto; lia.
  Qed.
  Lemma collected_ok ps : Forall2 collected_once ps (map collected ps).
  Proof.
    induction ps as [|p ps IH]; constructor; [|exact IH]. split; [unfold collected; now rewrite map_length, seq_length|].
    intros k a A. unfold collected in A. rewrite nth_error_map in A. destruct (nth_error (seq 0 _) k) as [k'|] eqn:Q; [|discriminate]. injection A as <-.
    assert (k' = k) as ->.
    { assert (L := Q). apply nth_error_nth with (d := 0%nat) in Q. rewrite seq_nth in Q; [lia|]. rewrite <- (seq_length (length (filter (fun s : option string => match s with Some _ => true | None => false end) (c_stats (pl_c p)))) 0). apply nth_error_Some. congruence. }
    exists (TotalProps.ExT.sevs k p). split; [apply sevs_ok|reflexivity].
  Qed.
  Definition fine (cl : client) (evs : list (event Z)) : bool :=
    (ExW.no_error evs && forallb (fun e => negb (failed_exec e)) (execs evs))%bool.
End ExY.

Example C130_example : exists st tr w r,
  configured ExL.E ConfigProps.no_base [ConfigProps.file (PipeProps.stage1 "s" ExL.xs ExY.gs)] [] "" "" (PipeProps.P1 ExL.files) 0 ExY.conf ExY.set ExY.out /\
  C.s_workload ExY.conf <> [] /\ NoDup (map C.x_name (C.s_trx ExY.conf)) /\ Forall2 only_iter (C.s_workload ExY.conf) ExY.ns /\
  whole_run ExY.conf ExY.out (whole_init ExY.out) ExY.acts = Some (st, tr) /\ returned st /\ undisturbed st /\
  (forall e i g cl, client_is ExY.out e i g cl -> no_data_limit cl /\ no_failure (done_by (e, i) tr) /\
     forall s r, In (EvDone s r) (done_by (e, i) tr) -> r = None) /\
  (forall x ps, In x (C.s_trx ExY.conf) -> C.sget (C.x_name x) (T.t_stmts ExY.set) = Some ps -> match ps with p :: _ => T.p_idle p = 0%Z | [] => True end) /\
  Forall2 collected_once (ExY.ps tr) (map ExY.collected (ExY.ps tr)) /\
  watch_all watch_new (map (fun p => c_stats (pl_c p)) (ExY.ps tr)) = Some w /\
  stage_reports TotalProps.ExT.flog w (concat (map ExY.collected (ExY.ps tr))) 1 = Some [r] /\
  wt_clients w = 5%N /\ map (total_n r) [READ; WRITE; COMMIT; TOTAL] = [27; 6; 0; 33]%N /\ map (trx_n "r" r) [READ; TOTAL] = [21; 21]%N /\
  map (trx_n "b" r) [READ; WRITE; TOTAL] = [6; 6; 12]%N.
Proof.
  do 4 eexists. split; [config_ok|]. split; [discriminate|]. split; [repeat constructor; cbn; intuition discriminate|]. split.
  { repeat (apply Forall2_cons || apply Forall2_nil); (split; [|split; [|split; [discriminate|split; [now left|split; [now left|reflexivity]]]]]);
    (apply (decimal_one "2") || apply (decimal_one "3") || apply (decimal_one "5")); unfold CS.digit; vm_compute; lia. }
  split; [vm_compute; reflexivity|]. split; [reflexivity|]. split; [split; reflexivity|]. split; [|split; [|split; [apply ExY.collected_ok|]]].
  - intros e i g cl (css & O & H).
    destruct e as [|[|e]]; [| |vm_compute in O; destruct e; discriminate]; vm_compute in O; injection O as <-; vm_compute in H;
    (do 6 (try (destruct i as [|i]; [first [discriminate|injection H as <- <-; split; [apply no_limit_in; reflexivity|]; split; [apply no_failure_in; vm_compute; reflexivity|apply ExW.no_error_ok; vm_compute; reflexivity]]|]));
    try (destruct i; discriminate)).
  - intros x ps [<-|[<-|[]]] Q; vm_compute in Q; injection Q as <-; reflexivity.
  - split; [vm_compute; reflexivity|]. split; [vm_compute; reflexivity|]. repeat split; vm_compute; reflexivity.
Qed.

Print Assumptions C130_report.
