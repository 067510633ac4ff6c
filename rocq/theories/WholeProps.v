(** C128-C129: a stage from its configuration file to the end of its run. *)
From Verif Require Import Prelude ListAux ScopeModel StmtModel WorkloadModel WorkloadSpec ClientModel ClientSpec.
From Verif Require Import IterModel IterSpec IterProofs LoopModel LoopSpec LoopProofs LoopCountProofs LoopProps WholeModel WholeSpec WholeProofs.
From Verif Require ConfigModel ConfigSpec ConfigProps TrxModel StageProps PipeModel PipeProofs PipeKeyProofs PipeRunProofs PipeProps GroupProofs InstanceProofs.
#[local] Open Scope string_scope.
#[local] Open Scope list_scope.

(** Client number [i] of exec group [e] is [cl], of client group [g]. *)
Definition client_is (out : list (list (list client))) (e i g : nat) (cl : client) : Prop :=
  exists css, nth_error out e = Some css /\ nth_error (concat (mapi_from (fun g cls => map (fun c => (g, c)) cls) 0 css)) i = Some (g, cl).

Lemma client_labelled out e i g cl : client_is out e i g cl -> valid out (e, i) /\ nth_error (labelled out) (idx out (e, i)) = Some (e, g, cl).
Proof.
  intros (css & O & H).
  assert (B : nth_error (block e css) i = Some (e, g, cl)).
  { assert (X : block e css = map (fun x => (e, fst x, snd x)) (concat (mapi_from (fun g cls => map (fun c => (g, c)) cls) 0 css))).
    { unfold block. generalize 0%nat as n. clear. induction css as [|cs css IH]; intros n; [reflexivity|]. cbn. rewrite map_app, IH, map_map. reflexivity. }
    rewrite X, nth_error_map, H. reflexivity. }
  assert (L : (i < length (block e css))%nat) by (apply nth_error_Some; congruence).
  assert (VC : valid out (e, i)).
  { unfold valid, sizes. cbn [fst snd]. rewrite (nth_error_nth (map _ out) e 0%nat (x := length (concat css))); [|now rewrite nth_error_map, O].
    now rewrite <- (block_length e). }
  split; [exact VC|]. assert (B' : nth_error (mapi_from block 0 out) e = Some (block e css)) by now rewrite nth_error_mapi_from, O.
  pose proof (WorkloadProps.nth_concat _ _ _ _ B' L) as X. rewrite <- firstn_map, block_sizes in X. rewrite B in X. exact X.
Qed.
Lemma labelled_is out j e g cl : nth_error (labelled out) j = Some (e, g, cl) -> exists i, client_is out e i g cl /\ idx out (e, i) = j.
Proof.
  intros H. change (labelled out) with (concat (mapi_from block 0 out)) in H.
  destruct (concat_at _ _ _ H) as (t & i & l & T & I & E). rewrite block_sizes in E.
  rewrite nth_error_mapi_from in T. destruct (nth_error out t) as [css|] eqn:O; [|discriminate]. injection T as <-. cbn [Nat.add] in I.
  assert (X : block t css = map (fun x => (t, fst x, snd x)) (concat (mapi_from (fun g cls => map (fun c => (g, c)) cls) 0 css))).
  { unfold block. generalize 0%nat as n. clear. induction css as [|cs css IH]; intros n; [reflexivity|]. cbn. rewrite map_app, IH, map_map. reflexivity. }
  rewrite X, nth_error_map in I. destruct (nth_error (concat _) i) as [[g' cl']|] eqn:Y; [|discriminate]. injection I as -> -> ->.
  exists i. split; [exists css; auto|symmetry; exact E].
Qed.

(** ** C128: the order of exec groups *)

(** The place of client group [g] of exec group [e] in the file. *)
Definition place (out : list (list (list client))) (e g : nat) : nat := list_sum (map (@length _) (firstn e out)) + g.

(** The client groups are in different exec groups: both have a name, or neither has and one has DDL. *)
Definition separate (c : C.stage) (set : T.tset) (grp grp' : C.cgroup) : Prop :=
  (C.g_group grp <> "" /\ C.g_group grp' <> "" /\ C.g_group grp <> C.g_group grp') \/
  (C.g_group grp = "" /\ C.g_group grp' = "" /\
   (existsb (PipeProps.ddl_trx set) (trx_names c grp) = true \/ existsb (PipeProps.ddl_trx set) (trx_names c grp') = true)).

Lemma firstn_sum_mono (ns : list nat) a b : (a <= b)%nat -> (list_sum (firstn a ns) <= list_sum (firstn b ns))%nat.
Proof. exact (offset_mono ns a b). Qed.
Lemma place_lt (out : list (list (list client))) e g e' g' css' cls' : nth_error out e' = Some css' -> nth_error css' g' = Some cls' ->
  (place out e g < place out e' g')%nat -> (e <= e')%nat.
Proof.
  intros O O' L. destruct (Nat.le_gt_cases e e') as [|X]; [assumption|exfalso].
  unfold place in L. rewrite <- !firstn_map in L.
  pose proof (firstn_sum_mono (map (@length _) out) (S e') e X) as M.
  assert (S' : nth_error (map (@length _) out) e' = Some (length css')) by now rewrite nth_error_map, O.
  pose proof (offset_S _ _ _ S') as Q. unfold offset in Q. rewrite Q in M. assert (g' < length css')%nat by (apply nth_error_Some; congruence). lia.
Qed.

(** Client groups that are separate are in different exec groups, in the order of the file. *)
Lemma separate_order E bases fs kvs dsn db Pe a c set out e css g cls grp e' css' g' cls' grp' : configured E bases fs kvs dsn db Pe a c set out ->
  nth_error out e = Some css -> nth_error css g = Some cls -> group_at c out e g grp ->
  nth_error out e' = Some css' -> nth_error css' g' = Some cls' -> group_at c out e' g' grp' ->
  separate c set grp grp' -> (place out e g < place out e' g')%nat -> (e < e')%nat.
Proof.
  intros (cs & l & w & outs & L & D & H & PR & Ha & Ho) He Hg G He' Hg' G' SEP LT.
  destruct (PipeProps.stage_facts _ _ _ _ _ _ _ _ _ _ _ a c set out L D H PR Ha Ho) as (keys0 & w1 & w2 & TN & NK & LS & PS & IN & NA).
  destruct (PipeRunProofs.group_config Pe c keys0 set LS NK TN _ _ _ PS) as (wl & gs & GR & _ & SH & _).
  pose proof (place_lt _ _ g _ _ _ _ He' Hg' LT) as LE. destruct (Nat.eq_dec e e') as [<-|]; [exfalso|lia].
  destruct (GroupProofs.groups_partition _ _ _ _ GR) as (PART & _ & SAME & _).
  rewrite He in He'. injection He' as <-.
  assert (IDX : forall e, list_sum (map (@length _) (firstn e out)) = list_sum (map (@length _) (firstn e gs))).
  { intros n. rewrite <- !firstn_map. now rewrite SH. }
  destruct (nth_error gs e) as [refs|] eqn:R.
  2:{ apply nth_error_None in R. assert (length out = length gs) by (now rewrite <- (map_length (@length _) out), SH, map_length).
      assert (e < length out)%nat by (apply nth_error_Some; congruence). lia. }
  assert (LR : length css = length refs).
  { assert (Z : nth_error (map (@length _) out) e = nth_error (map (@length _) gs) e) by now rewrite SH. rewrite !nth_error_map, He, R in Z. cbn in Z. congruence. }
  assert (AT : forall h x, nth_error css h = Some x -> In (place out e h) refs).
  { intros h x Hh. assert (h < length refs)%nat by (rewrite <- LR; apply nth_error_Some; congruence).
    destruct (nth_error refs h) as [r|] eqn:Hr; [|apply nth_error_None in Hr; lia].
    pose proof (PipeRunProofs.concat_seq _ _ _ _ _ _ _ PART R Hr) as Q. unfold place. rewrite IDX. cbn [Nat.add] in Q. rewrite <- Q. eapply nth_error_In; eauto. }
  pose proof (SAME refs _ _ (nth_error_In _ _ R) (AT _ _ Hg) (AT _ _ Hg')) as NM.
  assert (X : nth_error (map P.cgcfg_of (C.s_workload c)) (place out e g) = Some (P.cgcfg_of grp)).
  { rewrite nth_error_map. unfold place. unfold group_at in G. now rewrite G. }
  assert (X' : nth_error (map P.cgcfg_of (C.s_workload c)) (place out e g') = Some (P.cgcfg_of grp')).
  { rewrite nth_error_map. unfold place. unfold group_at in G'. now rewrite G'. }
  assert (O : T.t_order set = map C.x_name (C.s_trx c)).
  { unfold P.load_stage in LS. apply PipeProofs.load_trx_ok in LS as (_ & _ & O); [exact O|]. split; [exact NK|]. split; [intros n ss Z; discriminate Z|intros n []]. }
  assert (RD : forall gg, existsb (PipeProps.ddl_trx set) (trx_names c gg) = true -> runs_ddl (P.trxset_of (P.pe_lid Pe) set) (P.cgcfg_of gg)).
  { intros gg Z. apply existsb_exists in Z as (t & Z1 & Z2). exists t. split.
    - unfold trx_of. cbn [P.cgcfg_of cg_trx P.trxset_of ts_order]. rewrite O. exact Z1.
    - unfold PipeProps.ddl_trx in Z2. cbn. destruct (C.sget t (T.t_ddl set)) as [[]|]; congruence. }
  destruct SEP as [(A1 & A2 & A3)|(A1 & A2 & A3)].
  - destruct (GroupProofs.groups_fill _ _ _ _ _ _ GR X) as (n1 & Y1 & _ & Z1). destruct (GroupProofs.groups_fill _ _ _ _ _ _ GR X') as (n2 & Y2 & _ & Z2).
    unfold name_of in NM. rewrite Y1, Y2 in NM. cbn in NM. injection NM as NM. rewrite (Z1 A1), (Z2 A2) in NM. cbn in NM. contradiction.
  - assert (NE : place out e g <> place out e g') by lia. destruct A3 as [A3|A3].
    + exact (GroupProofs.groups_unnamed _ _ _ _ _ _ _ _ GR X X' NE A1 A2 (RD _ A3) NM).
    + exact (GroupProofs.groups_unnamed _ _ _ _ _ _ _ _ GR X' X (not_eq_sym NE) A2 A1 (RD _ A3) (eq_sym NM)).
Qed.

Lemma client_place out e i g cl : client_is out e i g cl -> exists css cls, nth_error out e = Some css /\ nth_error css g = Some cls /\ In cl cls.
Proof. intros (_ & H)%client_labelled. eapply labelled_at; eauto. Qed.

(** While neither the stage's runtime has elapsed nor finch was stopped: when a client of a client group acts, every client of a separate
    client group earlier in the file has returned, and does nothing any more. *)
Theorem C128_order : forall V E bases fs kvs dsn db Pe a c set out acts (st : wst V) tr e i g cl grp e' i' g' cl' grp' t1 ev t2,
  configured E bases fs kvs dsn db Pe a c set out ->
  whole_run c out (whole_init out) acts = Some (st, tr) -> undisturbed st ->
  client_is out e i g cl -> group_at c out e g grp -> client_is out e' i' g' cl' -> group_at c out e' g' grp' ->
  (place out e g < place out e' g')%nat -> separate c set grp grp' ->
  tr = t1 ++ WC (e', i') ev :: t2 ->
  (exists s r, In (WC (e, i) (EvDone s r)) t1) /\ forall ev', ~ In (WC (e, i) ev') t2.
Proof.
  intros V E bases fs kvs dsn db Pe a c set out acts st tr e i g cl grp e' i' g' cl' grp' t1 ev t2 CF R U CI G CI' G' LT SEP TR.
  destruct (client_place _ _ _ _ _ CI) as (css & cls & He & Hg & _). destruct (client_place _ _ _ _ _ CI') as (css' & cls' & He' & Hg' & _).
  pose proof (separate_order _ _ _ _ _ _ _ _ _ _ _ _ _ _ _ _ _ _ _ _ _ CF He Hg G He' Hg' G' SEP LT) as LE.
  destruct (client_labelled _ _ _ _ _ CI) as (VC & _). pose proof (w_order _ _ _ (winv_run _ _ _ _ _ R) U) as OR.
  destruct (OR _ _ _ _ TR) as (_ & B). split; [apply B; [exact LE|exact VC]|].
  intros ev' I. apply in_split in I as (l1 & l2 & ->).
  assert (TR' : tr = (t1 ++ WC (e', i') ev :: l1) ++ WC (e, i) ev' :: l2) by (rewrite TR, <- app_assoc; reflexivity).
  destruct (OR _ _ _ _ TR') as (A & _). assert (Z : In (WC (e', i') ev) (t1 ++ WC (e', i') ev :: l1)) by (apply in_or_app; right; now left). specialize (A _ _ Z). cbn in A. lia.
Qed.
Print Assumptions C128_order.

(** ** A stage without a workload *)

Lemma names_queries E bases fs kvs dsn db Pe a c set out names : configured E bases fs kvs dsn db Pe a c set out ->
  NoDup (map C.x_name (C.s_trx c)) -> incl names (map C.x_name (C.s_trx c)) ->
  exists qss, file_queries Pe c names qss /\
    map st_query (filter (fun s => negb (is_idle s)) (concat (map (ts_stmts (P.trxset_of (P.pe_lid Pe) set)) names))) = concat qss.
Proof.
  intros (cs & l & w & outs & L & D & H & PR & Ha & Ho) ND NM.
  destruct (PipeProps.stage_facts _ _ _ _ _ _ _ _ _ _ _ a c set out L D H PR Ha Ho) as (keys0 & w1 & w2 & TN & NK & LS & PS & IN & NA).
  unfold P.load_stage in LS. apply TrxLineProofs.load_trx_spec in LS as (_ & _ & LS & _); [|exact ND|reflexivity].
  clear - NM LS. induction names as [|n names IH].
  - exists []. split; [constructor|reflexivity].
  - destruct IH as (qss & A & B); [intros x Hx; apply NM; now right|].
    pose proof (NM n (or_introl eq_refl)) as Hn. apply in_map_iff in Hn as (x & <- & Hx).
    destruct (LS x Hx) as (ls & keys & ss & f & R & F & S & _).
    exists (map T.p_query (filter (fun s => (T.p_idle s =? 0)%Z) ss) :: qss). split.
    + constructor; [|exact A]. exists x, ls, keys, ss, f. auto.
    + cbn [map concat]. rewrite filter_app, map_app, B. f_equal. cbn [P.trxset_of ts_stmts]. rewrite S.
      generalize (P.pe_lid Pe (C.x_name x)) as lid, 0%nat as i. clear. intros lid. induction ss as [|p ss IH]; intros i; [reflexivity|].
      cbn [P.stmts_of filter]. unfold is_idle at 1. cbn [P.stmt_of st_idle]. rewrite negb_involutive.
      destruct (T.p_idle p =? 0)%Z; cbn [map]; now rewrite IH.
Qed.

(** The clients of a stage without a workload share no iteration counters. *)
Lemma default_counters E bases fs kvs dsn db Pe a c set out e g cl : configured E bases fs kvs dsn db Pe a c set out ->
  C.s_workload c = [] -> In (e, g, cl) (labelled out) -> c_iterEg cl = 0%N /\ c_iterClients cl = 0%N.
Proof.
  intros (cs & l & w & outs & L & D & H & PR & Ha & Ho) NW I.
  destruct (PipeProps.stage_facts _ _ _ _ _ _ _ _ _ _ _ a c set out L D H PR Ha Ho) as (keys0 & w1 & w2 & TN & NK & LS & PS & IN & NA).
  destruct (PipeRunProofs.group_config Pe c keys0 set LS NK TN _ _ _ PS) as (wl & gs & GR & NE & SH & _).
  assert (AL := PS). unfold prepare_stage in AL. cbn [P.stage_of sg_wl] in AL.
  destruct (lab_cfg _ _ _ _ _ _ _ _ _ _ _ AL GR _ _ _ I) as (cg & X & Y1 & _ & Y2 & _).
  rewrite NW in GR. cbn [map] in GR. destruct (GroupProofs.auto_workload (P.trxset_of (P.pe_lid Pe) set)) as (wl' & gs' & G' & _ & _ & FA & _).
  rewrite GR in G'. injection G' as <- <-. unfold cg_at in X. destruct (nth_error gs e) as [refs|]; [|discriminate]. destruct (nth_error refs g) as [r|]; [|discriminate].
  apply nth_error_In in X. rewrite Forall_forall in FA. destruct (FA cg X) as [_ [(t & nm & -> & _)|(nm & Q & _)]].
  - rewrite Y1, Y2. split; reflexivity.
  - rewrite Y1, Y2, Q. split; reflexivity.
Qed.

(** The runtimes that ended a context. *)
Lemma no_ctx V c out acts (st : wst V) tr e i g cl : whole_run c out (whole_init out) acts = Some (st, tr) -> client_is out e i g cl ->
  (G.s_elapsed (w_stage st) = false \/ C.s_runtime c = "") -> G.s_stopped (w_stage st) = false ->
  (forall grp, group_at c out e g grp -> C.g_runtime grp = "") -> ctx_done out st (e, i) = false.
Proof.
  intros R CI EL ST RT. pose proof (cinv_run _ _ _ _ _ R) as [X1 X2 _]. destruct (client_labelled _ _ _ _ _ CI) as (_ & LB).
  unfold ctx_done. rewrite LB, ST, orb_false_r.
  assert (E0 : G.s_elapsed (w_stage st) = false).
  { destruct EL as [EL|EL]; [exact EL|]. destruct (G.s_elapsed (w_stage st)); [destruct (X1 eq_refl EL)|reflexivity]. }
  rewrite E0. cbn [orb]. destruct (w_over st e g) eqn:O; [|reflexivity]. exfalso. specialize (X2 _ _ O). unfold runtime_of in X2.
  destruct (nth_error out e) as [css|]; [|discriminate]. destruct (nth_error css g); [|discriminate].
  destruct (nth_error (C.s_workload c) _) as [grp|] eqn:Q; [|discriminate]. rewrite (RT grp Q) in X2. discriminate.
Qed.
(** A client that returned without an error while its context was not done reached a limit. *)
Lemma limit_reached V c out acts (st : wst V) tr e i s : whole_run c out (whole_init out) acts = Some (st, tr) ->
  ctx_done out st (e, i) = false -> In (WC (e, i) (EvDone s None)) tr -> In (WC (e, i) (EvDone StopLimit None)) tr.
Proof. intros R CD I. destruct (x_done _ _ _ _ (cinv_run _ _ _ _ _ R) _ _ I) as [X|X]; [congruence|now subst]. Qed.

(** The part of a client's events up to its return is all of them. *)
Lemma done_by_prefix V c out acts (st : wst V) tr t1 t2 x s r : whole_run c out (whole_init out) acts = Some (st, tr) -> valid out x ->
  tr = t1 ++ t2 -> In (WC x (EvDone s r)) t1 -> done_by x t1 = done_by x tr.
Proof.
  intros R VC -> I. rewrite done_by_app. pose proof (winv_run _ _ _ _ _ R) as W. destruct (w_sched _ _ _ W) as (sched & LR).
  destruct (labelled_idx _ _ VC) as (g & cl & LB). assert (LB' : nth_error (map snd (labelled out)) (idx out x) = Some cl) by now rewrite nth_error_map, LB.
  destruct (loop_has _ _ _ _ _ _ LR LB') as (k & K & KC). destruct (loop_client _ _ _ _ _ _ LR K) as (_ & (inps & CR) & _).
  rewrite (same_events _ _ _ _ W VC), done_by_app in CR. pose proof (ClientConnProofs.done_run _ _ _ _ _ CR) as D.
  apply in_done_by in I.
  assert (T : forall (l a b : list (event V)) s0, a ++ b = l ++ [EvDone s0 (reported s0)] -> filter is_done l = [] -> In (EvDone s r) a -> b = []).
  { clear. induction l as [|y l IH]; intros a b s0 Q F I.
    - destruct a as [|z a]; [destruct I|]. cbn in Q. injection Q as _ Q. apply app_eq_nil in Q. tauto.
    - destruct a as [|z a]; [destruct I|]. cbn in Q. injection Q as -> Q. destruct I as [->|I].
      + cbn in F. discriminate.
      + cbn in F. destruct (is_done y); [discriminate|]. eapply IH; eauto. }
  destruct (l_pc k); cbn in D; try (exfalso; eapply ClientConnProofs.done_not_in; [exact D|apply in_or_app; left; exact I]).
  destruct D as (l & s0 & Q & F). rewrite (T _ _ _ _ Q F I), app_nil_r. reflexivity.
Qed.

(** A stage without a workload has one client per exec group and runs its trx in the order of the file, the trx with DDL by clients of their
    own.  While it is not disturbed, when a client acts, the earlier ones have returned; and such a client of a trx with DDL has executed the
    queries of that trx, each once and in order, unless one failed, it reported an error or it stopped because of a data limit. *)
Theorem C128_default : forall V E bases fs kvs dsn db Pe a c set out acts (st : wst V) tr,
  configured E bases fs kvs dsn db Pe a c set out -> C.s_workload c = [] -> NoDup (map C.x_name (C.s_trx c)) ->
  whole_run c out (whole_init out) acts = Some (st, tr) -> undisturbed st ->
  exists parts, concat parts = map C.x_name (C.s_trx c) /\ length out = length parts /\
    (forall e trxs, nth_error parts e = Some trxs -> (exists cl, client_is out e 0 0 cl) /\
       ((exists t, trxs = [t]) \/ Forall (fun t => PipeProps.ddl_trx set t = false) trxs)) /\
    (forall e i g cl, client_is out e i g cl -> i = 0%nat) /\
    forall e trxs cl t1 e' ev t2, nth_error parts e = Some trxs -> client_is out e 0 0 cl ->
      tr = t1 ++ WC (e', 0%nat) ev :: t2 -> (e < e')%nat ->
      (exists s r, In (EvDone s r) (done_by (e, 0%nat) t1)) /\ done_by (e, 0%nat) t2 = [] /\
      (existsb (PipeProps.ddl_trx set) trxs = true -> no_data_limit cl -> no_failure (done_by (e, 0%nat) t1) ->
       (forall s r, In (EvDone s r) (done_by (e, 0%nat) t1) -> r = None) ->
       exists qs, file_queries Pe c trxs [qs] /\ executed cl (done_by (e, 0%nat) t1) = qs).
Proof.
  intros V E bases fs kvs dsn db Pe a c set out acts st tr CF NW ND R U.
  pose proof CF as (cs & l & w & outs & L & D & H & PR & Ha & Ho).
  destruct (PipeProps.stage_facts _ _ _ _ _ _ _ _ _ _ _ a c set out L D H PR Ha Ho) as (keys0 & w1 & w2 & TN & NK & LS & PS & IN & NA).
  destruct (PipeRunProofs.default_clients Pe c keys0 set LS NK TN _ _ _ PS NW) as (parts & CAT & LEN & Q1 & _ & CL).
  assert (DD : forall t, ts_ddl (P.trxset_of (P.pe_lid Pe) set) t = PipeProps.ddl_trx set t).
  { intros t. unfold PipeProps.ddl_trx. cbn. destruct (C.sget t (T.t_ddl set)) as [[]|]; reflexivity. }
  assert (ONE : forall e css, nth_error out e = Some css -> exists cl, css = [[cl]]).
  { intros e css He. destruct (nth_error parts e) as [trxs|] eqn:Pt.
    2:{ apply nth_error_None in Pt. rewrite <- LEN in Pt. apply nth_error_None in Pt. congruence. }
    destruct (CL e css trxs He Pt) as (cl & cg & X & _). eauto. }
  exists parts. split; [exact CAT|]. split; [exact LEN|]. split; [|split].
  - intros e trxs Pt. destruct (nth_error out e) as [css|] eqn:He.
    2:{ apply nth_error_None in He. rewrite LEN in He. apply nth_error_None in He. congruence. }
    destruct (ONE e css He) as (cl & ->). split; [exists cl; exists [[cl]]; split; [exact He|reflexivity]|].
    destruct (Q1 e trxs Pt) as (_ & [(t & T1 & _)|F]); [left; eauto|right]. rewrite Forall_forall in *. intros t Ht. rewrite <- DD. auto.
  - intros e i g cl (css & He & X). destruct (ONE e css He) as (cl' & ->). cbn in X. destruct i as [|i]; [reflexivity|]. destruct i; discriminate.
  - intros e trxs cl t1 e' ev t2 Pt CI TR LT.
    destruct (client_labelled _ _ _ _ _ CI) as (VC & LB).
    pose proof (winv_run _ _ _ _ _ R) as W. pose proof (w_order _ _ _ W U) as OR.
    destruct (OR _ _ _ _ TR) as (_ & B). destruct (B e 0%nat LT VC) as (s & r & DN). apply in_done_by in DN.
    split; [eauto|]. split.
    { destruct (done_by (e, 0%nat) t2) as [|x xs] eqn:X; [reflexivity|exfalso].
      assert (I : In (WC (e, 0%nat) x) t2) by (apply in_done_by; rewrite X; now left). apply in_split in I as (l1 & l2 & ->).
      assert (TR' : tr = (t1 ++ WC (e', 0%nat) ev :: l1) ++ WC (e, 0%nat) x :: l2) by (rewrite TR, <- app_assoc; reflexivity).
      destruct (OR _ _ _ _ TR') as (A & _). assert (Z : In (WC (e', 0%nat) ev) (t1 ++ WC (e', 0%nat) ev :: l1)) by (apply in_or_app; right; now left). specialize (A _ _ Z). cbn in A. lia. }
    intros DDL DL NF NR. pose proof (NR _ _ DN) as ->. apply in_done_by in DN.
    rewrite (done_by_prefix _ _ _ _ _ _ _ _ _ _ _ R VC TR DN) in *.
    assert (DN' : In (WC (e, 0%nat) (EvDone s None)) tr) by (rewrite TR; apply in_or_app; now left).
    assert (CD : ctx_done out st (e, 0%nat) = false).
    { eapply no_ctx; [exact R|exact CI|left; exact (proj1 U)|exact (proj2 U)|]. intros grp Q. unfold group_at in Q. rewrite NW in Q. apply nth_error_In in Q; destruct Q. }
    pose proof (limit_reached _ _ _ _ _ _ _ _ _ R CD DN') as SL. apply in_done_by in SL. rewrite <- (same_events _ _ _ _ W VC) in *.
    destruct (w_sched _ _ _ W) as (sched & LR).
    assert (JC : nth_error (map snd (labelled out)) (idx out (e, 0%nat)) = Some cl) by (now rewrite nth_error_map, LB).
    destruct (loop_has _ _ _ _ _ _ LR JC) as (k & K & KC). destruct (sim_run _ _ _ _ LR) as (_ & ON & _).
    destruct (ON _ k K) as ((inps & CR) & LIM). rewrite KC in CR, LIM.
    destruct (default_counters _ _ _ _ _ _ _ _ _ _ _ _ _ _ CF NW (nth_error_In _ _ LB)) as (I1 & I2).
    assert (RL : reached_limit (events_of (idx out (e, 0%nat)) (numbered out tr))) by (exists None; exact SL).
    destruct (LIM DL I1 I2 RL) as (_ & RC).
    destruct (count_run cl _ _ _ _ CR) as (_ & EQ). destruct (EQ DL RL) as (_ & M). destruct (M NF) as (M1 & _).
    destruct (nth_error out e) as [css|] eqn:He; [|destruct CI as (? & X & _); congruence].
    destruct (CL e css trxs He Pt) as (cl' & cg & -> & (S1 & _ & _ & _ & _ & S2 & _) & S3 & _ & _ & S4).
    assert (cl' = cl) as ->. { destruct CI as (css & X & Y). rewrite He in X. injection X as <-. cbn in Y. congruence. }
    assert (EX : existsb (ts_ddl (P.trxset_of (P.pe_lid Pe) set)) trxs = true).
    { rewrite <- DDL. clear - DD. induction trxs as [|t ts IH]; [reflexivity|]. cbn [existsb]. now rewrite DD, IH. }
    rewrite EX in S4. rewrite S2, S4 in RC. rewrite RC in M1. change (N.to_nat 1) with 1%nat in M1.
    assert (SUB : incl trxs (map C.x_name (C.s_trx c))).
    { rewrite <- CAT. intros t Ht. apply in_concat. exists trxs. split; [eapply nth_error_In; eauto|exact Ht]. }
    destruct (names_queries _ _ _ _ _ _ _ _ _ _ _ trxs CF ND SUB) as (qss & FQ & TX).
    destruct (Q1 e trxs Pt) as (_ & Q2).
    assert (T1 : exists t, trxs = [t]).
    { destruct Q2 as [(t & -> & _)|F]; [eauto|exfalso]. apply existsb_exists in EX as (t & E1 & E2). rewrite Forall_forall in F. rewrite (F t E1) in E2. discriminate. }
    destruct T1 as (t & ->). inversion FQ as [|? q ? qs' F1 F2]; subst. inversion F2; subst.
    exists q. split; [exact FQ|].
    rewrite (executed_repeat _ _ _ M1). cbn [repeat concat]. rewrite S1, S3, TX. cbn [concat]. now rewrite !app_nil_r.
Qed.
Print Assumptions C128_default.

(** ** C129: the whole run *)

(** A client that returned without an error though no runtime elapsed and finch was not stopped. *)
Lemma by_limit V E bases fs kvs dsn db Pe a c set out acts (st : wst V) tr e i g cl grp : configured E bases fs kvs dsn db Pe a c set out ->
  whole_run c out (whole_init out) acts = Some (st, tr) -> returned st -> undisturbed st ->
  client_is out e i g cl -> group_at c out e g grp -> C.g_runtime grp = "" ->
  (forall s r, In (EvDone s r) (done_by (e, i) tr) -> r = None) ->
  reached_limit (events_of (idx out (e, i)) (numbered out tr)).
Proof.
  intros CF R RT U CI G RG NR. destruct (client_labelled _ _ _ _ _ CI) as (VC & LB). pose proof (winv_run _ _ _ _ _ R) as W.
  destruct (all_done _ _ _ W RT U _ VC) as (s & DN). pose proof DN as DN1. apply in_done_by in DN1. pose proof (NR _ _ DN1) as Z. rewrite Z in DN.
  assert (CD : ctx_done out st (e, i) = false).
  { eapply no_ctx; [exact R|exact CI|left; exact (proj1 U)|exact (proj2 U)|]. intros grp' Q. unfold group_at in *. congruence. }
  pose proof (limit_reached _ _ _ _ _ _ _ _ _ R CD DN) as SL. apply in_done_by in SL. exists None. now rewrite (same_events _ _ _ _ W VC).
Qed.

(** When Stage.Run has returned and finch was not stopped, a client of a group with only the limit iter N, which did not fail, has
    executed N times the queries of its trx files in order, and nothing else. *)
Theorem C129_iter : forall V E bases fs kvs dsn db Pe a c set out acts (st : wst V) tr e i g cl grp n,
  configured E bases fs kvs dsn db Pe a c set out ->
  whole_run c out (whole_init out) acts = Some (st, tr) -> returned st -> undisturbed st ->
  client_is out e i g cl -> group_at c out e g grp ->
  CS.decimal (C.g_iter grp) n -> n <> 0%N -> unset (C.g_iter_c grp) -> unset (C.g_iter_x grp) -> C.g_runtime grp = "" -> no_data_limit cl ->
  (exists s r, In (EvDone s r) (done_by (e, i) tr)) /\
  ((forall s r, In (EvDone s r) (done_by (e, i) tr) -> r = None) ->
   (queries cl <> [] -> starts cl (done_by (e, i) tr) = n) /\
   (no_failure (done_by (e, i) tr) -> NoDup (map C.x_name (C.s_trx c)) ->
    exists qss, file_queries Pe c (trx_names c grp) qss /\ executed cl (done_by (e, i) tr) = concat (repeat (concat qss) (N.to_nat n)))).
Proof.
  intros V E bases fs kvs dsn db Pe a c set out acts st tr e i g cl grp n CF R RT U CI G DN NZ U1 U2 RG DL.
  destruct (client_labelled _ _ _ _ _ CI) as (VC & LB). pose proof (winv_run _ _ _ _ _ R) as W. destruct (w_sched _ _ _ W) as (sched & LR).
  split.
  - destruct (all_done _ _ _ W RT U _ VC) as (s & X). apply in_done_by in X. eauto.
  - intros NR. pose proof (by_limit _ _ _ _ _ _ _ _ _ _ _ _ _ _ _ _ _ _ _ _ CF R RT U CI G RG NR) as RL.
    destruct (C115_iter _ _ _ _ _ _ _ _ _ _ _ _ _ _ _ _ _ _ _ _ _ CF LR LB G DN NZ) as (_ & X). destruct (X U1 U2 DL RL) as (A & B).
    rewrite (same_events _ _ _ _ W VC) in *. split; [exact A|]. intros NF ND. exact (proj2 (B NF) ND).
Qed.
Print Assumptions C129_iter.

(** The same for a group with only the limit iter-clients N: its clients together have executed their first query N times and, if
    none failed, every query. *)
Theorem C129_iter_clients : forall V E bases fs kvs dsn db Pe a c set out acts (st : wst V) tr e g css cls grp n,
  configured E bases fs kvs dsn db Pe a c set out ->
  whole_run c out (whole_init out) acts = Some (st, tr) -> returned st -> undisturbed st ->
  nth_error out e = Some css -> nth_error css g = Some cls -> group_at c out e g grp ->
  CS.decimal (C.g_iter_c grp) n -> n <> 0%N -> (n + N.of_nat (length cls) < 2 ^ 32)%N ->
  unset (C.g_iter grp) -> unset (C.g_iter_x grp) -> C.g_runtime grp = "" -> existsb (PipeProps.ddl_trx set) (trx_names c grp) = false ->
  (forall i cl, client_is out e i g cl -> no_data_limit cl /\ forall s r, In (EvDone s r) (done_by (e, i) tr) -> r = None) ->
  forall cl, In cl cls ->
    (forall q qs, queries cl = q :: qs -> total (one_group e g) (fun _ => times q) (labelled out) 0 (numbered out tr) = n) /\
    ((forall i cl', client_is out e i g cl' -> no_failure (done_by (e, i) tr)) ->
     forall q, In q (queries cl) -> total (one_group e g) (fun _ => times q) (labelled out) 0 (numbered out tr) = n).
Proof.
  intros V E bases fs kvs dsn db Pe a c set out acts st tr e g css cls grp n CF R RT U He Hg G DN NZ FIT U1 U2 RG DD NR cl Hc.
  pose proof (winv_run _ _ _ _ _ R) as W. destruct (w_sched _ _ _ W) as (sched & LR).
  destruct (C116_iter_clients _ _ _ _ _ _ _ _ _ _ _ _ _ _ _ _ _ _ _ _ _ CF LR He Hg G DN NZ FIT) as (_ & X).
  destruct (X U1 U2 DD) with (cl := cl) as (A & B); [|exact Hc|].
  - intros j cl' J. destruct (labelled_is _ _ _ _ _ J) as (i & CI & <-). destruct (NR i cl' CI) as (DL & NR'). split; [exact DL|].
    exact (by_limit _ _ _ _ _ _ _ _ _ _ _ _ _ _ _ _ _ _ _ _ CF R RT U CI G RG NR').
  - split; [exact A|]. intros NF. apply B. intros j cl' J. destruct (labelled_is _ _ _ _ _ J) as (i & CI & <-).
    destruct (client_labelled _ _ _ _ _ CI) as (VC & _). rewrite (same_events _ _ _ _ W VC). eauto.
Qed.
Print Assumptions C129_iter_clients.

(** A client group has a limit of iterations. *)
Definition bounded (c : C.stage) (set : T.tset) (out : list (list (list client))) (e g : nat) (grp : C.cgroup) : Prop :=
  (exists n, CS.decimal (C.g_iter grp) n /\ n <> 0%N) \/ existsb (PipeProps.ddl_trx set) (trx_names c grp) = true \/
  (exists n css cls, nth_error out e = Some css /\ nth_error css g = Some cls /\
     CS.decimal (C.g_iter_c grp) n /\ n <> 0%N /\ (n + N.of_nat (length cls) < 2 ^ 32)%N) \/
  (exists n css, nth_error out e = Some css /\ CS.decimal (C.g_iter_x grp) n /\ n <> 0%N /\
     forall g' cls' grp', nth_error css g' = Some cls' -> group_at c out e g' grp' ->
       unset (C.g_iter_x grp') \/ exists m, CS.decimal (C.g_iter_x grp') m /\ (m + N.of_nat (length (concat css)) < 2 ^ 32)%N).

Lemma has_group E bases fs kvs dsn db Pe a c set out e css g cls : configured E bases fs kvs dsn db Pe a c set out -> C.s_workload c <> [] ->
  nth_error out e = Some css -> nth_error css g = Some cls -> exists grp, group_at c out e g grp.
Proof.
  intros CF NW He Hg.
  destruct (config_facts _ _ _ _ _ _ _ _ _ _ _ CF) as (ws & sn & wl0 & qn & tn & w1 & w2 & wl & gs & HA & HG & NE & SH & CG & AG & NUM).
  specialize (AG NW). unfold group_at.
  destruct (nth_error (C.s_workload c) _) as [grp|] eqn:Gp; [eauto|exfalso]. apply nth_error_None in Gp. rewrite <- AG in Gp.
  assert (g < length css)%nat by (apply nth_error_Some; congruence).
  pose proof (nth_error_split _ _ He) as (l1 & l2 & -> & L1). rewrite <- L1, firstn_app, firstn_all, Nat.sub_diag in Gp. cbn [firstn] in Gp.
  rewrite app_nil_r, map_app, list_sum_app in Gp. cbn [map] in Gp. unfold list_sum in Gp. cbn [fold_right] in Gp. lia.
Qed.

Lemma iterations_one sel : forall ls ks j e g cl x, length ks = length ls -> nth_error ls j = Some (e, g, cl) -> nth_error ks j = Some x ->
  sel e g = true -> (ic_n x <= iterations sel ls ks)%N.
Proof.
  induction ls as [|[[e' g'] c'] ls IH]; intros [|k ks] [|j] e g cl x L J X S; try discriminate; cbn in J, X, L |- *.
  - injection J as -> -> ->. injection X as ->. rewrite S. lia.
  - specialize (IH ks j e g cl x ltac:(lia) J X S). lia.
Qed.

Lemma bound_one E bases fs kvs dsn db Pe a c set out j e g cl grp : configured E bases fs kvs dsn db Pe a c set out ->
  nth_error (labelled out) j = Some (e, g, cl) -> group_at c out e g grp -> bounded c set out e g grp ->
  exists n, forall isched ist x, clients_run out isched = Some ist -> length (is_cls ist) = length (labelled out) ->
    nth_error (is_cls ist) j = Some x -> ic_c x = cl -> (ic_n x <= n)%N.
Proof.
  intros CF J G B. destruct (labelled_at _ _ _ _ _ J) as (css & cls & He & Hg & Hc).
  destruct (config_facts _ _ _ _ _ _ _ _ _ _ _ CF) as (ws & sn & wl0 & qn & tn & w1 & w2 & wl & gs & HA & HG & NE & SH & CG & AG & NUM).
  destruct (CG e css g cls grp He Hg G) as (name & X & _). destruct (NUM grp (nth_error_In _ _ G)) as (N1 & N2 & N3).
  pose proof (nth_error_In _ _ J) as JI.
  pose proof (lab_iter _ _ _ _ _ _ _ _ _ _ _ HA HG _ _ _ _ NE JI X) as CI. cbn [cg_with cg_iter] in CI.
  assert (OWN : (0 < c_iter cl)%N -> exists n, forall isched ist x, clients_run out isched = Some ist -> length (is_cls ist) = length (labelled out) ->
    nth_error (is_cls ist) j = Some x -> ic_c x = cl -> (ic_n x <= n)%N).
  { intros P. exists (c_iter cl). intros isched ist x IR _ IX IC. pose proof (own_limit _ _ _ IR) as OL. rewrite Forall_forall in OL.
    specialize (OL x (nth_error_In _ _ IX)). rewrite IC in OL. auto. }
  destruct B as [(n & DN & NZ)|[DD|[(n & css' & cls' & He' & Hg' & DN & NZ & FIT)|(n & css' & He' & DN & NZ & ALL)]]].
  - apply OWN. rewrite CI. pose proof (decimal_fits _ _ N1 DN) as LT.
    assert (U : P.uint (C.g_iter grp) = n) by (apply PipeProps.uint_decimal; [exact DN|lia]). rewrite U.
    destruct (N.eqb_spec n 0) as [Z|_]; [congruence|]. rewrite andb_false_r. lia.
  - apply OWN. rewrite CI, DD. cbn [andb]. destruct (N.eqb_spec (P.uint (C.g_iter grp)) 0); lia.
  - rewrite He in He'. injection He' as <-. rewrite Hg in Hg'. injection Hg' as <-. exists n. intros isched ist x IR LEN IX IC.
    assert (U : P.uint (C.g_iter_c grp) = n) by (apply PipeProps.uint_decimal; [exact DN|lia]).
    match type of X with _ = Some ?y => set (cg := y) in X end.
    assert (Y : cg_iterClients cg = n) by exact U.
    rewrite <- (clients_of_group _ _ _ _ _ He Hg) in FIT.
    etransitivity; [apply (iterations_one (one_group e g) _ _ _ _ _ _ _ LEN J IX); unfold one_group; now rewrite !Nat.eqb_refl|].
    rewrite <- Y. apply (clients_limit _ _ _ _ _ _ _ _ _ _ _ HA HG _ _ _ isched _ X); rewrite ?Y; auto. lia.
  - rewrite He in He'. injection He' as <-. exists n. intros isched ist x IR LEN IX IC.
    assert (FN : (n + N.of_nat (length (concat css)) < 2 ^ 32)%N).
    { destruct (ALL g cls grp Hg G) as [[Z|Z]|(m & Z & LT)].
      - rewrite Z in DN. now apply PipeProps.decimal_ne in DN.
      - destruct NZ. exact (PipeProps.decimal_fun _ _ _ DN Z).
      - now rewrite (PipeProps.decimal_fun _ _ _ DN Z). }
    assert (U : P.uint (C.g_iter_x grp) = n) by (apply PipeProps.uint_decimal; [exact DN|lia]).
    etransitivity; [apply (iterations_one (limited wl gs e n) _ _ _ _ _ _ _ LEN J IX)|].
    + unfold limited. rewrite Nat.eqb_refl, X. cbn [cg_with cg_iterExecGroup P.cgcfg_of andb]. rewrite U.
      replace (0 <? n)%N with true by (symmetry; apply N.ltb_lt; lia). now rewrite N.leb_refl.
    + apply (eg_limit _ _ _ _ _ _ _ _ _ _ _ HA HG e n (2 ^ 32 - 1 - N.of_nat (length (concat css)))%N isched _); [| |exact IR].
      * intros g' cg' X'. assert (XX := X'). unfold cg_at in X'. destruct (nth_error gs e) as [refs|] eqn:Ge; [|discriminate].
        destruct (nth_error refs g') as [r|] eqn:Gr; [|discriminate].
        assert (LE : length css = length refs).
        { assert (Z : nth_error (map (@length _) out) e = nth_error (map (@length _) gs) e) by now rewrite SH.
          rewrite !nth_error_map, He, Ge in Z. cbn in Z. congruence. }
        destruct (nth_error css g') as [cls'|] eqn:Hg'.
        2:{ apply nth_error_None in Hg'. assert (g' < length refs)%nat by (apply nth_error_Some; congruence). lia. }
        assert (NW : C.s_workload c <> []) by (intros Z; unfold group_at in G; rewrite Z in G; apply nth_error_In in G; destruct G).
        destruct (has_group _ _ _ _ _ _ _ _ _ _ _ _ _ _ _ CF NW He Hg') as (grp' & G').
        destruct (CG e css g' cls' grp' He Hg' G') as (name' & Y & _). rewrite XX in Y. injection Y as ->. cbn [cg_with cg_iterExecGroup P.cgcfg_of].
        destruct (ALL g' cls' grp' Hg' G') as [Z|(m & Z & LT)]; [rewrite (unset_uint _ Z); lia|].
        rewrite (PipeProps.uint_decimal _ _ Z) by lia. lia.
      * rewrite (clients_of_exec_group _ _ _ He). lia.
Qed.

Lemma uniform (P : nat -> N -> Prop) : (forall j n m, P j n -> (n <= m)%N -> P j m) ->
  forall L, (forall j, (j < L)%nat -> exists n, P j n) -> exists n, forall j, (j < L)%nat -> P j n.
Proof.
  intros M. induction L as [|L IH]; intros H; [exists 0%N; intros; lia|].
  destruct IH as (n & A); [intros; apply H; lia|]. destruct (H L) as (m & B); [lia|]. exists (N.max n m). intros j J.
  destruct (Nat.eq_dec j L) as [->|]; [eapply M; [exact B|lia]|eapply M; [apply A; lia|lia]].
Qed.

(** If every client group of a workload has a limit of iterations, the stage takes a bounded number of steps whatever happens, and as
    long as Stage.Run has not returned, there is a next step other than the end of a context. *)
Theorem C129_ends : forall V E bases fs kvs dsn db Pe a c set out,
  configured E bases fs kvs dsn db Pe a c set out -> C.s_workload c <> [] ->
  (forall e css g cls grp, nth_error out e = Some css -> nth_error css g = Some cls -> group_at c out e g grp -> bounded c set out e g grp) ->
  exists B, forall acts (st : wst V) tr, whole_run c out (whole_init out) acts = Some (st, tr) ->
    (length acts <= B)%nat /\
    (returned st \/
     exists act st' es, whole_step c out st act = Some (st', es) /\
       act <> WStage G.AElapse /\ act <> WStage G.AStop /\ forall e g, act <> WOver e g).
Proof.
  intros V E bases fs kvs dsn db Pe a c set out CF NW BD.
  destruct (uniform (fun j n => forall isched ist x cl e g, clients_run out isched = Some ist -> length (is_cls ist) = length (labelled out) ->
    nth_error (labelled out) j = Some (e, g, cl) -> nth_error (is_cls ist) j = Some x -> ic_c x = cl -> (ic_n x <= n)%N)) with (L := length (labelled out)) as (n & N).
  { intros j n m H L isched ist x cl e g A B D F K. specialize (H _ _ _ _ _ _ A B D F K). lia. }
  { intros j LT. destruct (nth_error (labelled out) j) as [[[e g] cl]|] eqn:J; [|apply nth_error_None in J; lia].
    destruct (labelled_at _ _ _ _ _ J) as (css & cls & He & Hg & Hc). destruct (has_group _ _ _ _ _ _ _ _ _ _ _ _ _ _ _ CF NW He Hg) as (grp & G).
    destruct (bound_one _ _ _ _ _ _ _ _ _ _ _ _ _ _ _ _ CF J G (BD _ _ _ _ _ He Hg G)) as (n & H). exists n.
    intros isched ist x cl' e' g' A B D F K. injection D as <- <- <-. eauto. }
  exists (max_steps out (N.to_nat n)). intros acts st tr R. split.
  - apply (steps_bound c out acts st tr _ R). intros j k K.
    pose proof (winv_run _ _ _ _ _ R) as W. destruct (w_sched _ _ _ W) as (sched & LR).
    destruct (sim_run _ _ _ _ LR) as (MC & ONE & isched & ist & IR & _ & LEN & SAME & _).
    assert (LL : length (l_cls (w_loop st)) = length (labelled out)) by (rewrite <- (map_length l_c), MC; apply map_length).
    assert (JL : (j < length (labelled out))%nat) by (rewrite <- LL; apply nth_error_Some; congruence).
    destruct (nth_error (labelled out) j) as [[[e g] cl]|] eqn:J; [|apply nth_error_None in J; lia].
    destruct (nth_error (is_cls ist) j) as [x|] eqn:IX; [|apply nth_error_None in IX; lia].
    destruct (SAME j k x K IX) as (S1 & S2 & _).
    assert (KC : l_c k = cl).
    { assert (Z : nth_error (map l_c (l_cls (w_loop st))) j = Some (l_c k)) by (now rewrite nth_error_map, K). rewrite MC, nth_error_map, J in Z. cbn in Z. congruence. }
    assert (Z : (ic_n x <= n)%N) by (eapply (N j JL); [exact IR|congruence|exact J|exact IX|congruence]). lia.
  - destruct (G.s_pc (w_stage st)) eqn:P; try (right; apply (whole_goes_on c out st tr (winv_run _ _ _ _ _ R)); congruence). left. exact P.
Qed.
Print Assumptions C129_ends.

(* ------------------------------------------------------------------------------------ *)
Module ExW.
  (** Stage.Run goes on if it can, else the next client that runs; [fail t]: a query executed in step [t] fails. *)
  Definition pick (c : C.stage) (out : list (list (list client))) (f : bool) (t : nat) (st : wst Z) : option (waction Z) :=
    match G.step (sizes out) (w_stage st) (G.AStage false) with
    | Some _ => Some (WStage (G.AStage false))
    | None =>
      match G.s_send (w_stage st) with
      | x :: _ => Some (WStage (G.ASend x))
      | [] =>
        match nth_error (G.s_run (w_stage st)) (Nat.modulo t (length (G.s_run (w_stage st)))) with
        | Some x => if client_returned out st x then Some (WStage (G.AFinish x))
                    else match nth_error (l_cls (w_loop st)) (idx out x) with
                         | Some k => Some (WClient x (ExL.next k f))
                         | None => None end
        | None => None
        end
      end
    end.
  Fixpoint drive (c : C.stage) (out : list (list (list client))) (fail : nat -> bool) (t n : nat) (st : wst Z) : list (waction Z) :=
    match n with
    | O => []
    | S n' =>
      match pick c out (fail t) t st with
      | Some a => match whole_step c out st a with
                  | Some (st', _) => a :: drive c out fail (S t) n' st'
                  | None => [] end
      | None => []
      end
    end.
  Definition conf : C.stage := match C.load ExL.E ConfigProps.no_base [ConfigProps.file (PipeProps.stage1 "s" ExL.xs ExL.gs)] [] "" "" with
    | Some (c :: _) => c | _ => PipeProps.stage1 "" [] [] end.
  Definition acts := drive conf ExL.out (fun _ => false) 0 400 (whole_init ExL.out).

  Definition xs : list C.trx := [C.Trx "m" "make.sql" []; C.Trx "r" "read.sql" [("d", PipeProps.d_int "")]; C.Trx "i" "insert.sql" [("d", PipeProps.d_int "")]].
  Definition files (f : string) : option (list string) :=
    if String.eqb f "make.sql" then Some ["DROP TABLE t"; ""; "CREATE TABLE t (c int)"; ""; "-- idle: 5s"; "SELECT 1"; ""; "INSERT INTO t VALUES (1)"] else PipeProps.files1 f.
  Definition conf2 : C.stage := match C.load ExL.E ConfigProps.no_base [ConfigProps.file (PipeProps.stage1 "s" xs [])] [] "" "" with
    | Some (c :: _) => c | _ => PipeProps.stage1 "" [] [] end.
  Definition out2 := match P.load_stages (PipeProps.P1 files) [conf2] [] with
    | Some l => match P.prepare_run (PipeProps.P1 files) l with Some (_, [o]) => o | _ => [] end
    | None => [] end.
  Definition acts2 := drive conf2 out2 (fun _ => false) 0 60 (whole_init out2).
  (** the trace around the first event of a client *)
  Fixpoint cut (x : G.client) (tr : list (wevent Z)) : option (list (wevent Z) * event Z * list (wevent Z)) :=
    match tr with
    | [] => None
    | WC y ev :: t => if G.client_eqb x y then Some ([], ev, t) else match cut x t with Some (a, e, b) => Some (WC y ev :: a, e, b) | None => None end
    | w :: t => match cut x t with Some (a, e, b) => Some (w :: a, e, b) | None => None end
    end.
  Lemma cut_ok x : forall tr t1 ev t2, cut x tr = Some (t1, ev, t2) -> tr = t1 ++ WC x ev :: t2.
  Proof.
    induction tr as [|[w|y e] tr IH]; intros t1 ev t2 H; cbn in H; [discriminate| |].
    - destruct (cut x tr) as [[[a b] d]|]; [|discriminate]. injection H as <- <- <-. now rewrite (IH _ _ _ eq_refl).
    - destruct (G.client_eqb x y) eqn:E.
      + apply StageProps.client_eqb_eq in E. subst. now injection H as <- <- <-.
      + destruct (cut x tr) as [[[a b] d]|]; [|discriminate]. injection H as <- <- <-. now rewrite (IH _ _ _ eq_refl).
  Qed.
  Definition no_error (evs : list (event Z)) : bool := forallb (fun e => match e with EvDone _ (Some _) => false | _ => true end) evs.
  Lemma no_error_ok evs : no_error evs = true -> forall s r, In (EvDone s r) evs -> r = None.
  Proof. intros H s r I. unfold no_error in H. rewrite forallb_forall in H. specialize (H _ I). cbn in H. now destruct r. Qed.
End ExW.

Ltac config_ok := do 4 eexists; split; [vm_compute; reflexivity|]; split; [repeat constructor|]; split; [vm_compute; reflexivity|];
  split; [vm_compute; reflexivity|]; split; reflexivity.

(** The clients of group a are done before a client of group b connects. *)
Example C128_example : exists c set grp grp' cl cl' st tr t1 ev t2,
  configured ExL.E ConfigProps.no_base [ConfigProps.file (PipeProps.stage1 "s" ExL.xs ExL.gs)] [] "" "" (PipeProps.P1 ExL.files) 0 c set ExL.out /\
  whole_run c ExL.out (whole_init ExL.out) ExW.acts = Some (st, tr) /\ undisturbed st /\
  client_is ExL.out 0 4 1 cl /\ group_at c ExL.out 0 1 grp /\ client_is ExL.out 1 2 1 cl' /\ group_at c ExL.out 1 1 grp' /\
  (place ExL.out 0 1 < place ExL.out 1 1)%nat /\ separate c set grp grp' /\
  tr = t1 ++ WC (1, 2)%nat ev :: t2 /\ ev = EvConnect 0 /\ length (execs (done_by (0, 4)%nat t1)) = 3%nat.
Proof.
  do 11 eexists. split; [config_ok|]. split; [vm_compute; reflexivity|]. split; [split; reflexivity|].
  split; [eexists; split; vm_compute; reflexivity|]. split; [vm_compute; reflexivity|]. split; [eexists; split; vm_compute; reflexivity|]. split; [vm_compute; reflexivity|].
  split; [vm_compute; lia|]. split; [left; repeat split; discriminate|]. split; [eapply ExW.cut_ok; vm_compute; reflexivity|].
  split; vm_compute; reflexivity.
Qed.

(** A stage without a workload: the table is created before the other trx. *)
Example C128_default_example : exists c set cl st tr t1 ev t2,
  configured ExL.E ConfigProps.no_base [ConfigProps.file (PipeProps.stage1 "s" ExW.xs [])] [] "" "" (PipeProps.P1 ExW.files) 0 c set ExW.out2 /\
  C.s_workload c = [] /\ NoDup (map C.x_name (C.s_trx c)) /\
  whole_run c ExW.out2 (whole_init ExW.out2) ExW.acts2 = Some (st, tr) /\ undisturbed st /\
  client_is ExW.out2 0 0 0 cl /\ tr = t1 ++ WC (1, 0)%nat ev :: t2 /\
  PipeProps.ddl_trx set "m" = true /\ no_data_limit cl /\ no_failure (done_by (0, 0)%nat t1) /\
  (forall s r, In (EvDone s r) (done_by (0, 0)%nat t1) -> r = None) /\
  executed cl (done_by (0, 0)%nat t1) = ["DROP TABLE t"; "CREATE TABLE t (c int)"; "INSERT INTO t VALUES (1)"].
Proof.
  do 8 eexists. split; [config_ok|]. split; [reflexivity|]. split; [repeat constructor; cbn; intuition discriminate|].
  split; [vm_compute; reflexivity|]. split; [split; reflexivity|]. split; [eexists; split; vm_compute; reflexivity|].
  split; [eapply ExW.cut_ok; vm_compute; reflexivity|]. split; [reflexivity|]. split; [apply no_limit_in; reflexivity|].
  split; [apply no_failure_in; vm_compute; reflexivity|]. split; [apply ExW.no_error_ok; vm_compute; reflexivity|]. vm_compute; reflexivity.
Qed.

(** The stage of C115_example and C116_clients_example from its start to its end. *)
Example C129_example : exists c set grp cl st tr,
  configured ExL.E ConfigProps.no_base [ConfigProps.file (PipeProps.stage1 "s" ExL.xs ExL.gs)] [] "" "" (PipeProps.P1 ExL.files) 0 c set ExL.out /\
  whole_run c ExL.out (whole_init ExL.out) ExW.acts = Some (st, tr) /\ returned st /\ undisturbed st /\
  client_is ExL.out 0 1 0 cl /\ group_at c ExL.out 0 0 grp /\
  CS.decimal (C.g_iter grp) 3 /\ unset (C.g_iter_c grp) /\ unset (C.g_iter_x grp) /\ C.g_runtime grp = "" /\ no_data_limit cl /\
  (forall s r, In (EvDone s r) (done_by (0, 1)%nat tr) -> r = None) /\ queries cl <> [] /\
  no_failure (done_by (0, 1)%nat tr) /\ NoDup (map C.x_name (C.s_trx c)) /\
  executed cl (done_by (0, 1)%nat tr) =
    ["SELECT a FROM t WHERE d=%d"; "UPDATE t SET a=a+1"; "SELECT c FROM t WHERE d=%d";
     "SELECT a FROM t WHERE d=%d"; "UPDATE t SET a=a+1"; "SELECT c FROM t WHERE d=%d";
     "SELECT a FROM t WHERE d=%d"; "UPDATE t SET a=a+1"; "SELECT c FROM t WHERE d=%d"].
Proof.
  do 6 eexists. split; [config_ok|]. split; [vm_compute; reflexivity|]. split; [reflexivity|]. split; [split; reflexivity|].
  split; [eexists; split; vm_compute; reflexivity|]. split; [vm_compute; reflexivity|].
  split; [apply (decimal_one "3"); unfold CS.digit; vm_compute; lia|]. split; [now left|]. split; [now left|]. split; [reflexivity|].
  split; [apply no_limit_in; reflexivity|]. split; [apply ExW.no_error_ok; vm_compute; reflexivity|]. split; [discriminate|].
  split; [apply no_failure_in; vm_compute; reflexivity|]. split; [repeat constructor; cbn; intuition discriminate|]. vm_compute; reflexivity.
Qed.

Example C129_clients_example : exists c set grp css cls st tr,
  configured ExL.E ConfigProps.no_base [ConfigProps.file (PipeProps.stage1 "s" ExL.xs ExL.gs)] [] "" "" (PipeProps.P1 ExL.files) 0 c set ExL.out /\
  whole_run c ExL.out (whole_init ExL.out) ExW.acts = Some (st, tr) /\ returned st /\ undisturbed st /\
  nth_error ExL.out 0 = Some css /\ nth_error css 1 = Some cls /\ group_at c ExL.out 0 1 grp /\
  CS.decimal (C.g_iter_c grp) 5 /\ (5 + N.of_nat (length cls) < 2 ^ 32)%N /\ unset (C.g_iter grp) /\ unset (C.g_iter_x grp) /\
  C.g_runtime grp = "" /\ existsb (PipeProps.ddl_trx set) (trx_names c grp) = false /\
  (forall i cl, client_is ExL.out 0 i 1 cl -> no_data_limit cl /\ forall s r, In (EvDone s r) (done_by (0%nat, i) tr) -> r = None) /\
  (forall i cl, client_is ExL.out 0 i 1 cl -> no_failure (done_by (0%nat, i) tr)) /\
  map queries cls = [[0; 1; 3]; [0; 1; 3]; [0; 1; 3]]%nat /\
  map (fun q => total (one_group 0 1) (fun _ => times q) (labelled ExL.out) 0 (numbered ExL.out tr)) [0; 1; 2; 3]%nat = [5; 5; 0; 5]%N.
Proof.
  do 7 eexists. split; [config_ok|]. split; [vm_compute; reflexivity|]. split; [reflexivity|]. split; [split; reflexivity|].
  split; [vm_compute; reflexivity|]. split; [vm_compute; reflexivity|]. split; [vm_compute; reflexivity|].
  split; [apply (decimal_one "5"); unfold CS.digit; vm_compute; lia|]. split; [vm_compute; reflexivity|].
  split; [now left|]. split; [now left|]. split; [reflexivity|]. split; [reflexivity|]. split; [|split].
  - intros i cl (css & O & H). vm_compute in O. injection O as <-. vm_compute in H.
    do 5 (destruct i as [|i]; [first [discriminate|injection H as <-; split; [apply no_limit_in; reflexivity|apply ExW.no_error_ok; vm_compute; reflexivity]]|]).
    destruct i; discriminate.
  - intros i cl (css & O & H). vm_compute in O. injection O as <-. vm_compute in H.
    do 5 (destruct i as [|i]; [first [discriminate|injection H as <-; apply no_failure_in; vm_compute; reflexivity]|]). destruct i; discriminate.
  - split; vm_compute; reflexivity.
Qed.

Example C129_ends_example : exists c set,
  configured ExL.E ConfigProps.no_base [ConfigProps.file (PipeProps.stage1 "s" ExL.xs ExL.gs)] [] "" "" (PipeProps.P1 ExL.files) 0 c set ExL.out /\
  C.s_workload c <> [] /\
  (forall e css g cls grp, nth_error ExL.out e = Some css -> nth_error css g = Some cls -> group_at c ExL.out e g grp -> bounded c set ExL.out e g grp) /\
  exists st tr, whole_run c ExL.out (whole_init ExL.out) (firstn 100 ExW.acts) = Some (st, tr) /\ ~ returned st.
Proof.
  assert (D5 : CS.decimal "5" 5) by (apply (decimal_one "5"); unfold CS.digit; vm_compute; lia).
  assert (X : forall g' cls' grp', nth_error (nth 1 ExL.out []) g' = Some cls' -> group_at ExW.conf ExL.out 1 g' grp' ->
    unset (C.g_iter_x grp') \/ exists m, CS.decimal (C.g_iter_x grp') m /\ (m + N.of_nat (length (concat (nth 1 ExL.out []))) < 2 ^ 32)%N).
  { intros g' cls' grp' Hg' G'. unfold group_at in G'.
    assert (LG : (g' < length (nth 1 ExL.out []))%nat) by (apply nth_error_Some; rewrite Hg'; discriminate).
    change (length (nth 1 ExL.out [])) with 2%nat in LG.
    destruct g' as [|[|g']]; [| |exfalso; lia]; vm_compute in G'; injection G' as <-; right; exists 5%N; (split; [exact D5|vm_compute; reflexivity]). }
  exists ExW.conf. eexists. split; [config_ok|]. split; [discriminate|]. split.
  - intros e css g cls grp He Hg G. unfold group_at in G.
    assert (L : (e < 2)%nat) by (change 2%nat with (length ExL.out); apply nth_error_Some; rewrite He; discriminate).
    assert (LC : nth_error (map (@length _) ExL.out) e = Some (length css)) by (rewrite nth_error_map, He; reflexivity).
    assert (LG : (g < length css)%nat) by (apply nth_error_Some; rewrite Hg; discriminate).
    revert LC LG. generalize (length css) as m. intros m LC LG.
    destruct e as [|[|e]]; [| |exfalso; lia]; vm_compute in LC; injection LC as LC; destruct g as [|[|g]]; try (exfalso; lia); vm_compute in G; injection G as <-.
    + left. exists 3%N. split; [apply (decimal_one "3"); unfold CS.digit; vm_compute; lia|discriminate].
    + right. right. left. exists 5%N. do 2 eexists. split; [vm_compute; reflexivity|]. split; [vm_compute; reflexivity|].
      split; [exact D5|]. split; [discriminate|vm_compute; reflexivity].
    + right. right. right. exists 5%N, (nth 1 ExL.out []). split; [vm_compute; reflexivity|]. split; [exact D5|]. split; [discriminate|]. exact X.
    + right. right. right. exists 5%N, (nth 1 ExL.out []). split; [vm_compute; reflexivity|]. split; [exact D5|]. split; [discriminate|]. exact X.
  - do 2 eexists. split; [vm_compute; reflexivity|]. intros H. vm_compute in H. discriminate.
Qed.
