(** C142: clients that stop because of iteration limits have reached one of them. *)
From Verif Require Import Prelude ListAux ScopeModel StmtModel WorkloadModel WorkloadSpec ClientModel ClientSpec IterModel IterSpec IterProofs LoopModel LoopSpec LoopProofs LoopCountProofs LoopProps WholeModel WholeSpec WholeProofs WholeProps ProgModel ProgSpec ProgProofs ProgProps FinalSpec FinalProps BothProofs.
From Verif Require StageModel ConfigModel ConfigSpec ConfigProps PipeModel PipeProps.
#[local] Open Scope string_scope.
#[local] Open Scope list_scope.

(** When a run is over without CTRL-C and no client of a group with iter M and iter-clients N has failed for good, then each of them has begun M
    iterations, or all together at least N + 1 - K where K is their number.  (The claim C142 is that it is N.) *)
Theorem C142_partial : forall V E bases fs kvs dsn db Pe stages acts (st : pst V) tr i c set out e g css cls grp n m,
  prog_run stages prog_init acts = Some (st, tr) -> run_over stages st -> p_stop st = false ->
  nth_error stages i = Some (c, out) -> configured E bases fs kvs dsn db Pe i c set out -> C.s_runtime c = "" ->
  nth_error out e = Some css -> nth_error css g = Some cls -> group_at c out e g grp -> cls <> [] ->
  CS.decimal (C.g_iter_c grp) n -> n <> 0%N -> (n + N.of_nat (length cls) < 2 ^ 32)%N ->
  CS.decimal (C.g_iter grp) m -> m <> 0%N -> unset (C.g_iter_x grp) -> C.g_runtime grp = "" ->
  (forall k cl, client_is out e k g cl -> queries cl <> [] /\ no_data_limit cl /\ forall s r, In (i, WC (e, k) (EvDone s r)) tr -> r = None) ->
  (forall k cl, client_is out e k g cl -> starts cl (done_by (e, k) (of_stage i tr)) = m) \/
  (n + 1 <= total (one_group e g) starts (labelled out) 0 (numbered out (of_stage i tr)) + N.of_nat (length cls))%N.
Proof.
  intros V E bases fs kvs dsn db Pe stages acts st tr i c set out e g css cls grp n m R O P NS CF RT He Hg G NEc DN NZ FIT DM MZ U2 RG NR.
  destruct (over_all _ _ _ _ _ _ _ _ R O P NS) as (w & wacts & NW & RW & ST & WR). pose proof (calm _ _ _ _ _ WR ST RT) as U.
  pose proof (winv_run _ _ _ _ _ WR) as W. destruct (w_sched _ _ _ W) as (sched & LR).
  destruct (config_facts _ _ _ _ _ _ _ _ _ _ _ CF) as (ws & sn & wl0 & qn & tn & w1 & w2 & wl & gs & HA & HG & NE & SH & CG & _ & NUM).
  destruct (CG e css g cls grp He Hg G) as (name & X & _). destruct (NUM grp (nth_error_In _ _ G)) as (N1 & N2 & N3).
  assert (UC : P.uint (C.g_iter_c grp) = n) by (apply PipeProps.uint_decimal; [exact DN|lia]).
  pose proof (decimal_fits _ _ N1 DM) as LTM. assert (UI : P.uint (C.g_iter grp) = m) by (apply PipeProps.uint_decimal; [exact DM|lia]).
  rewrite UI in X. destruct (N.eqb_spec m 0) as [Z|_]; [congruence|]. rewrite andb_false_r in X.
  match type of X with _ = Some ?y => set (cg := y) in X end.
  assert (Y : cg_iterClients cg = n) by exact UC.
  assert (SEL : forall e' g', one_group e g e' g' = true -> e' = e /\ g' = g).
  { intros e' g' S. unfold one_group in S. apply andb_true_iff in S as [S1 S2]. apply Nat.eqb_eq in S1, S2. auto. }
  rewrite <- (clients_of_group _ _ _ _ _ He Hg) in FIT. rewrite <- (clients_of_group _ _ _ _ _ He Hg).
  destruct (as_iterations _ _ _ _ _ LR) as (isched & ist & IR & LEN & CL & UN).
  assert (AL : forall j cl, nth_error (labelled out) j = Some (e, g, cl) -> queries cl <> [] /\ no_data_limit cl /\ reached_limit (events_of j (numbered out (of_stage i tr)))).
  { intros j cl J. destruct (labelled_is _ _ _ _ _ J) as (k & CI & <-). destruct (NR k cl CI) as (Q & DL & NR'). split; [exact Q|]. split; [exact DL|].
    refine (by_limit _ _ _ _ _ _ _ _ _ _ _ _ _ _ _ _ _ _ _ _ CF WR RW U CI G RG _). intros s r I. apply in_done_by, in_of_stage in I. eauto. }
  destruct (clients_both _ _ _ _ _ _ _ _ _ _ _ HA HG e g cg isched ist X) as [A|A]; rewrite ?Y; auto.
  - lia.
  - exact (unset_uint _ U2).
  - destruct cls as [|cl l]; [congruence|]. exists cl. eapply at_labelled; eauto. now left.
  - apply UN. intros j e' g' c' J S. destruct (SEL _ _ S) as [-> ->]. destruct (AL j c' J) as (_ & DL & RL). auto.
  - intros j e' g' c' k J K S. destruct (SEL _ _ S) as [-> ->]. destruct (AL j c' J) as (_ & DL & RL). exact (proj1 (proj2 (CL j _ _ c' k J K) DL RL)).
  - left. intros k cl CI. destruct (client_labelled _ _ _ _ _ CI) as (VC & J). destruct (AL _ _ J) as (Q & DL & RL).
    destruct (nth_error (is_cls ist) (idx out (e, k))) as [x|] eqn:K.
    2:{ apply nth_error_None in K. rewrite LEN in K. apply nth_error_None in K. congruence. }
    destruct (proj2 (CL _ _ _ cl x J K) DL RL) as (_ & B & _). rewrite <- (same_events _ _ _ _ W VC), (B Q), (A _ _ _ J K).
    rewrite (lab_iter _ _ _ _ _ _ _ _ _ _ _ HA HG _ _ _ _ NE (nth_error_In _ _ J) X). reflexivity.
  - right. rewrite Y in A. rewrite (total_iterations (one_group e g) starts _ _ (is_cls ist) 0 LEN); [exact A|].
    intros j e' g' c' k J K S. cbn [Nat.add]. destruct (SEL _ _ S) as [-> ->]. destruct (AL j c' J) as (Q & DL & RL).
    exact (proj1 (proj2 (proj2 (CL j _ _ c' k J K) DL RL)) Q).
Qed.
Print Assumptions C142_partial.

Lemma number_cases s : ConfigProps.number_ok s -> (unset s /\ P.uint s = 0%N) \/ exists n, CS.decimal s n /\ n <> 0%N /\ P.uint s = n.
Proof.
  intros [->|(n & D & L)]; [left; split; [now left|reflexivity]|]. assert (U : P.uint s = n) by (apply PipeProps.uint_decimal; [exact D|lia]).
  destruct (N.eq_dec n 0) as [->|NZ]; [left; split; [now right|exact U]|eauto].
Qed.

(** The same for any combination of the three limits: when a run is over without CTRL-C and no client of an execution group has failed for good, each of them
    has begun as many iterations as its iter (one if it only has a DDL trx), or the clients of its group at least N + 1 - K for their iter-clients N and number K,
    or those of the execution group at least N + 1 - K for the client's iter-exec-group N and their number K. *)
Theorem C142_limits_partial : forall V E bases fs kvs dsn db Pe stages acts (st : pst V) tr i c set out e css x,
  prog_run stages prog_init acts = Some (st, tr) -> run_over stages st -> p_stop st = false ->
  nth_error stages i = Some (c, out) -> configured E bases fs kvs dsn db Pe i c set out -> C.s_runtime c = "" -> C.s_workload c <> [] ->
  nth_error out e = Some css -> (x + N.of_nat (length (concat css)) < 2 ^ 32)%N ->
  (forall g cls grp, nth_error css g = Some cls -> group_at c out e g grp -> C.g_runtime grp = "" /\
     (forall n, CS.decimal (C.g_iter_c grp) n -> (n + N.of_nat (length cls) < 2 ^ 32)%N) /\ (forall n, CS.decimal (C.g_iter_x grp) n -> (n <= x)%N)) ->
  (forall k g cl, client_is out e k g cl -> queries cl <> [] /\ no_data_limit cl /\ forall s r, In (i, WC (e, k) (EvDone s r)) tr -> r = None) ->
  forall k g cl cls grp, client_is out e k g cl -> nth_error css g = Some cls -> group_at c out e g grp ->
  (exists m, CS.decimal (C.g_iter grp) m /\ m <> 0%N /\ starts cl (done_by (e, k) (of_stage i tr)) = m) \/
  (unset (C.g_iter grp) /\ existsb (PipeProps.ddl_trx set) (trx_names c grp) = true /\ starts cl (done_by (e, k) (of_stage i tr)) = 1%N) \/
  (exists n, CS.decimal (C.g_iter_c grp) n /\ n <> 0%N /\
     (n + 1 <= total (one_group e g) starts (labelled out) 0 (numbered out (of_stage i tr)) + N.of_nat (length cls))%N) \/
  (exists n, CS.decimal (C.g_iter_x grp) n /\ n <> 0%N /\
     (n + 1 <= total (exec_group e) starts (labelled out) 0 (numbered out (of_stage i tr)) + N.of_nat (length (concat css)))%N).
Proof.
  intros V E bases fs kvs dsn db Pe stages acts st tr i c set out e css x R O P NS CF RT NWL He FITX GS NR k g cl cls grp CI Hg G.
  destruct (over_all _ _ _ _ _ _ _ _ R O P NS) as (w & wacts & NW & RW & ST & WR). pose proof (calm _ _ _ _ _ WR ST RT) as U.
  pose proof (winv_run _ _ _ _ _ WR) as W. destruct (w_sched _ _ _ W) as (sched & LR).
  destruct (config_facts _ _ _ _ _ _ _ _ _ _ _ CF) as (ws & sn & wl0 & qn & tn & w1 & w2 & wl & gs & HA & HG & NE & SH & CG & _ & NUM).
  destruct (as_iterations _ _ _ _ _ LR) as (isched & ist & IR & LEN & CL & UN).
  assert (EXE : forall e' g', exec_group e e' g' = true -> e' = e).
  { intros e' g' S. unfold exec_group in S. apply Nat.eqb_eq in S. auto. }
  assert (AL : forall j g' cl', nth_error (labelled out) j = Some (e, g', cl') -> queries cl' <> [] /\ no_data_limit cl' /\ reached_limit (events_of j (numbered out (of_stage i tr)))).
  { intros j g' cl' J. destruct (labelled_is _ _ _ _ _ J) as (k' & CI' & <-). destruct (NR k' g' cl' CI') as (Q & DL & NR'). split; [exact Q|]. split; [exact DL|].
    destruct (nth_error css g') as [cls'|] eqn:Hg'.
    2:{ destruct (labelled_at _ _ _ _ _ J) as (css' & cls' & X1 & X2 & _). congruence. }
    destruct (has_group _ _ _ _ _ _ _ _ _ _ _ _ _ _ _ CF NWL He Hg') as (grp' & G'). destruct (GS _ _ _ Hg' G') as (RG & _).
    refine (by_limit _ _ _ _ _ _ _ _ _ _ _ _ _ _ _ _ _ _ _ _ CF WR RW U CI' G' RG _). intros s r I. apply in_done_by, in_of_stage in I. eauto. }
  assert (GRP : forall g' cg, cg_at wl gs e g' = Some cg -> exists cls' grp' name, nth_error css g' = Some cls' /\ group_at c out e g' grp' /\
    cg = cg_with (P.cgcfg_of grp') name (trx_names c grp')
         (if existsb (PipeProps.ddl_trx set) (trx_names c grp') && (P.uint (C.g_iter grp') =? 0)%N then 1%N else P.uint (C.g_iter grp'))%bool).
  { intros g' cg X. assert (XX := X). unfold cg_at in X. destruct (nth_error gs e) as [refs|] eqn:Ge; [|discriminate].
    destruct (nth_error refs g') as [r|] eqn:Gr; [|discriminate].
    assert (LE : length css = length refs).
    { assert (Z : nth_error (map (@length _) out) e = nth_error (map (@length _) gs) e) by now rewrite SH.
      rewrite !nth_error_map, He, Ge in Z. cbn in Z. congruence. }
    destruct (nth_error css g') as [cls'|] eqn:Hg'.
    2:{ apply nth_error_None in Hg'. assert (g' < length refs)%nat by (apply nth_error_Some; congruence). lia. }
    destruct (has_group _ _ _ _ _ _ _ _ _ _ _ _ _ _ _ CF NWL He Hg') as (grp' & G').
    destruct (CG e css g' cls' grp' He Hg' G') as (name & Y & _). rewrite XX in Y. injection Y as ->. exists cls', grp', name. auto. }
  destruct (client_labelled _ _ _ _ _ CI) as (VC & J). destruct (AL _ _ _ J) as (Q & DL & RL).
  destruct (nth_error (is_cls ist) (idx out (e, k))) as [y|] eqn:K.
  2:{ apply nth_error_None in K. rewrite LEN in K. apply nth_error_None in K. congruence. }
  assert (TOT : forall sel, (forall e' g', sel e' g' = true -> e' = e) ->
    total sel starts (labelled out) 0 (numbered out (of_stage i tr)) = iterations sel (labelled out) (is_cls ist)).
  { intros sel S. apply (total_iterations sel starts _ _ (is_cls ist) 0 LEN). intros j e' g' c' k' J' K' S'. cbn [Nat.add]. pose proof (S _ _ S') as ->.
    destruct (AL j g' c' J') as (Q' & DL' & RL'). exact (proj1 (proj2 (proj2 (CL j _ _ c' k' J' K') DL' RL')) Q'). }
  destruct (CG e css g cls grp He Hg G) as (name & X & _). destruct (NUM grp (nth_error_In _ _ G)) as (N1 & N2 & N3).
  match type of X with _ = Some ?z => set (cg := z) in X end.
  destruct (client_reason _ _ _ _ _ _ _ _ _ _ _ HA HG e x isched ist) with (j := idx out (e, k)) (g := g) (c := cl) (k := y) (cg := cg) as [(A & B)|[(A & B)|(A & B)]]; auto.
  - intros g' cg' X' LT. destruct (GRP _ _ X') as (cls' & grp' & name' & Hg' & G' & ->). cbn [cg_with cg_iterClients P.cgcfg_of] in LT |- *.
    rewrite (clients_of_group _ _ _ _ _ He Hg'). destruct (NUM grp' (nth_error_In _ _ G')) as (_ & M & _). destruct (GS _ _ _ Hg' G') as (_ & F & _).
    destruct (number_cases _ M) as [(_ & Z)|(n & D & _ & Z)]; rewrite Z in *; [lia|auto].
  - intros g' cg' X'. destruct (GRP _ _ X') as (cls' & grp' & name' & Hg' & G' & ->). cbn [cg_with cg_iterExecGroup P.cgcfg_of].
    destruct (NUM grp' (nth_error_In _ _ G')) as (_ & _ & M). destruct (GS _ _ _ Hg' G') as (_ & _ & F).
    destruct (number_cases _ M) as [(_ & Z)|(n & D & _ & Z)]; rewrite Z in *; [lia|auto].
  - now rewrite (clients_of_exec_group _ _ _ He).
  - apply UN. intros j e' g' c' J' S. pose proof (EXE _ _ S) as ->. destruct (AL j g' c' J') as (_ & DL' & RL'). auto.
  - intros j e' g' c' k' J' K' S. pose proof (EXE _ _ S) as ->. destruct (AL j g' c' J') as (_ & DL' & RL'). exact (proj1 (proj2 (CL j _ _ c' k' J' K') DL' RL')).
  - destruct (proj2 (CL _ _ _ cl y J K) DL RL) as (_ & SS & _). rewrite <- (same_events _ _ _ _ W VC), (SS Q), B.
    rewrite (lab_iter _ _ _ _ _ _ _ _ _ _ _ HA HG _ _ _ _ NE (nth_error_In _ _ J) X) in *. cbn [cg cg_with cg_iter] in *.
    destruct (number_cases _ N1) as [(UU & Z)|(n & D & NZ & Z)]; rewrite Z in *.
    + right. left. cbn [N.eqb] in *. rewrite andb_true_r in *. destruct (existsb (PipeProps.ddl_trx set) (trx_names c grp)); [auto|lia].
    + left. exists n. destruct (N.eqb_spec n 0) as [?|_]; [congruence|]. rewrite andb_false_r. auto.
  - right. right. left. cbn [cg cg_with cg_iterClients P.cgcfg_of] in A, B. rewrite (clients_of_group _ _ _ _ _ He Hg) in B.
    destruct (number_cases _ N2) as [(_ & Z)|(n & D & NZ & Z)]; rewrite Z in *; [lia|]. exists n. split; [exact D|]. split; [exact NZ|].
    rewrite TOT; [exact B|]. intros e' g' S. unfold one_group in S. apply andb_true_iff in S as [S1 _]. now apply Nat.eqb_eq in S1.
  - right. right. right. cbn [cg cg_with cg_iterExecGroup P.cgcfg_of] in A, B. rewrite (clients_of_exec_group _ _ _ He) in B.
    destruct (number_cases _ N3) as [(_ & Z)|(n & D & NZ & Z)]; rewrite Z in *; [lia|]. exists n. split; [exact D|]. split; [exact NZ|].
    rewrite (TOT _ EXE). exact B.
Qed.
Print Assumptions C142_limits_partial.

(** Two clients with iter 3 and iter-clients 5; [first]: the first client runs to its end before the second one. *)
Module ExB.
  Definition gs : list C.cgroup := [C.CGroup "2" "" false "3" "5" "" "a" "" "" "" "" "" "" "" ["b"; "r"]].
  Definition conf : C.stage := match C.load ExL.E ConfigProps.no_base [ConfigProps.file (PipeProps.stage1 "s" ExL.xs gs)] [] "" "" with
    | Some (c :: _) => c | _ => PipeProps.stage1 "" [] [] end.
  Definition out := match P.load_stages (PipeProps.P1 ExL.files) [conf] [] with
    | Some l => match P.prepare_run (PipeProps.P1 ExL.files) l with Some (_, [o]) => o | _ => [] end
    | None => [] end.
  Fixpoint drive (first : bool) (t n : nat) (st : wst Z) : list (waction Z) :=
    match n with
    | O => []
    | S n' =>
      match ExW.pick conf out false (if first then 0 else t) st with
      | Some a => match whole_step conf out st a with
                  | Some (st', _) => a :: drive first (S t) n' st'
                  | None => [] end
      | None => []
      end
    end.
  Definition acts (first : bool) : list (paction Z) := PBegin :: map (PStage 0) (drive first 0 120 (whole_init out)).
End ExB.

(** The claim is false: the second client stops after one iteration although neither it has begun three nor both together five. *)
Theorem C142_refuted : exists c set css cls grp (st : pst Z) tr cl0 cl1,
  configured ExL.E ConfigProps.no_base [ConfigProps.file (PipeProps.stage1 "s" ExL.xs ExB.gs)] [] "" "" (PipeProps.P1 ExL.files) 0 c set ExB.out /\
  prog_run [(c, ExB.out)] prog_init (ExB.acts true) = Some (st, tr) /\ run_over [(c, ExB.out)] st /\ p_stop st = false /\ C.s_runtime c = "" /\
  nth_error ExB.out 0 = Some css /\ nth_error css 0 = Some cls /\ group_at c ExB.out 0 0 grp /\ cls = [cl0; cl1] /\
  CS.decimal (C.g_iter_c grp) 5 /\ CS.decimal (C.g_iter grp) 3 /\ unset (C.g_iter_x grp) /\ C.g_runtime grp = "" /\
  (forall k cl, client_is ExB.out 0 k 0 cl -> queries cl <> [] /\ no_data_limit cl /\ no_failure (done_by (0%nat, k) (of_stage 0 tr)) /\
     forall s r, In (0%nat, WC (0%nat, k) (EvDone s r)) tr -> r = None) /\
  starts cl0 (done_by (0, 0)%nat (of_stage 0 tr)) = 3%N /\ starts cl1 (done_by (0, 1)%nat (of_stage 0 tr)) = 1%N /\
  total (one_group 0 0) starts (labelled ExB.out) 0 (numbered ExB.out (of_stage 0 tr)) = 4%N.
Proof.
  do 9 eexists. split; [config_ok|]. split; [vm_compute; reflexivity|].
  split. { split; [|right; reflexivity]. intros w W. cbn in W. injection W as <-. reflexivity. }
  split; [reflexivity|]. split; [reflexivity|]. split; [vm_compute; reflexivity|]. split; [vm_compute; reflexivity|]. split; [vm_compute; reflexivity|]. split; [reflexivity|].
  split; [apply (decimal_one "5"); unfold CS.digit; vm_compute; lia|]. split; [apply (decimal_one "3"); unfold CS.digit; vm_compute; lia|].
  split; [now left|]. split; [reflexivity|]. split.
  - intros k cl (css & O & H). vm_compute in O. injection O as <-. vm_compute in H.
    do 2 (destruct k as [|k]; [injection H as <-; split; [discriminate|]; split; [apply no_limit_in; reflexivity|]; split; [apply no_failure_in; vm_compute; reflexivity|];
      intros s r X; apply in_of_stage, in_done_by in X; revert s r X; apply ExW.no_error_ok; vm_compute; reflexivity|]). destruct k; discriminate.
  - split; [vm_compute; reflexivity|]. split; vm_compute; reflexivity.
Qed.
Print Assumptions C142_refuted.

(** With another schedule the same stage executes five iterations. *)
Example C142_example : exists c set css cls grp (st : pst Z) tr,
  configured ExL.E ConfigProps.no_base [ConfigProps.file (PipeProps.stage1 "s" ExL.xs ExB.gs)] [] "" "" (PipeProps.P1 ExL.files) 0 c set ExB.out /\
  prog_run [(c, ExB.out)] prog_init (ExB.acts false) = Some (st, tr) /\ run_over [(c, ExB.out)] st /\ p_stop st = false /\ C.s_runtime c = "" /\
  nth_error ExB.out 0 = Some css /\ nth_error css 0 = Some cls /\ group_at c ExB.out 0 0 grp /\ cls <> [] /\
  CS.decimal (C.g_iter_c grp) 5 /\ (5 + N.of_nat (length cls) < 2 ^ 32)%N /\ CS.decimal (C.g_iter grp) 3 /\ unset (C.g_iter_x grp) /\ C.g_runtime grp = "" /\
  (forall k cl, client_is ExB.out 0 k 0 cl -> queries cl <> [] /\ no_data_limit cl /\ forall s r, In (0%nat, WC (0%nat, k) (EvDone s r)) tr -> r = None) /\
  total (one_group 0 0) starts (labelled ExB.out) 0 (numbered ExB.out (of_stage 0 tr)) = 5%N.
Proof.
  do 7 eexists. split; [config_ok|]. split; [vm_compute; reflexivity|].
  split. { split; [|right; reflexivity]. intros w W. cbn in W. injection W as <-. reflexivity. }
  split; [reflexivity|]. split; [reflexivity|]. split; [vm_compute; reflexivity|]. split; [vm_compute; reflexivity|]. split; [vm_compute; reflexivity|]. split; [discriminate|].
  split; [apply (decimal_one "5"); unfold CS.digit; vm_compute; lia|]. split; [vm_compute; reflexivity|]. split; [apply (decimal_one "3"); unfold CS.digit; vm_compute; lia|].
  split; [now left|]. split; [reflexivity|]. split; [|vm_compute; reflexivity].
  intros k cl (css & O & H). vm_compute in O. injection O as <-. vm_compute in H.
  do 2 (destruct k as [|k]; [injection H as <-; split; [discriminate|]; split; [apply no_limit_in; reflexivity|];
    intros s r X; apply in_of_stage, in_done_by in X; revert s r X; apply ExW.no_error_ok; vm_compute; reflexivity|]). destruct k; discriminate.
Qed.

(** Two clients with iter 3 and iter-clients 5, one with iter-exec-group 4 and one with iter 2 in one execution group. *)
Module ExM.
  Definition gs : list C.cgroup := [C.CGroup "2" "" false "3" "5" "" "a" "" "" "" "" "" "" "" ["b"; "r"];
    C.CGroup "1" "" false "" "" "4" "a" "" "" "" "" "" "" "" ["b"]; C.CGroup "1" "" false "2" "" "" "a" "" "" "" "" "" "" "" ["r"]].
  Definition conf : C.stage := match C.load ExL.E ConfigProps.no_base [ConfigProps.file (PipeProps.stage1 "s" ExL.xs gs)] [] "" "" with
    | Some (c :: _) => c | _ => PipeProps.stage1 "" [] [] end.
  Definition out := match P.load_stages (PipeProps.P1 ExL.files) [conf] [] with
    | Some l => match P.prepare_run (PipeProps.P1 ExL.files) l with Some (_, [o]) => o | _ => [] end
    | None => [] end.
  Fixpoint drive (t n : nat) (st : wst Z) : list (waction Z) :=
    match n with
    | O => []
    | S n' =>
      match ExW.pick conf out false t st with
      | Some a => match whole_step conf out st a with
                  | Some (st', _) => a :: drive (S t) n' st'
                  | None => [] end
      | None => []
      end
    end.
  Definition acts : list (paction Z) := PBegin :: map (PStage 0) (drive 0 200 (whole_init out)).
End ExM.

Example C142_limits_example : exists c set css (st : pst Z) tr,
  configured ExL.E ConfigProps.no_base [ConfigProps.file (PipeProps.stage1 "s" ExL.xs ExM.gs)] [] "" "" (PipeProps.P1 ExL.files) 0 c set ExM.out /\
  prog_run [(c, ExM.out)] prog_init ExM.acts = Some (st, tr) /\ run_over [(c, ExM.out)] st /\ p_stop st = false /\ C.s_runtime c = "" /\ C.s_workload c <> [] /\
  nth_error ExM.out 0 = Some css /\ map (@length _) css = [2; 1; 1]%nat /\ (4 + N.of_nat (length (concat css)) < 2 ^ 32)%N /\
  (forall g cls grp, nth_error css g = Some cls -> group_at c ExM.out 0 g grp -> C.g_runtime grp = "" /\
     (forall n, CS.decimal (C.g_iter_c grp) n -> (n + N.of_nat (length cls) < 2 ^ 32)%N) /\ (forall n, CS.decimal (C.g_iter_x grp) n -> (n <= 4)%N)) /\
  (forall k g cl, client_is ExM.out 0 k g cl -> queries cl <> [] /\ no_data_limit cl /\ forall s r, In (0%nat, WC (0%nat, k) (EvDone s r)) tr -> r = None) /\
  map (fun k => total (one_group 0 k) starts (labelled ExM.out) 0 (numbered ExM.out (of_stage 0 tr))) [0; 1; 2]%nat = [5; 4; 2]%N.
Proof.
  do 5 eexists. split; [config_ok|]. split; [vm_compute; reflexivity|].
  split. { split; [|right; reflexivity]. intros w W. cbn in W. injection W as <-. reflexivity. }
  split; [reflexivity|]. split; [reflexivity|]. split; [discriminate|]. split; [vm_compute; reflexivity|]. split; [vm_compute; reflexivity|]. split; [vm_compute; reflexivity|].
  split; [|split; [|vm_compute; reflexivity]].
  - assert (F5 : CS.decimal "5" 5) by (apply (decimal_one "5"); unfold CS.digit; vm_compute; lia).
    assert (F4 : CS.decimal "4" 4) by (apply (decimal_one "4"); unfold CS.digit; vm_compute; lia).
    intros g cls grp Hg G. unfold group_at in G.
    do 3 (destruct g as [|g]; [vm_compute in Hg; injection Hg as <-; vm_compute in G; injection G as <-; cbn [C.g_runtime C.g_iter_c C.g_iter_x];
      split; [reflexivity|]; split; intros n D;
      first [exfalso; now apply PipeProps.decimal_ne in D
            |rewrite (PipeProps.decimal_fun _ _ _ D F5); vm_compute; reflexivity
            |rewrite (PipeProps.decimal_fun _ _ _ D F4); lia]|]).
    destruct g; discriminate.
  - intros k g cl (css & O & H). vm_compute in O. injection O as <-. vm_compute in H.
    do 4 (destruct k as [|k]; [injection H as <- <-; split; [discriminate|]; split; [apply no_limit_in; reflexivity|];
      intros s r X; apply in_of_stage, in_done_by in X; revert s r X; apply ExW.no_error_ok; vm_compute; reflexivity|]). destruct k; discriminate.
Qed.

(** Three clients with iter-clients 1 and one without, all with iter-exec-group 6. *)
Module ExX.
  Definition gs : list C.cgroup := [C.CGroup "3" "" false "" "1" "6" "a" "" "" "" "" "" "" "" ["b"; "r"];
    C.CGroup "1" "" false "" "" "6" "a" "" "" "" "" "" "" "" ["b"]].
  Definition conf : C.stage := match C.load ExL.E ConfigProps.no_base [ConfigProps.file (PipeProps.stage1 "s" ExL.xs gs)] [] "" "" with
    | Some (c :: _) => c | _ => PipeProps.stage1 "" [] [] end.
  Definition out := match P.load_stages (PipeProps.P1 ExL.files) [conf] [] with
    | Some l => match P.prepare_run (PipeProps.P1 ExL.files) l with Some (_, [o]) => o | _ => [] end
    | None => [] end.
  Fixpoint drive (n : nat) (st : wst Z) : list (waction Z) :=
    match n with
    | O => []
    | S n' =>
      match ExW.pick conf out false 0 st with
      | Some a => match whole_step conf out st a with
                  | Some (st', _) => a :: drive n' st'
                  | None => [] end
      | None => []
      end
    end.
  Definition acts : list (paction Z) := PBegin :: map (PStage 0) (drive 200 (whole_init out)).
End ExX.

(** Also false with iter-exec-group: clients that are stopped by iter-clients have been counted for the execution group, so its last client, whose only limit is
    iter-exec-group 6, stops after two iterations although the execution group has begun only three. *)
Theorem C142_limits_refuted : exists c set css (st : pst Z) tr grp0 grp1 cl,
  configured ExL.E ConfigProps.no_base [ConfigProps.file (PipeProps.stage1 "s" ExL.xs ExX.gs)] [] "" "" (PipeProps.P1 ExL.files) 0 c set ExX.out /\
  prog_run [(c, ExX.out)] prog_init ExX.acts = Some (st, tr) /\ run_over [(c, ExX.out)] st /\ p_stop st = false /\ C.s_runtime c = "" /\ C.s_workload c <> [] /\
  nth_error ExX.out 0 = Some css /\ map (@length _) css = [3; 1]%nat /\ group_at c ExX.out 0 0 grp0 /\ group_at c ExX.out 0 1 grp1 /\
  CS.decimal (C.g_iter_c grp0) 1 /\ CS.decimal (C.g_iter_x grp0) 6 /\ unset (C.g_iter grp0) /\ C.g_runtime grp0 = "" /\
  unset (C.g_iter_c grp1) /\ CS.decimal (C.g_iter_x grp1) 6 /\ unset (C.g_iter grp1) /\ C.g_runtime grp1 = "" /\
  existsb (PipeProps.ddl_trx set) (trx_names c grp1) = false /\
  (forall k g cl, client_is ExX.out 0 k g cl -> queries cl <> [] /\ no_data_limit cl /\ no_failure (done_by (0%nat, k) (of_stage 0 tr)) /\
     forall s r, In (0%nat, WC (0%nat, k) (EvDone s r)) tr -> r = None) /\
  client_is ExX.out 0 3 1 cl /\ starts cl (done_by (0, 3)%nat (of_stage 0 tr)) = 2%N /\
  total (exec_group 0) starts (labelled ExX.out) 0 (numbered ExX.out (of_stage 0 tr)) = 3%N.
Proof.
  do 8 eexists. split; [config_ok|]. split; [vm_compute; reflexivity|].
  split. { split; [|right; reflexivity]. intros w W. cbn in W. injection W as <-. reflexivity. }
  split; [reflexivity|]. split; [reflexivity|]. split; [discriminate|]. do 4 (split; [vm_compute; reflexivity|]).
  split; [apply (decimal_one "1"); unfold CS.digit; vm_compute; lia|]. split; [apply (decimal_one "6"); unfold CS.digit; vm_compute; lia|].
  split; [now left|]. split; [reflexivity|]. split; [now left|]. split; [apply (decimal_one "6"); unfold CS.digit; vm_compute; lia|].
  split; [now left|]. split; [reflexivity|]. split; [vm_compute; reflexivity|]. split.
  - intros k g cl (css & O & H). vm_compute in O. injection O as <-. vm_compute in H.
    do 4 (destruct k as [|k]; [injection H as <- <-; split; [discriminate|]; split; [apply no_limit_in; reflexivity|]; split; [apply no_failure_in; vm_compute; reflexivity|];
      intros s r X; apply in_of_stage, in_done_by in X; revert s r X; apply ExW.no_error_ok; vm_compute; reflexivity|]). destruct k; discriminate.
  - split; [eexists; split; vm_compute; reflexivity|]. split; vm_compute; reflexivity.
Qed.
Print Assumptions C142_limits_refuted.
