(** C143: with iter-clients and iter-exec-group the lower one counts. *)
From Verif Require Import Prelude ListAux ScopeModel StmtModel WorkloadModel WorkloadSpec ClientModel ClientSpec IterModel IterSpec IterProofs LoopModel LoopSpec LoopProofs LoopCountProofs LoopProps WholeModel WholeSpec WholeProofs WholeProps ProgModel ProgSpec ProgProofs ProgProps FinalSpec FinalProps MinProofs.
From Verif Require StageModel ConfigModel ConfigSpec ConfigProps PipeModel PipeProps.
#[local] Open Scope string_scope.
#[local] Open Scope list_scope.

(** A client group that is alone in its execution group and sets iter-clients N and iter-exec-group X executes exactly min(N, X) iterations when a run of
    stages is over without CTRL-C and none of its clients has failed for good, in every order of its clients. *)
Theorem C143 : forall V E bases fs kvs dsn db Pe stages acts (st : pst V) tr i c set out e cls grp n x,
  prog_run stages prog_init acts = Some (st, tr) -> run_over stages st -> p_stop st = false ->
  nth_error stages i = Some (c, out) -> configured E bases fs kvs dsn db Pe i c set out -> C.s_runtime c = "" ->
  nth_error out e = Some [cls] -> group_at c out e 0 grp -> cls <> [] ->
  CS.decimal (C.g_iter_c grp) n -> n <> 0%N -> (n + N.of_nat (length cls) < 2 ^ 32)%N ->
  CS.decimal (C.g_iter_x grp) x -> x <> 0%N -> (x + N.of_nat (length cls) < 2 ^ 32)%N ->
  unset (C.g_iter grp) -> existsb (PipeProps.ddl_trx set) (trx_names c grp) = false -> C.g_runtime grp = "" ->
  (forall k cl, client_is out e k 0 cl -> queries cl <> [] /\ no_data_limit cl /\ forall s r, In (i, WC (e, k) (EvDone s r)) tr -> r = None) ->
  total (one_group e 0) starts (labelled out) 0 (numbered out (of_stage i tr)) = N.min n x.
Proof.
  intros V E bases fs kvs dsn db Pe stages acts st tr i c set out e cls grp n x R O P NS CF RT He G NEc DN NZ FITN DX XZ FITX U1 DD RG NR.
  destruct (over_all _ _ _ _ _ _ _ _ R O P NS) as (w & wacts & NW & RW & ST & WR). pose proof (calm _ _ _ _ _ WR ST RT) as U.
  pose proof (winv_run _ _ _ _ _ WR) as W. destruct (w_sched _ _ _ W) as (sched & LR).
  destruct (config_facts _ _ _ _ _ _ _ _ _ _ _ CF) as (ws & sn & wl0 & qn & tn & w1 & w2 & wl & gs & HA & HG & NE & SH & CG & _ & NUM).
  assert (Hg : nth_error [cls] 0 = Some cls) by reflexivity.
  destruct (CG e _ 0%nat cls grp He Hg G) as (name & X & _). rewrite DD in X. cbn [andb] in X. rewrite (unset_uint _ U1) in X.
  match type of X with _ = Some ?y => set (cg := y) in X end.
  assert (Y : cg_iterClients cg = n) by (apply PipeProps.uint_decimal; [exact DN|lia]).
  assert (Y2 : cg_iterExecGroup cg = x) by (apply PipeProps.uint_decimal; [exact DX|lia]).
  assert (SEL : forall e' g', one_group e 0 e' g' = true -> e' = e /\ g' = 0%nat).
  { intros e' g' S. unfold one_group in S. apply andb_true_iff in S as [S1 S2]. apply Nat.eqb_eq in S1, S2. auto. }
  rewrite <- (clients_of_group _ _ _ _ _ He Hg) in FITN, FITX.
  destruct (as_iterations _ _ _ _ _ LR) as (isched & ist & IR & LEN & CL & UN).
  assert (AL : forall j cl, nth_error (labelled out) j = Some (e, 0%nat, cl) -> queries cl <> [] /\ no_data_limit cl /\ reached_limit (events_of j (numbered out (of_stage i tr)))).
  { intros j cl J. destruct (labelled_is _ _ _ _ _ J) as (k & CI & <-). destruct (NR k cl CI) as (Q & DL & NR'). split; [exact Q|]. split; [exact DL|].
    refine (by_limit _ _ _ _ _ _ _ _ _ _ _ _ _ _ _ _ _ _ _ _ CF WR RW U CI G RG _). intros s r I. apply in_done_by, in_of_stage in I. eauto. }
  rewrite (total_iterations (one_group e 0) starts _ _ (is_cls ist) 0 LEN).
  2:{ intros j e' g' c' k J K S. cbn [Nat.add]. destruct (SEL _ _ S) as [-> ->]. destruct (AL j c' J) as (Q & DL & RL).
      exact (proj1 (proj2 (proj2 (CL j _ _ c' k J K) DL RL)) Q). }
  rewrite (clients_min _ _ _ _ _ _ _ _ _ _ _ HA HG e cg isched ist X); rewrite ?Y, ?Y2; auto; try lia.
  - intros g cl I. assert (g = 0%nat) as ->.
    { apply In_nth_error in I as (j & J). destruct (labelled_at _ _ _ _ _ J) as (css & cls' & Q1 & Q2 & _). rewrite He in Q1. injection Q1 as <-.
      destruct g as [|g]; [reflexivity|]. destruct g; discriminate. }
    split; [reflexivity|]. now rewrite (lab_iter _ _ _ _ _ _ _ _ _ _ _ HA HG _ _ _ _ NE I X).
  - destruct cls as [|cl l]; [congruence|]. exists cl. eapply at_labelled; eauto. now left.
  - apply UN. intros j e' g' c' J S. destruct (SEL _ _ S) as [-> ->]. destruct (AL j c' J) as (_ & DL & RL). auto.
  - intros j e' g' c' k J K S. destruct (SEL _ _ S) as [-> ->]. destruct (AL j c' J) as (_ & DL & RL). exact (proj1 (proj2 (CL j _ _ c' k J K) DL RL)).
Qed.
Print Assumptions C143.

(** Two clients with iter-clients 5 and iter-exec-group 6, where both counters stop a client, and three with iter-clients 7 and iter-exec-group 4. *)
Module ExN.
  Definition gs : list C.cgroup := [C.CGroup "2" "" false "" "5" "6" "a" "" "" "" "" "" "" "" ["b"; "r"];
    C.CGroup "3" "" false "" "7" "4" "b" "" "" "" "" "" "" "" ["r"]].
  Definition conf : C.stage := match C.load ExL.E ConfigProps.no_base [ConfigProps.file (PipeProps.stage1 "s" ExL.xs gs)] [] "" "" with
    | Some (c :: _) => c | _ => PipeProps.stage1 "" [] [] end.
  Definition out := match P.load_stages (PipeProps.P1 ExL.files) [conf] [] with
    | Some l => match P.prepare_run (PipeProps.P1 ExL.files) l with Some (_, [o]) => o | _ => [] end
    | None => [] end.
  Fixpoint drive (t n : nat) (st : wst Z) : list (waction Z) :=
    match n with
    | O => []
    | S n' =>
      match ExW.pick conf out false t st with
      | Some a => match whole_step conf out st a with
                  | Some (st', _) => a :: drive (S t) n' st'
                  | None => [] end
      | None => []
      end
    end.
  Definition acts : list (paction Z) := PBegin :: map (PStage 0) (drive 0 250 (whole_init out)).
End ExN.

Example C143_example : exists c set cls1 cls2 grp1 grp2 (st : pst Z) tr,
  configured ExL.E ConfigProps.no_base [ConfigProps.file (PipeProps.stage1 "s" ExL.xs ExN.gs)] [] "" "" (PipeProps.P1 ExL.files) 0 c set ExN.out /\
  prog_run [(c, ExN.out)] prog_init ExN.acts = Some (st, tr) /\ run_over [(c, ExN.out)] st /\ p_stop st = false /\ C.s_runtime c = "" /\
  nth_error ExN.out 0 = Some [cls1] /\ nth_error ExN.out 1 = Some [cls2] /\ group_at c ExN.out 0 0 grp1 /\ group_at c ExN.out 1 0 grp2 /\
  length cls1 = 2%nat /\ length cls2 = 3%nat /\
  CS.decimal (C.g_iter_c grp1) 5 /\ CS.decimal (C.g_iter_x grp1) 6 /\ CS.decimal (C.g_iter_c grp2) 7 /\ CS.decimal (C.g_iter_x grp2) 4 /\
  unset (C.g_iter grp1) /\ unset (C.g_iter grp2) /\ existsb (PipeProps.ddl_trx set) (trx_names c grp1) = false /\ existsb (PipeProps.ddl_trx set) (trx_names c grp2) = false /\
  C.g_runtime grp1 = "" /\ C.g_runtime grp2 = "" /\
  (forall e k cl, (e < 2)%nat -> client_is ExN.out e k 0 cl -> queries cl <> [] /\ no_data_limit cl /\ forall s r, In (0%nat, WC (e, k) (EvDone s r)) tr -> r = None) /\
  total (one_group 0 0) starts (labelled ExN.out) 0 (numbered ExN.out (of_stage 0 tr)) = 5%N /\
  total (one_group 1 0) starts (labelled ExN.out) 0 (numbered ExN.out (of_stage 0 tr)) = 4%N.
Proof.
  do 8 eexists. split; [config_ok|]. split; [vm_compute; reflexivity|].
  split. { split; [|right; reflexivity]. intros w W. cbn in W. injection W as <-. reflexivity. }
  split; [reflexivity|]. split; [reflexivity|]. do 4 (split; [vm_compute; reflexivity|]). split; [reflexivity|]. split; [reflexivity|].
  split; [apply (decimal_one "5"); unfold CS.digit; vm_compute; lia|]. split; [apply (decimal_one "6"); unfold CS.digit; vm_compute; lia|].
  split; [apply (decimal_one "7"); unfold CS.digit; vm_compute; lia|]. split; [apply (decimal_one "4"); unfold CS.digit; vm_compute; lia|].
  split; [now left|]. split; [now left|]. split; [vm_compute; reflexivity|]. split; [vm_compute; reflexivity|]. split; [reflexivity|]. split; [reflexivity|].
  split; [|split; vm_compute; reflexivity].
  intros e k cl LT (css & O & H). destruct e as [|[|e]]; [| |lia]; vm_compute in O; injection O as <-; vm_compute in H;
  repeat (destruct k as [|k]; [first [discriminate H|injection H as <-; split; [discriminate|]; split; [apply no_limit_in; reflexivity|];
    intros s r X; apply in_of_stage, in_done_by in X; revert s r X; apply ExW.no_error_ok; vm_compute; reflexivity]|]; try discriminate H).
Qed.
