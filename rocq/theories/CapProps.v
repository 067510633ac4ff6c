(** C141: no limit of iterations is exceeded, whatever else limits, stops or fails. *)
From Verif Require Import Prelude ListAux ScopeModel StmtModel WorkloadModel WorkloadSpec ClientModel ClientSpec IterModel IterSpec IterProofs LoopModel LoopSpec LoopProofs LoopCountProofs LoopProps WholeModel WholeSpec WholeProofs WholeProps ProgModel ProgSpec ProgProofs ProgProps FinalSpec FinalProps.
From Verif Require StageModel ConfigModel ConfigSpec ConfigProps PipeModel PipeProps.
#[local] Open Scope string_scope.
#[local] Open Scope list_scope.

(** What a stage did is a run of the stage alone, also if it has not begun. *)
Lemma stage_part V stages acts (st : pst V) tr i c out : prog_run stages prog_init acts = Some (st, tr) -> nth_error stages i = Some (c, out) ->
  exists w wacts, whole_run c out (whole_init out) wacts = Some (w, of_stage i tr).
Proof.
  intros R NS. pose proof (pinv_run _ _ _ _ R) as I. destruct (nth_error (p_sts st) i) as [w|] eqn:NW.
  - destruct (p_proj _ _ _ I _ _ _ _ NS NW) as (wacts & WR). eauto.
  - exists (whole_init out), []. enough (of_stage i tr = []) as -> by reflexivity. apply nth_error_None in NW.
    destruct (of_stage i tr) as [|e l] eqn:Q; [reflexivity|]. assert (X : In e (of_stage i tr)) by (rewrite Q; now left).
    apply in_of_stage in X. apply (p_begun _ _ _ I) in X. lia.
Qed.

(** A client of a group with iter N executes each query at most N times in any run of stages: with or without CTRL-C, runtimes, errors and other
    limits. *)
Theorem C141_iter : forall V E bases fs kvs dsn db Pe stages acts (st : pst V) tr i c set out e k g cl grp n,
  prog_run stages prog_init acts = Some (st, tr) -> nth_error stages i = Some (c, out) -> configured E bases fs kvs dsn db Pe i c set out ->
  client_is out e k g cl -> group_at c out e g grp -> CS.decimal (C.g_iter grp) n -> n <> 0%N ->
  forall q, (times q (done_by (e, k) (of_stage i tr)) <= n)%N.
Proof.
  intros V E bases fs kvs dsn db Pe stages acts st tr i c set out e k g cl grp n R NS CF CI G DN NZ q.
  destruct (stage_part _ _ _ _ _ _ _ _ R NS) as (w & wacts & WR). destruct (client_labelled _ _ _ _ _ CI) as (VC & LB).
  pose proof (winv_run _ _ _ _ _ WR) as W. destruct (w_sched _ _ _ W) as (sched & LR).
  rewrite <- (same_events _ _ _ _ W VC). now apply (C115_iter _ _ _ _ _ _ _ _ _ _ _ _ _ _ _ _ _ _ _ _ _ CF LR LB G DN NZ).
Qed.

(** A client whose trx change the schema, in a group without iter, executes each query at most once. *)
Theorem C141_ddl : forall V E bases fs kvs dsn db Pe stages acts (st : pst V) tr i c set out e k g cl grp,
  prog_run stages prog_init acts = Some (st, tr) -> nth_error stages i = Some (c, out) -> configured E bases fs kvs dsn db Pe i c set out ->
  client_is out e k g cl -> group_at c out e g grp -> existsb (PipeProps.ddl_trx set) (trx_names c grp) = true -> unset (C.g_iter grp) ->
  forall q, (times q (done_by (e, k) (of_stage i tr)) <= 1)%N.
Proof.
  intros V E bases fs kvs dsn db Pe stages acts st tr i c set out e k g cl grp R NS CF CI0 G DD U q.
  destruct (stage_part _ _ _ _ _ _ _ _ R NS) as (w & wacts & WR). destruct (client_labelled _ _ _ _ _ CI0) as (VC & J).
  pose proof (winv_run _ _ _ _ _ WR) as W. destruct (w_sched _ _ _ W) as (sched & LR). rewrite <- (same_events _ _ _ _ W VC). match type of J with nth_error _ ?x = _ => set (j := x) in * end.
  destruct (labelled_at _ _ _ _ _ J) as (css & cls & He & Hg & Hc).
  destruct (config_facts _ _ _ _ _ _ _ _ _ _ _ CF) as (ws & sn & wl0 & qn & tn & w1 & w2 & wl & gs & HA & HG & NE & SH & CG & _ & NUM).
  destruct (CG e css g cls grp He Hg G) as (name & X & _). rewrite DD, (unset_uint _ U) in X. cbn [N.eqb andb] in X.
  pose proof (nth_error_In _ _ J) as JI. pose proof (lab_iter _ _ _ _ _ _ _ _ _ _ _ HA HG _ _ _ _ NE JI X) as CI. cbn [cg_with cg_iter] in CI.
  assert (JC : nth_error (map snd (labelled out)) j = Some cl) by (now rewrite nth_error_map, J).
  destruct (loop_has _ _ _ _ _ _ LR JC) as (kk & K & KC).
  destruct (sim_run _ _ _ _ LR) as (_ & ONE & isched & ist & IR & _ & LEN & SAME & _).
  destruct (ONE _ kk K) as ((inps & CR) & LIM). rewrite KC in CR, LIM.
  destruct (nth_error (is_cls ist) j) as [x|] eqn:IX.
  2:{ apply nth_error_None in IX. rewrite LEN in IX. apply nth_error_None in IX. congruence. }
  destruct (SAME _ kk x K IX) as (S1 & S2 & _). rewrite KC in S1.
  destruct (count_run cl _ _ _ _ CR) as (LE & EQ).
  pose proof (own_limit _ _ _ IR) as OL. rewrite Forall_forall in OL. specialize (OL x (nth_error_In _ _ IX)). rewrite S1, CI in OL. specialize (LE q). lia.
Qed.

(** The clients of a group with iter-clients N together execute each query at most N times. *)
Theorem C141_iter_clients : forall V E bases fs kvs dsn db Pe stages acts (st : pst V) tr i c set out e g css cls grp n,
  prog_run stages prog_init acts = Some (st, tr) -> nth_error stages i = Some (c, out) -> configured E bases fs kvs dsn db Pe i c set out ->
  nth_error out e = Some css -> nth_error css g = Some cls -> group_at c out e g grp ->
  CS.decimal (C.g_iter_c grp) n -> n <> 0%N -> (n + N.of_nat (length cls) < 2 ^ 32)%N ->
  forall q, (total (one_group e g) (fun _ => times q) (labelled out) 0 (numbered out (of_stage i tr)) <= n)%N.
Proof.
  intros V E bases fs kvs dsn db Pe stages acts st tr i c set out e g css cls grp n R NS CF He Hg G DN NZ FIT.
  destruct (stage_part _ _ _ _ _ _ _ _ R NS) as (w & wacts & WR). destruct (w_sched _ _ _ (winv_run _ _ _ _ _ WR)) as (sched & LR).
  now destruct (C116_iter_clients _ _ _ _ _ _ _ _ _ _ _ _ _ _ _ _ _ _ _ _ _ CF LR He Hg G DN NZ FIT).
Qed.

(** If all client groups of an exec group set iter-exec-group to N, their clients together begin at most N iterations. *)
Theorem C141_iter_exec_group : forall V E bases fs kvs dsn db Pe stages acts (st : pst V) tr i c set out e css n,
  prog_run stages prog_init acts = Some (st, tr) -> nth_error stages i = Some (c, out) -> configured E bases fs kvs dsn db Pe i c set out ->
  nth_error out e = Some css -> C.s_workload c <> [] ->
  (forall g cls grp, nth_error css g = Some cls -> group_at c out e g grp -> CS.decimal (C.g_iter_x grp) n) ->
  n <> 0%N -> (n + N.of_nat (length (concat css)) < 2 ^ 32)%N ->
  (total (exec_group e) starts (labelled out) 0 (numbered out (of_stage i tr)) <= n)%N.
Proof.
  intros V E bases fs kvs dsn db Pe stages acts st tr i c set out e css n R NS CF He NW GS NZ FIT.
  destruct (stage_part _ _ _ _ _ _ _ _ R NS) as (w & wacts & WR). destruct (w_sched _ _ _ (winv_run _ _ _ _ _ WR)) as (sched & LR).
  now destruct (C116_iter_exec_group _ _ _ _ _ _ _ _ _ _ _ _ _ _ _ _ _ _ CF LR He NW GS NZ FIT).
Qed.

Print Assumptions C141_iter.
Print Assumptions C141_ddl.
Print Assumptions C141_iter_clients.
Print Assumptions C141_iter_exec_group.

(** A stage with groups that have two limits each and one that makes a table; queries fail. *)
Module ExK.
  Definition files (f : string) : option (list string) := if String.eqb f "make.sql" then ExW.files f else ExL.files f.
  Definition xs : list C.trx := ExL.xs ++ [C.Trx "m" "make.sql" []].
  Definition gs : list C.cgroup :=
    [C.CGroup "2" "" false "" "" "" "m" "" "" "" "" "" "" "" ["m"];
     C.CGroup "2" "" false "3" "5" "" "a" "" "" "" "" "" "" "" ["b"; "r"];
     C.CGroup "2" "" false "3" "" "5" "b" "" "" "" "" "" "" "" ["r"];
     C.CGroup "" "" false "" "" "5" "b" "" "" "" "" "" "" "" ["b"]].
  Definition conf : C.stage := match C.load ExL.E ConfigProps.no_base [ConfigProps.file (PipeProps.stage1 "s" xs gs)] [] "" "" with
    | Some (c :: _) => c | _ => PipeProps.stage1 "" [] [] end.
  Definition out := match P.load_stages (PipeProps.P1 files) [conf] [] with
    | Some l => match P.prepare_run (PipeProps.P1 files) l with Some (_, [o]) => o | _ => [] end
    | None => [] end.
  (** [fail t]: a query executed in step [t] loses its connection. *)
  Definition spoil (a : waction Z) : waction Z :=
    match a with
    | WClient x (LStmt v) => WClient x (LStmt (SEnv (v_inputs v) (v_more v) (Some (Err 2006 false false)) (v_scan v) (v_ctx v) (v_conn v)))
    | _ => a
    end.
  Fixpoint drive (fail : nat -> bool) (t n : nat) (st : wst Z) : list (waction Z) :=
    match n with
    | O => []
    | S n' =>
      match ExW.pick conf out false t st with
      | Some a => let a' := if fail t then spoil a else a in
                  match whole_step conf out st a' with
                  | Some (st', _) => a' :: drive fail (S t) n' st'
                  | None => [] end
      | None => []
      end
    end.
  (** CTRL-C comes after the last step. *)
  Definition acts : list (paction Z) := PBegin :: map (PStage 0) (drive (fun t => Nat.ltb 30 t && Nat.eqb (Nat.modulo t 7) 0)%bool 0 118 (whole_init out)) ++ [PStop].
End ExK.
Example C141_example : exists c set cl0 g0 cl1 g1 css cls css2 (st : pst Z) tr,
  configured ExL.E ConfigProps.no_base [ConfigProps.file (PipeProps.stage1 "s" ExK.xs ExK.gs)] [] "" "" (PipeProps.P1 ExK.files) 0 c set ExK.out /\
  prog_run [(c, ExK.out)] prog_init ExK.acts = Some (st, tr) /\ p_stop st = true /\
  (client_is ExK.out 0 0 0 cl0 /\ group_at c ExK.out 0 0 g0 /\ existsb (PipeProps.ddl_trx set) (trx_names c g0) = true /\ unset (C.g_iter g0) /\
   map (fun q => times q (done_by (0, 0)%nat (of_stage 0 tr))) (queries cl0) = [1; 1; 1]%N) /\
  (client_is ExK.out 1 1 0 cl1 /\ group_at c ExK.out 1 0 g1 /\ CS.decimal (C.g_iter g1) 3 /\
   map (fun q => times q (done_by (1, 1)%nat (of_stage 0 tr))) (queries cl1) = [3; 3; 2]%N) /\
  (nth_error ExK.out 1 = Some css /\ nth_error css 0 = Some cls /\ CS.decimal (C.g_iter_c g1) 5 /\ (5 + N.of_nat (length cls) < 2 ^ 32)%N /\
   map (fun q => total (one_group 1 0) (fun _ => times q) (labelled ExK.out) 0 (numbered ExK.out (of_stage 0 tr))) (queries cl1) = [5; 5; 4]%N) /\
  (nth_error ExK.out 2 = Some css2 /\ C.s_workload c <> [] /\ (5 + N.of_nat (length (concat css2)) < 2 ^ 32)%N /\
   (forall g cls grp, nth_error css2 g = Some cls -> group_at c ExK.out 2 g grp -> CS.decimal (C.g_iter_x grp) 5) /\
   total (exec_group 2) starts (labelled ExK.out) 0 (numbered ExK.out (of_stage 0 tr)) = 5%N).
Proof.
  do 11 eexists. split; [config_ok|]. split; [vm_compute; reflexivity|]. split; [reflexivity|]. split.
  { split; [eexists; split; vm_compute; reflexivity|]. split; [vm_compute; reflexivity|]. split; [reflexivity|]. split; [now left|vm_compute; reflexivity]. }
  split.
  { split; [eexists; split; vm_compute; reflexivity|]. split; [vm_compute; reflexivity|].
    split; [apply (decimal_one "3"); unfold CS.digit; vm_compute; lia|vm_compute; reflexivity]. }
  split.
  { split; [vm_compute; reflexivity|]. split; [vm_compute; reflexivity|]. split; [apply (decimal_one "5"); unfold CS.digit; vm_compute; lia|].
    split; vm_compute; reflexivity. }
  split; [vm_compute; reflexivity|]. split; [discriminate|]. split; [vm_compute; reflexivity|]. split; [|vm_compute; reflexivity].
  intros g cls grp Hg G. unfold group_at in G. vm_compute in G.
  do 2 (destruct g as [|g]; [injection G as <-; apply (decimal_one "5"); unfold CS.digit; vm_compute; lia|]). destruct g; discriminate.
Qed.
