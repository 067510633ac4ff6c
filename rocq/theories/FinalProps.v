(** C134: a run of stages with iteration limits ends, and has executed what their files ask for. *)
From Verif Require Import Prelude ListAux ScopeModel StmtModel WorkloadModel WorkloadSpec ClientModel ClientSpec IterModel IterSpec LoopModel LoopSpec LoopProofs LoopProps WholeModel WholeSpec WholeProofs WholeProps ProgModel ProgSpec ProgProofs ProgProps FinalSpec FinalProofs.
From Verif Require StageModel ConfigModel ConfigSpec ConfigProps PipeModel PipeProps.
#[local] Open Scope string_scope.
#[local] Open Scope list_scope.

Lemma set_at {A} : forall (l : list A) i x y, nth_error l i = Some x -> exists l', set_nth l i y = Some l'.
Proof. induction l as [|z l IH]; intros [|i] x y H; cbn in *; try discriminate; [eauto|]. destruct (IH _ _ y H) as (l' & ->). eauto. Qed.
Lemma stage_moves V stages (st : pst V) i c out w a w' es : nth_error stages i = Some (c, out) -> nth_error (p_sts st) i = Some w ->
  whole_step c out w a = Some (w', es) -> a <> WStage G.AStop -> exists st' es', prog_step stages st (PStage i a) = Some (st', es').
Proof.
  intros NS NW S NA. destruct (set_at _ _ _ w' NW) as (l & SL). exists (PSt l (p_stop st)), (map (pair i) es).
  destruct a as [[]|? ?|? ?]; try congruence; cbn [prog_step]; rewrite NS, NW, S, SL; reflexivity.
Qed.

(** If every client group of every stage has a limit of iterations, the whole run takes a bounded number of steps, whatever happens, and
    until it is over there is a next step other than CTRL-C and the end of a runtime. *)
Theorem C134_ends : forall V E bases fs kvs dsn db Pe stages,
  (forall i c out, nth_error stages i = Some (c, out) -> C.s_workload c <> [] /\ exists set, configured E bases fs kvs dsn db Pe i c set out /\
     forall e css g cls grp, nth_error out e = Some css -> nth_error css g = Some cls -> group_at c out e g grp -> bounded c set out e g grp) ->
  exists B, forall acts (st : pst V) tr, prog_run stages prog_init acts = Some (st, tr) ->
    (length acts <= B)%nat /\ (run_over stages st \/ exists a st' es, prog_step stages st a = Some (st', es) /\ by_itself a).
Proof.
  intros V E bases fs kvs dsn db Pe stages H.
  destruct (bounds_all (fun i b => forall c out, nth_error stages i = Some (c, out) -> forall wacts (w : wst V) wtr, whole_run c out (whole_init out) wacts = Some (w, wtr) ->
    (length wacts <= b)%nat /\ (returned w \/ exists act w' es, whole_step c out w act = Some (w', es) /\ act <> WStage G.AElapse /\ act <> WStage G.AStop /\ forall e g, act <> WOver e g)) (length stages)) as (bs & LB & BS).
  { intros i LI. destruct (nth_error stages i) as [[c out]|] eqn:NS; [|apply nth_error_None in NS; lia]. destruct (H _ _ _ NS) as (NW & set & CF & BD).
    destruct (C129_ends V _ _ _ _ _ _ _ _ _ _ _ CF NW BD) as (b & X). exists b. intros c' out' Q. injection Q as <- <-. exact X. }
  exists (length stages + 1 + list_sum bs)%nat. intros acts st tr R. pose proof (ninv_run _ _ _ _ R) as N. pose proof (n_inv _ _ _ _ N) as I. pose proof (p_len _ _ _ I) as L. split.
  - rewrite (count_kinds acts (length stages)) by (intros i LE; apply (n_none _ _ _ _ N); lia). rewrite (n_begin _ _ _ _ N), (n_stop _ _ _ _ N).
    enough (list_sum (map (fun i => cnt i acts) (seq 0 (length stages))) <= list_sum bs)%nat by (destruct (p_stop st); lia).
    apply sum_le; [|congruence]. intros i b Hb. assert (LI : (i < length stages)%nat) by (rewrite <- LB; apply nth_error_Some; congruence).
    destruct (nth_error (p_sts st) i) as [w|] eqn:NW; [|rewrite (n_none _ _ _ _ N); [lia|now apply nth_error_None]].
    destruct (nth_error stages i) as [[c out]|] eqn:NS; [|apply nth_error_None in NS; lia].
    destruct (n_proj _ _ _ _ N _ _ _ _ NS NW) as (wacts & WR & LE). destruct (BS _ _ Hb _ _ NS _ _ _ WR) as (X & _). lia.
  - set (n := (length (p_sts st) - 1)%nat).
    destruct (nth_error (p_sts st) n) as [w|] eqn:NW.
    + assert (LN : (n < length (p_sts st))%nat) by (apply nth_error_Some; congruence).
      destruct (nth_error stages n) as [[c out]|] eqn:NS; [|apply nth_error_None in NS; lia]. destruct (nth_error bs n) as [b|] eqn:Hb; [|apply nth_error_None in Hb; lia].
      destruct (p_proj _ _ _ I _ _ _ _ NS NW) as (wacts & WR). destruct (BS _ _ Hb _ _ NS _ _ _ WR) as (_ & [RT|(act & w' & es & S & A1 & A2 & A3)]).
      * destruct (p_stop st) eqn:P; [left; split; [intros w0 W0; unfold n in NW; congruence|now left]|].
        destruct (Nat.eq_dec (length (p_sts st)) (length stages)) as [Q|Q]; [left; split; [intros w0 W0; unfold n in NW; congruence|now right]|].
        right. exists PBegin. cbn [prog_step]. destruct (nth_error stages (length (p_sts st))) as [[c2 out2]|] eqn:N2; [|apply nth_error_None in N2; lia].
        assert (M : may_begin st = true).
        { unfold may_begin. rewrite P. cbn [negb andb]. destruct (rev (p_sts st)) as [|w0 l] eqn:RV; [reflexivity|]. apply (f_equal (@rev _)) in RV. rewrite rev_involutive in RV. cbn in RV.
          rewrite RV in NW. unfold n in NW. rewrite RV, app_length, nth_error_app2 in NW by (cbn; lia). cbn in NW. replace (length (rev l) + 1 - 1 - length (rev l))%nat with 0%nat in NW by lia. injection NW as ->.
          unfold stage_over. unfold returned in RT. now rewrite RT. }
        rewrite M. eexists _, _. split; [reflexivity|exact Logic.I].
      * right. destruct (stage_moves _ _ _ _ _ _ _ _ _ _ NS NW S A2) as (st' & es' & X). exists (PStage n act), st', es'. split; [exact X|].
        destruct act as [[]|e g|x inp]; cbn; auto; try congruence; exact (A3 e g eq_refl).
    + assert (Z : p_sts st = []) by (apply nth_error_None in NW; destruct (p_sts st); [reflexivity|cbn in *; lia]).
      destruct (p_stop st) eqn:P; [left; split; [intros w0 W0; unfold n in NW; congruence|now left]|].
      destruct stages as [|[c2 out2] rest] eqn:SG; [left; split; [intros w0 W0; unfold n in NW; congruence|right; now rewrite Z]|].
      right. exists PBegin. cbn [prog_step]. unfold may_begin. rewrite P, Z. cbn. eexists _, _. split; [reflexivity|exact Logic.I].
Qed.

(** When the run is over without CTRL-C, every stage was run, one after another. *)
Lemma over_all V stages acts (st : pst V) tr i c out : prog_run stages prog_init acts = Some (st, tr) -> run_over stages st -> p_stop st = false ->
  nth_error stages i = Some (c, out) -> exists w wacts, nth_error (p_sts st) i = Some w /\ returned w /\ G.s_stopped (w_stage w) = false /\ whole_run c out (whole_init out) wacts = Some (w, of_stage i tr).
Proof.
  intros R (O1 & O2) P NS. pose proof (pinv_run _ _ _ _ R) as I. destruct O2 as [O2|O2]; [congruence|].
  assert (LI : (i < length stages)%nat) by (apply nth_error_Some; congruence). destruct (nth_error (p_sts st) i) as [w|] eqn:NW; [|apply nth_error_None in NW; lia].
  destruct (p_proj _ _ _ I _ _ _ _ NS NW) as (wacts & WR). exists w, wacts. split; [reflexivity|]. split; [|split; [rewrite (p_flag _ _ _ I _ _ NW); exact P|exact WR]].
  destruct (Nat.eq_dec (S i) (length (p_sts st))) as [Q|Q]; [apply O1; rewrite <- Q; cbn; rewrite Nat.sub_0_r; exact NW|apply (p_ret _ _ _ I _ _ NW); lia].
Qed.

Lemma calm {V} c out acts (w : wst V) tr : whole_run c out (whole_init out) acts = Some (w, tr) -> G.s_stopped (w_stage w) = false -> C.s_runtime c = "" -> undisturbed w.
Proof.
  intros WR ST RT. split; [|exact ST]. destruct (G.s_elapsed (w_stage w)) eqn:EL; [|reflexivity]. destruct (x_elapsed _ _ _ _ (cinv_run _ _ _ _ _ WR) EL RT).
Qed.
(** Then a client of a group with only the limit iter N, in a stage without a runtime, has returned; if it did not fail, it executed N
    times the queries of its trx files in order, and nothing else. *)
Theorem C134_iter : forall V E bases fs kvs dsn db Pe stages acts (st : pst V) tr i c set out e k g cl grp n,
  prog_run stages prog_init acts = Some (st, tr) -> run_over stages st -> p_stop st = false ->
  nth_error stages i = Some (c, out) -> configured E bases fs kvs dsn db Pe i c set out -> C.s_runtime c = "" ->
  client_is out e k g cl -> group_at c out e g grp ->
  CS.decimal (C.g_iter grp) n -> n <> 0%N -> unset (C.g_iter_c grp) -> unset (C.g_iter_x grp) -> C.g_runtime grp = "" -> no_data_limit cl ->
  (exists s r, In (i, WC (e, k) (EvDone s r)) tr) /\
  ((forall s r, In (i, WC (e, k) (EvDone s r)) tr -> r = None) ->
   (queries cl <> [] -> starts cl (done_by (e, k) (of_stage i tr)) = n) /\
   (no_failure (done_by (e, k) (of_stage i tr)) -> NoDup (map C.x_name (C.s_trx c)) ->
    exists qss, file_queries Pe c (trx_names c grp) qss /\ executed cl (done_by (e, k) (of_stage i tr)) = concat (repeat (concat qss) (N.to_nat n)))).
Proof.
  intros V E bases fs kvs dsn db Pe stages acts st tr i c set out e k g cl grp n R O P NS CF RT CI G DN NZ U1 U2 RG DL.
  destruct (over_all _ _ _ _ _ _ _ _ R O P NS) as (w & wacts & NW & RW & ST & WR).
  pose proof (calm _ _ _ _ _ WR ST RT) as U.
  destruct (C129_iter V E bases fs kvs dsn db Pe i c set out wacts w (of_stage i tr) e k g cl grp n CF WR RW U CI G DN NZ U1 U2 RG DL) as ((s & r & A) & B).
  assert (IFF : forall ev, In ev (done_by (e, k) (of_stage i tr)) <-> In (i, WC (e, k) ev) tr) by (intros ev; rewrite in_done_by, in_of_stage; reflexivity).
  split; [exists s, r; now apply IFF|]. intros NR. apply B. intros s0 r0 X. apply IFF in X. eauto.
Qed.

(** The same for a group with only the limit iter-clients N: its clients together have executed their first query N times and, if none
    failed, every query. *)
Theorem C134_iter_clients : forall V E bases fs kvs dsn db Pe stages acts (st : pst V) tr i c set out e g css cls grp n,
  prog_run stages prog_init acts = Some (st, tr) -> run_over stages st -> p_stop st = false ->
  nth_error stages i = Some (c, out) -> configured E bases fs kvs dsn db Pe i c set out -> C.s_runtime c = "" ->
  nth_error out e = Some css -> nth_error css g = Some cls -> group_at c out e g grp ->
  CS.decimal (C.g_iter_c grp) n -> n <> 0%N -> (n + N.of_nat (length cls) < 2 ^ 32)%N ->
  unset (C.g_iter grp) -> unset (C.g_iter_x grp) -> C.g_runtime grp = "" -> existsb (PipeProps.ddl_trx set) (trx_names c grp) = false ->
  (forall k cl, client_is out e k g cl -> no_data_limit cl /\ forall s r, In (i, WC (e, k) (EvDone s r)) tr -> r = None) ->
  forall cl, In cl cls ->
    (forall q qs, queries cl = q :: qs -> total (one_group e g) (fun _ => times q) (labelled out) 0 (numbered out (of_stage i tr)) = n) /\
    ((forall k cl', client_is out e k g cl' -> no_failure (done_by (e, k) (of_stage i tr))) ->
     forall q, In q (queries cl) -> total (one_group e g) (fun _ => times q) (labelled out) 0 (numbered out (of_stage i tr)) = n).
Proof.
  intros V E bases fs kvs dsn db Pe stages acts st tr i c set out e g css cls grp n R O P NS CF RT He Hg G DN NZ FIT U1 U2 RG DD NR cl Hc.
  destruct (over_all _ _ _ _ _ _ _ _ R O P NS) as (w & wacts & NW & RW & ST & WR).
  apply (C129_iter_clients V E bases fs kvs dsn db Pe i c set out wacts w (of_stage i tr) e g css cls grp n CF WR RW (calm _ _ _ _ _ WR ST RT) He Hg G DN NZ FIT U1 U2 RG DD); [|exact Hc].
  intros k cl' CI. destruct (NR k cl' CI) as (DL & X). split; [exact DL|]. intros s r Y. apply in_done_by, in_of_stage in Y. eauto.
Qed.

(** The same for an exec group all of whose client groups have only the limit iter-exec-group N: its clients together have begun their trx
    N times. *)
Theorem C129_iter_exec_group : forall V E bases fs kvs dsn db Pe a c set out acts (st : wst V) tr e css n,
  configured E bases fs kvs dsn db Pe a c set out ->
  whole_run c out (whole_init out) acts = Some (st, tr) -> returned st -> undisturbed st ->
  nth_error out e = Some css -> C.s_workload c <> [] -> n <> 0%N -> (n + N.of_nat (length (concat css)) < 2 ^ 32)%N -> concat css <> [] ->
  (forall g cls grp, nth_error css g = Some cls -> group_at c out e g grp ->
     CS.decimal (C.g_iter_x grp) n /\ unset (C.g_iter grp) /\ unset (C.g_iter_c grp) /\ C.g_runtime grp = "" /\
     existsb (PipeProps.ddl_trx set) (trx_names c grp) = false) ->
  (forall k g cl, client_is out e k g cl -> queries cl <> [] /\ no_data_limit cl /\ forall s r, In (EvDone s r) (done_by (e, k) tr) -> r = None) ->
  total (exec_group e) starts (labelled out) 0 (numbered out tr) = n.
Proof.
  intros V E bases fs kvs dsn db Pe a c set out acts st tr e css n CF R RT U He NW NZ FIT NE GS CS.
  pose proof (winv_run _ _ _ _ _ R) as W. destruct (w_sched _ _ _ W) as (sched & LR).
  destruct (C116_iter_exec_group V E bases fs kvs dsn db Pe a c set out sched (w_loop st) (numbered out tr) e css n CF LR He NW) as (_ & X); [| exact NZ | exact FIT |].
  - intros g cls grp Hg G. exact (proj1 (GS _ _ _ Hg G)).
  - apply X; [intros g cls grp Hg G; destruct (GS _ _ _ Hg G) as (_ & A & B & _ & D); auto|exact NE|].
    intros j g cl J. destruct (labelled_is _ _ _ _ _ J) as (k & CI & <-). destruct (CS k g cl CI) as (Q & DL & NR).
    split; [exact Q|]. split; [exact DL|].
    destruct (labelled_at _ _ _ _ _ J) as (css' & cls & He' & Hg & _). rewrite He in He'. injection He' as <-.
    destruct (has_group _ _ _ _ _ _ _ _ _ _ _ _ _ _ _ CF NW He Hg) as (grp & G). destruct (GS _ _ _ Hg G) as (_ & _ & _ & RG & _).
    exact (by_limit _ _ _ _ _ _ _ _ _ _ _ _ _ _ _ _ _ _ _ _ CF R RT U CI G RG NR).
Qed.
Theorem C134_iter_exec_group : forall V E bases fs kvs dsn db Pe stages acts (st : pst V) tr i c set out e css n,
  prog_run stages prog_init acts = Some (st, tr) -> run_over stages st -> p_stop st = false ->
  nth_error stages i = Some (c, out) -> configured E bases fs kvs dsn db Pe i c set out -> C.s_runtime c = "" ->
  nth_error out e = Some css -> C.s_workload c <> [] -> n <> 0%N -> (n + N.of_nat (length (concat css)) < 2 ^ 32)%N -> concat css <> [] ->
  (forall g cls grp, nth_error css g = Some cls -> group_at c out e g grp ->
     CS.decimal (C.g_iter_x grp) n /\ unset (C.g_iter grp) /\ unset (C.g_iter_c grp) /\ C.g_runtime grp = "" /\
     existsb (PipeProps.ddl_trx set) (trx_names c grp) = false) ->
  (forall k g cl, client_is out e k g cl -> queries cl <> [] /\ no_data_limit cl /\ forall s r, In (i, WC (e, k) (EvDone s r)) tr -> r = None) ->
  total (exec_group e) starts (labelled out) 0 (numbered out (of_stage i tr)) = n.
Proof.
  intros V E bases fs kvs dsn db Pe stages acts st tr i c set out e css n R O P NS CF RT He NW NZ FIT NE GS CS.
  destruct (over_all _ _ _ _ _ _ _ _ R O P NS) as (w & wacts & NW' & RW & ST & WR).
  apply (C129_iter_exec_group V E bases fs kvs dsn db Pe i c set out wacts w (of_stage i tr) e css n CF WR RW (calm _ _ _ _ _ WR ST RT) He NW NZ FIT NE GS).
  intros k g cl CI. destruct (CS k g cl CI) as (Q & DL & X). split; [exact Q|]. split; [exact DL|]. intros s r Y. apply in_done_by, in_of_stage in Y. eauto.
Qed.

(** The statements of a stage come before those of later stages: the trace of clients is in the order of the command line. *)
Theorem C134_order : forall V stages acts (st : pst V) tr i j t1 t2 t3 x y ev ev',
  prog_run stages prog_init acts = Some (st, tr) -> (forall a c out, nth_error stages a = Some (c, out) -> C.s_runtime c = "") ->
  tr = t1 ++ (i, WC x ev) :: t2 ++ (j, WC y ev') :: t3 -> (i <= j)%nat.
Proof.
  intros V stages acts st tr i j t1 t2 t3 x y ev ev' R H ->. destruct (Nat.le_gt_cases i j) as [|LT]; [assumption|exfalso].
  pose proof (pinv_run _ _ _ _ R) as I. assert (LI : (i < length (p_sts st))%nat) by (apply (p_begun _ _ _ I i (WC x ev)); apply in_or_app; right; now left).
  pose proof (p_len _ _ _ I). destruct (nth_error stages j) as [[c out]|] eqn:NS; [|apply nth_error_None in NS; lia].
  destruct (C133_order_partial _ _ _ _ _ _ _ _ _ _ _ _ _ R NS (H _ _ _ NS) LT eq_refl) as (_ & B). apply (B y ev'). apply in_or_app. right. now left.
Qed.
Print Assumptions C134_ends.
Print Assumptions C134_iter.
Print Assumptions C134_iter_clients.
Print Assumptions C129_iter_exec_group.
Print Assumptions C134_iter_exec_group.
Print Assumptions C134_order.

Lemma over_returned {V} (w : wst V) : stage_over w = true -> returned w.
Proof. unfold stage_over, returned. destruct (G.s_pc (w_stage w)); congruence. Qed.

(* ------------------------------------------------------------------------------------ *)
Module ExF.
  (** Two stages, with 5 and 2 clients. *)
  Definition gs1 : list C.cgroup :=
    [C.CGroup "2" "" false "3" "" "" "a" "" "" "" "" "" "" "" ["b"; "r"]; C.CGroup "3" "" false "2" "" "" "b" "" "" "" "" "" "" "" ["r"]].
  Definition gs2 : list C.cgroup := [C.CGroup "2" "" false "5" "" "" "" "" "" "" "" "" "" "" ["b"]].
  Definition fs : list C.stage_file := [ConfigProps.file (PipeProps.stage1 "one" ExL.xs gs1); ConfigProps.file (PipeProps.stage1 "two" ExL.xs gs2)].
  Definition cs : list C.stage := match C.load ExL.E ConfigProps.no_base fs [] "" "" with Some l => l | None => [] end.
  Definition sets : list (C.stage * T.tset) := match P.load_stages (PipeProps.P1 ExL.files) cs [] with Some l => l | None => [] end.
  Definition prep := match P.prepare_run (PipeProps.P1 ExL.files) sets with Some x => x | None => (WorkloadModel.WSt ScopeModel.scopes_new 0, []) end.
  Definition outs : list (list (list (list client))) := snd prep.
  Definition stages : list (C.stage * list (list (list client))) := List.combine (map fst sets) outs.
  Lemma files_are : forall a c out, nth_error stages a = Some (c, out) -> exists set, configured ExL.E ConfigProps.no_base fs [] "" "" (PipeProps.P1 ExL.files) a c set out.
  Proof.
    refine (stages_are _ _ _ _ _ _ _ cs sets (fst prep) outs _ _ _ _).
    - apply of_option. vm_compute. reflexivity.
    - vm_compute. reflexivity.
    - apply of_option. vm_compute. reflexivity.
    - unfold outs. rewrite <- surjective_pairing. apply of_option. vm_compute. reflexivity.
  Qed.
  Definition run_of (acts : list (paction Z)) : pst Z * list (nat * wevent Z) := match prog_run stages prog_init acts with Some x => x | None => (prog_init, []) end.
  Definition goes (i n : nat) (acts : list (paction Z)) : list (paction Z) :=
    acts ++ match nth_error stages i, nth_error (p_sts (fst (run_of acts))) i with
            | Some (c, out), Some w => map (PStage i) (ExW.drive c out (fun _ => false) 0 n w)
            | _, _ => [] end.
  Definition all := goes 1 300 (goes 0 300 [PBegin] ++ [PBegin]).
  Definition small (s : string) : bool := (String.eqb s "2" || String.eqb s "3" || String.eqb s "5")%bool.
  Lemma small_is s : small s = true -> exists n, CS.decimal s n /\ n <> 0%N.
  Proof.
    unfold small. rewrite !orb_true_iff, !String.eqb_eq. intros [[->| ->]| ->].
    - exists 2%N. split; [apply (decimal_one "2"%char); vm_compute; split; lia|discriminate].
    - exists 3%N. split; [apply (decimal_one "3"%char); vm_compute; split; lia|discriminate].
    - exists 5%N. split; [apply (decimal_one "5"%char); vm_compute; split; lia|discriminate].
  Qed.
  Lemma limits : forallb (fun x => match C.s_workload (fst x) with [] => false | l => forallb (fun g => small (C.g_iter g)) l end) stages = true.
  Proof. vm_compute. reflexivity. Qed.
  Lemma no_runtimes : forallb (fun x => String.eqb (C.s_runtime (fst x)) "") stages = true.
  Proof. vm_compute. reflexivity. Qed.
  Definition out0 : list (list (list client)) := nth 0 outs [].
  Definition conf0 : C.stage := nth 0 (map fst sets) (PipeProps.stage1 "" [] []).
  Lemma sets_2 : length (map fst sets) = 2%nat.
  Proof. vm_compute. reflexivity. Qed.
  Lemma outs_2 : length outs = 2%nat.
  Proof. vm_compute. reflexivity. Qed.
  Lemma stage_0 : nth_error stages 0 = Some (conf0, out0).
  Proof.
    unfold stages, conf0, out0. pose proof sets_2 as S3. pose proof outs_2 as O3. revert S3 O3. generalize outs (map fst sets). clear. intros o s S3 O3.
    apply combine_nth2; lia.
  Qed.
End ExF.

(** Two stages with 5 and 2 clients; the run takes 195 steps; a client with iter 3 and 3 queries executes 9 queries. *)
Example C134_example : exists (st : pst Z) tr set cl grp,
  (forall i c out, nth_error ExF.stages i = Some (c, out) -> C.s_workload c <> [] /\ exists set, configured ExL.E ConfigProps.no_base ExF.fs [] "" "" (PipeProps.P1 ExL.files) i c set out /\
     forall e css g cls grp, nth_error out e = Some css -> nth_error css g = Some cls -> group_at c out e g grp -> bounded c set out e g grp) /\
  (forall a c out, nth_error ExF.stages a = Some (c, out) -> C.s_runtime c = "") /\
  length ExF.all = 195%nat /\ prog_run ExF.stages prog_init ExF.all = Some (st, tr) /\ run_over ExF.stages st /\ p_stop st = false /\
  nth_error ExF.stages 0 = Some (ExF.conf0, ExF.out0) /\ configured ExL.E ConfigProps.no_base ExF.fs [] "" "" (PipeProps.P1 ExL.files) 0 ExF.conf0 set ExF.out0 /\
  client_is ExF.out0 0 0 0 cl /\ group_at ExF.conf0 ExF.out0 0 0 grp /\ CS.decimal (C.g_iter grp) 3 /\ unset (C.g_iter_c grp) /\ unset (C.g_iter_x grp) /\ C.g_runtime grp = "" /\ no_data_limit cl /\
  no_failure (done_by (0%nat, 0%nat) (of_stage 0 tr)) /\ length (executed cl (done_by (0%nat, 0%nat) (of_stage 0 tr))) = 9%nat.
Proof.
  assert (CI : exists cl, client_is ExF.out0 0 0 0 cl /\ no_data_limit cl /\ length (executed cl (done_by (0%nat, 0%nat) (of_stage 0 (snd (ExF.run_of ExF.all))))) = 9%nat).
  { eexists. split; [eexists; split; vm_compute; reflexivity|]. split; [apply no_limit_in; vm_compute; reflexivity|vm_compute; reflexivity]. }
  destruct CI as (cl & CI & DL & EX).
  assert (GR : exists grp, group_at ExF.conf0 ExF.out0 0 0 grp /\ CS.decimal (C.g_iter grp) 3 /\ unset (C.g_iter_c grp) /\ unset (C.g_iter_x grp) /\ C.g_runtime grp = "").
  { eexists. split; [vm_compute; reflexivity|]. split; [apply (decimal_one "3"%char); vm_compute; split; lia|]. split; [left; reflexivity|]. split; [left; reflexivity|reflexivity]. }
  destruct GR as (grp & G1 & G2 & G3 & G4 & G5). destruct (ExF.files_are _ _ _ ExF.stage_0) as (set & CF).
  exists (fst (ExF.run_of ExF.all)), (snd (ExF.run_of ExF.all)), set, cl, grp.
  split.
  { intros i c out NS. pose proof ExF.limits as X. rewrite forallb_forall in X. specialize (X _ (nth_error_In _ _ NS)). cbn [fst] in X. split; [intros Q; rewrite Q in X; discriminate|].
    destruct (ExF.files_are _ _ _ NS) as (s2 & CF2). exists s2. split; [exact CF2|]. intros e css g cls grp0 _ _ GA. left. apply ExF.small_is.
    unfold group_at in GA. apply nth_error_In in GA. destruct (C.s_workload c) as [|g0 l]; [destruct GA|]. rewrite forallb_forall in X. exact (X _ GA). }
  split. { intros a c out NS. pose proof ExF.no_runtimes as X. rewrite forallb_forall in X. specialize (X _ (nth_error_In _ _ NS)). now apply String.eqb_eq in X. }
  split; [vm_compute; reflexivity|]. split; [rewrite <- surjective_pairing; apply of_option; vm_compute; reflexivity|].
  split. { split; [|right; vm_compute; reflexivity]. intros w W. assert (X : match nth_error (p_sts (fst (ExF.run_of ExF.all))) (length (p_sts (fst (ExF.run_of ExF.all))) - 1) with Some w => stage_over w | None => false end = true) by (vm_compute; reflexivity).
    rewrite W in X. exact (over_returned _ X). }
  split; [vm_compute; reflexivity|]. split; [exact ExF.stage_0|]. split; [exact CF|]. do 7 (split; [assumption|]). split; [apply no_failure_in; vm_compute; reflexivity|exact EX].
Qed.

(** The stage of C129_clients_example as a run: the three clients of a group with iter-clients 5, and the three clients of an exec group with
    iter-exec-group 5. *)
Example C134_limits_example : exists c set grp css cls css1 (st : pst Z) tr,
  configured ExL.E ConfigProps.no_base [ConfigProps.file (PipeProps.stage1 "s" ExL.xs ExL.gs)] [] "" "" (PipeProps.P1 ExL.files) 0 c set ExL.out /\
  prog_run [(c, ExL.out)] prog_init (PBegin :: map (PStage 0) ExW.acts) = Some (st, tr) /\ run_over [(c, ExL.out)] st /\ p_stop st = false /\
  C.s_runtime c = "" /\ C.s_workload c <> [] /\
  (nth_error ExL.out 0 = Some css /\ nth_error css 1 = Some cls /\ group_at c ExL.out 0 1 grp /\
   CS.decimal (C.g_iter_c grp) 5 /\ (5 + N.of_nat (length cls) < 2 ^ 32)%N /\ unset (C.g_iter grp) /\ unset (C.g_iter_x grp) /\
   C.g_runtime grp = "" /\ existsb (PipeProps.ddl_trx set) (trx_names c grp) = false /\
   (forall k cl, client_is ExL.out 0 k 1 cl -> no_data_limit cl /\ forall s r, In (0%nat, WC (0%nat, k) (EvDone s r)) tr -> r = None) /\
   map (fun q => total (one_group 0 1) (fun _ => times q) (labelled ExL.out) 0 (numbered ExL.out (of_stage 0 tr))) [0; 1; 2; 3]%nat = [5; 5; 0; 5]%N) /\
  (nth_error ExL.out 1 = Some css1 /\ (5 + N.of_nat (length (concat css1)) < 2 ^ 32)%N /\ concat css1 <> [] /\
   (forall g cls grp, nth_error css1 g = Some cls -> group_at c ExL.out 1 g grp ->
      CS.decimal (C.g_iter_x grp) 5 /\ unset (C.g_iter grp) /\ unset (C.g_iter_c grp) /\ C.g_runtime grp = "" /\ existsb (PipeProps.ddl_trx set) (trx_names c grp) = false) /\
   (forall k g cl, client_is ExL.out 1 k g cl -> queries cl <> [] /\ no_data_limit cl /\ forall s r, In (0%nat, WC (1%nat, k) (EvDone s r)) tr -> r = None) /\
   total (exec_group 1) starts (labelled ExL.out) 0 (numbered ExL.out (of_stage 0 tr)) = 5%N).
Proof.
  do 8 eexists. split; [config_ok|]. split; [vm_compute; reflexivity|].
  split. { split; [|right; reflexivity]. intros w W. cbn in W. injection W as <-. reflexivity. }
  split; [reflexivity|]. split; [reflexivity|]. split; [discriminate|]. split.
  - split; [vm_compute; reflexivity|]. split; [vm_compute; reflexivity|]. split; [vm_compute; reflexivity|].
    split; [apply (decimal_one "5"); unfold CS.digit; vm_compute; lia|]. split; [vm_compute; reflexivity|].
    split; [now left|]. split; [now left|]. split; [reflexivity|]. split; [reflexivity|]. split; [|vm_compute; reflexivity].
    intros k cl (css & O & H). vm_compute in O. injection O as <-. vm_compute in H. split.
    + do 5 (destruct k as [|k]; [first [discriminate|injection H as <-; apply no_limit_in; reflexivity]|]). destruct k; discriminate.
    + intros s r X. apply in_of_stage, in_done_by in X. revert s r X. apply ExW.no_error_ok.
      do 5 (destruct k as [|k]; [first [discriminate|vm_compute; reflexivity]|]). destruct k; discriminate.
  - split; [vm_compute; reflexivity|]. split; [vm_compute; reflexivity|]. split; [discriminate|]. split; [|split; [|vm_compute; reflexivity]].
    + intros g cls grp Hg G. unfold group_at in G. vm_compute in G.
      do 2 (destruct g as [|g]; [injection G as <-; split; [apply (decimal_one "5"); unfold CS.digit; vm_compute; lia|];
        split; [now left|]; split; [now left|]; split; reflexivity|]). destruct g; discriminate.
    + intros k g cl (css & O & H). vm_compute in O. injection O as <-. vm_compute in H.
      do 3 (destruct k as [|k]; [injection H as <- <-; split; [discriminate|]; split; [apply no_limit_in; reflexivity|];
        intros s r X; apply in_of_stage, in_done_by in X; revert s r X; apply ExW.no_error_ok; vm_compute; reflexivity|]). destruct k; discriminate.
Qed.
