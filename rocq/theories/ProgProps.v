(** C133: the clients of a stage are done before the next stage begins. *)
From Verif Require Import Prelude ListAux ScopeModel StmtModel WorkloadModel ClientModel ClientSpec IterModel IterSpec LoopModel LoopSpec LoopProofs LoopProps WholeModel WholeSpec WholeProofs WholeProps HaltSpec HaltProofs HaltProps ProgModel ProgSpec ProgProofs.
From Verif Require StageModel StageProps ConfigProps PipeProps.
#[local] Open Scope string_scope.
#[local] Open Scope list_scope.

(** A run of stages, the first of which have begun; stage [i] was neither cut short by its runtime nor by CTRL-C so far, and a later
    stage has begun: every client of stage [i] has returned, and whatever happens then, none of them does anything any more. *)
Lemma stage_before V stages acts (st : pst V) tr i c out w : prog_run stages prog_init acts = Some (st, tr) ->
  nth_error stages i = Some (c, out) -> nth_error (p_sts st) i = Some w -> (S i < length (p_sts st))%nat -> undisturbed w ->
  (forall e k g cl, client_is out e k g cl -> exists s, In (i, WC (e, k) (EvDone s (reported s))) tr) /\
  forall acts' st' tr', prog_run stages st acts' = Some (st', tr') ->
    (forall x ev, ~ In (i, WC x ev) tr') /\ forall x, length (filter (step_in i x) acts') = 0%nat.
Proof.
  intros R NS NW L U. pose proof (pinv_run _ _ _ _ R) as I. pose proof (p_ret _ _ _ I _ _ NW L) as RT. destruct (p_proj _ _ _ I _ _ _ _ NS NW) as (wacts & WR).
  pose proof (winv_run _ _ _ _ _ WR) as WI. split.
  - intros e k g cl CI. destruct (client_labelled _ _ _ _ _ CI) as (VC & _). destruct (all_done _ _ _ WI RT U _ VC) as (s & D). exists s. now apply in_of_stage.
  - intros acts' st' tr' R2. destruct (stage_goes _ _ _ _ _ _ _ _ _ _ I R2 NS NW) as (w' & _ & WR2). destruct (no_clients _ _ _ _ _ _ WR2 RT (none_running _ _ _ WI RT U)) as ((A & B) & _). split.
    + intros x ev J. apply in_of_stage in J. exact (A _ _ J).
    + intros x. assert (F : forall l : list (paction V), (forall y inp, ~ In (WClient y inp) (flat_map (acts_in i) l)) -> filter (step_in i x) l = []).
      { clear. induction l as [|a l IH]; intros F; [reflexivity|]. cbn [filter]. rewrite IH by (intros y inp J; apply (F y inp); cbn; apply in_or_app; now right).
        destruct a as [|j [a|e g|y inp]|]; cbn; rewrite ?andb_false_r; try reflexivity. destruct (Nat.eqb_spec i j) as [->|]; [|reflexivity].
        exfalso. apply (F y inp). cbn. rewrite Nat.eqb_refl. now left. }
      now rewrite (F _ B).
Qed.

(** Full statement: when a client of a stage does something, all clients of the earlier stages have returned; refuted below if a stage
    has a runtime.  It holds if the earlier stage has no runtime, also if finch is
    stopped at some time. *)
Theorem C133_order_partial : forall V stages acts (st : pst V) tr i c out j x ev t1 t2,
  prog_run stages prog_init acts = Some (st, tr) -> nth_error stages i = Some (c, out) -> C.s_runtime c = "" ->
  (i < j)%nat -> tr = t1 ++ (j, WC x ev) :: t2 ->
  (forall e k g cl, client_is out e k g cl -> exists s, In (i, WC (e, k) (EvDone s (reported s))) t1) /\
  forall y ev', ~ In (i, WC y ev') t2.
Proof.
  intros V stages acts st tr i c out j x ev t1 t2 R NS RT LT ->.
  destruct (run_split _ _ _ _ _ _ _ R) as (a1 & a & a2 & sta & ta & stb & es1 & es2 & tb & -> & R1 & S1 & R2 & -> & ->).
  pose proof (pinv_run _ _ _ _ R1) as I1.
  assert (J : (j < length (p_sts sta))%nat /\ a <> PBegin).
  { pose proof (p_begun _ _ _ (pinv_step _ _ _ _ _ _ I1 S1) j (WC x ev)) as B. destruct (len_step _ _ _ _ _ _ I1 S1) as (L1 & _).
    assert (NB : a <> PBegin). { intros ->. apply prog_cases in S1 as [(_ & Q & _)|[(? & ? & ? & ? & ? & ? & ? & Q & _)|(Q & _)]]; [destruct es1; discriminate|discriminate|discriminate]. }
    split; [|exact NB]. assert (j < length (p_sts stb))%nat by (apply B; apply in_or_app; right; apply in_or_app; right; now left). destruct a; [congruence|lia|lia]. }
  destruct J as (J & NB). destruct (nth_error (p_sts sta) i) as [w|] eqn:NW; [|apply nth_error_None in NW; lia].
  destruct (dinv_run _ _ _ _ R1 _ _ _ _ NS NW ltac:(lia) RT) as (A & B). split.
  - intros e k g cl CI. destruct (client_labelled _ _ _ _ _ CI) as (VC & _). destruct (A _ VC) as (s & D). exists s. apply in_or_app. now left.
  - intros y ev' Q. assert (RR : prog_run stages sta (a :: a2) = Some (st, (es1 ++ (j, WC x ev) :: es2) ++ tb)) by (cbn [prog_run]; now rewrite S1, R2).
    destruct (stage_goes _ _ _ _ _ _ _ _ _ _ I1 RR NS NW) as (w' & _ & WR). destruct (no_clients _ _ _ _ _ _ WR (p_ret _ _ _ I1 _ _ NW ltac:(lia)) B) as ((N & _) & _).
    apply (N y ev'). apply in_of_stage. rewrite <- app_assoc. cbn. apply in_or_app. right. right. exact Q.
Qed.

(** However a stage ended: once a later stage has begun, and its clients see that their context is done, a client of it does at most
    [n] + 3 further steps if its trx have [n] statements, tries at most one query, which does not succeed, and changes nothing. *)
Theorem C133_after : forall V stages before (st : pst V) tr0 i c out w e k g cl acts st' tr,
  prog_run stages prog_init before = Some (st, tr0) -> nth_error stages i = Some (c, out) -> nth_error (p_sts st) i = Some w ->
  (S i < length (p_sts st))%nat -> client_is out e k g cl -> queries cl <> [] ->
  prog_run stages st acts = Some (st', tr) -> Forall (saw_in i (e, k)) acts ->
  (length (filter (step_in i (e, k)) acts) <= length (c_stmts cl) + 3)%nat /\
  (length (execs (done_by (e, k) (of_stage i tr))) <= 1)%nat /\ (forall ev, In (i, WC (e, k) ev) tr -> changes ev = false).
Proof.
  intros V stages before st tr0 i c out w e k g cl acts st' tr R NS NW L CI NQ R2 FS.
  assert (DEC : undisturbed w \/ G.s_elapsed (w_stage w) = true \/ G.s_stopped (w_stage w) = true).
  { unfold undisturbed. destruct (G.s_elapsed (w_stage w)), (G.s_stopped (w_stage w)); auto. }
  destruct DEC as [U|O].
  - destruct (stage_before _ _ _ _ _ _ _ _ _ R NS NW L U) as (_ & B). destruct (B _ _ _ R2) as (B1 & B2). rewrite B2. split; [lia|]. split.
    + destruct (done_by (e, k) (of_stage i tr)) as [|ev l] eqn:Q; [cbn; lia|]. exfalso. assert (D : In ev (done_by (e, k) (of_stage i tr))) by (rewrite Q; now left).
      apply in_done_by in D. apply in_of_stage in D. exact (B1 _ _ D).
    + intros ev D. destruct (B1 _ _ D).
  - pose proof (pinv_run _ _ _ _ R) as I. destruct (p_proj _ _ _ I _ _ _ _ NS NW) as (wacts & WR). destruct (stage_goes _ _ _ _ _ _ _ _ _ _ I R2 NS NW) as (w' & _ & WR2).
    assert (CD : ctx_done out w (e, k) = true).
    { unfold ctx_done. destruct (client_labelled _ _ _ _ _ CI) as (_ & LB). rewrite LB. destruct O as [-> | ->]; cbn; now rewrite ?orb_true_r. }
    assert (FA : Forall (client_saw (e, k)) (flat_map (acts_in i) acts)).
    { clear - FS. induction FS as [|a l H _ IH]; [constructor|]. cbn. apply Forall_app. split; [|exact IH]. destruct a as [|j a|]; cbn in *; [constructor| |constructor; [exact Logic.I|constructor]].
      destruct (Nat.eqb_spec i j) as [->|]; [|constructor]. constructor; [apply H; reflexivity|constructor]. }
    destruct (C131_client _ _ _ _ _ _ _ _ _ _ _ _ _ WR CI NQ CD WR2 FA) as (A1 & A2 & A3 & _). split; [|split; [exact A2|]].
    + enough (X : forall l : list (paction V), length (filter (step_in i (e, k)) l) = length (filter (step_of (e, k)) (flat_map (acts_in i) l))) by (rewrite X; exact A1).
      clear. induction l as [|a l IH]; [reflexivity|]. cbn [filter flat_map]. rewrite filter_app, app_length, <- IH. destruct a as [|j a|]; cbn [step_in acts_in]; [reflexivity| |reflexivity].
      destruct (Nat.eqb i j); cbn; [|reflexivity]. destruct (step_of (e, k) a); reflexivity.
    + intros ev D. apply A3. apply in_done_by. now apply in_of_stage.
Qed.
Print Assumptions C133_order_partial.
Print Assumptions C133_after.

(* ------------------------------------------------------------------------------------ *)
Lemma combine_both {A B} : forall (x : list A) (y : list B) n p q, nth_error (List.combine x y) n = Some (p, q) -> nth_error x n = Some p /\ nth_error y n = Some q.
Proof. induction x as [|u x IH]; intros [|v y] [|n] p q H; cbn in H; try discriminate; [injection H as -> ->; auto|]. cbn. eauto. Qed.
Lemma stages_are E bases fs kvs dsn db Pe cs l w outs : C.load E bases fs kvs dsn db = Some cs -> forallb (fun c => negb (C.s_disable c)) cs = true ->
  P.load_stages Pe cs [] = Some l -> P.prepare_run Pe l = Some (w, outs) ->
  forall a c out, nth_error (List.combine (map fst l) outs) a = Some (c, out) -> exists set, configured E bases fs kvs dsn db Pe a c set out.
Proof.
  intros L D S R a c out H. apply combine_both in H as (H1 & H2). rewrite nth_error_map in H1. destruct (nth_error l a) as [[c0 set]|] eqn:SA; [|discriminate]. cbn in H1. injection H1 as <-.
  exists set, cs, l, w, outs. split; [exact L|]. split; [|auto]. rewrite forallb_forall in D. apply Forall_forall. intros x Ix. apply negb_true_iff. auto.
Qed.
Lemma combine_nth2 {A B} (x : list A) (y : list B) n p q : (n < length x)%nat -> (n < length y)%nat -> nth_error (List.combine x y) n = Some (nth n x p, nth n y q).
Proof. revert y n. induction x as [|u x IH]; intros [|v y] [|n] H1 H2; cbn in *; try lia; [reflexivity|]. apply IH; lia. Qed.
Lemma of_option {A} (o : option A) (d : A) : match o with Some _ => true | None => false end = true -> o = Some (match o with Some x => x | None => d end).
Proof. destruct o; [reflexivity|discriminate]. Qed.
Module ExP2.
  Definition stage (name runtime : string) (xs : list C.trx) (gs : list C.cgroup) : C.stage :=
    C.Stage (C.Compute false "") false "" name C.empty_mysql 0 [] "" runtime (C.Stats None "" []) "" xs gs.
  Definition files (f : string) : option (list string) := if String.eqb f "make.sql" then ExW.files f else ExL.files f.
  (** Tables are made, with DDL; then a stage with a runtime of 5 s reads; then a stage with 8 clients. *)
  Definition fs : list C.stage_file :=
    [ConfigProps.file (stage "setup" "" [C.Trx "m" "make.sql" []] []);
     ConfigProps.file (stage "warmup" "5s" [C.Trx "r" "read.sql" [("d", PipeProps.d_int "")]] [C.CGroup "2" "" false "" "" "" "" "" "" "" "" "" "" "" []]);
     ConfigProps.file (stage "benchmark" "" ExL.xs ExL.gs)].
  Definition cs : list C.stage := match C.load ExL.E ConfigProps.no_base fs [] "" "" with Some l => l | None => [] end.
  Definition sets : list (C.stage * T.tset) := match P.load_stages (PipeProps.P1 files) cs [] with Some l => l | None => [] end.
  Definition prep := match P.prepare_run (PipeProps.P1 files) sets with Some x => x | None => (WorkloadModel.WSt ScopeModel.scopes_new 0, []) end.
  Definition outs : list (list (list (list client))) := snd prep.
  Definition stages : list (C.stage * list (list (list client))) := List.combine (map fst sets) outs.

  (** The stages in turn; the second elapses after 30 steps.  [late]: a client of the second goes on after the third has begun. *)
  Definition in_stage (i : nat) (st : pst Z) (n : nat) (f : nat -> bool) : list (paction Z) :=
    match nth_error stages i, nth_error (p_sts st) i with
    | Some (c, out), Some w => map (PStage i) (ExW.drive c out f 0 n w)
    | _, _ => [] end.
  Definition after (acts : list (paction Z)) : pst Z := match prog_run stages prog_init acts with Some (st, _) => st | None => prog_init end.
  Definition begun (acts : list (paction Z)) : list (paction Z) := acts ++ [PBegin].
  Definition goes (i n : nat) (acts : list (paction Z)) : list (paction Z) := acts ++ in_stage i (after acts) n (fun _ => false).
  Definition first := goes 0 100 (begun []).
  Definition second := goes 1 30 (begun first) ++ [PStage 1 (WStage G.AElapse)] ++ repeat (PStage 1 (WStage (G.AStage true))) 13.
  Definition third := goes 2 12 (begun second).
  (** The clients of the second stage that have not returned, with their context done. *)
  Fixpoint ending (n : nat) (st : pst Z) : list (paction Z) :=
    match n, nth_error stages 1, nth_error (p_sts st) 1 with
    | S n', Some (c, out), Some w =>
      match find (fun x => negb (client_returned out w x)) (G.s_run (w_stage w)) with
      | Some x => match nth_error (l_cls (w_loop w)) (idx out x) with
                  | Some k => let a := PStage 1 (WClient x (ExH.next k)) in match prog_step stages st a with Some (st', _) => a :: ending n' st' | None => [] end
                  | None => [] end
      | None => [] end
    | _, _, _ => []
    end.
  Definition late := ending 20 (after third).
  Definition last_of := goes 2 500 (third ++ late).
  Definition all := goes 2 500 (third ++ late).
  Definition tr_of (acts : list (paction Z)) : list (nat * wevent Z) := match prog_run stages prog_init acts with Some (_, tr) => tr | None => [] end.
  (** The trace around the first event of a client of stage [j]. *)
  Fixpoint cut (j : nat) (tr : list (nat * wevent Z)) : option (list (nat * wevent Z) * (G.client * event Z) * list (nat * wevent Z)) :=
    match tr with
    | [] => None
    | e :: tr' =>
      match (if Nat.eqb (fst e) j then snd e else WS (G.EStart (0, 0)%nat)), cut j tr' with
      | WC x ev, _ => Some ([], (x, ev), tr')
      | _, Some (t1, y, t2) => Some (e :: t1, y, t2)
      | _, None => None
      end
    end.
  Lemma files_are : forall a c out, nth_error stages a = Some (c, out) -> exists set, configured ExL.E ConfigProps.no_base fs [] "" "" (PipeProps.P1 files) a c set out.
  Proof.
    refine (stages_are _ _ _ _ _ _ _ cs sets (fst prep) outs _ _ _ _).
    - apply of_option. vm_compute. reflexivity.
    - vm_compute. reflexivity.
    - apply of_option. vm_compute. reflexivity.
    - unfold outs. rewrite <- surjective_pairing. apply of_option. vm_compute. reflexivity.
  Qed.
  Lemma runs acts : match prog_run stages prog_init acts with Some _ => true | None => false end = true -> prog_run stages prog_init acts = Some (after acts, tr_of acts).
  Proof. unfold after, tr_of. destruct (prog_run stages prog_init acts) as [[st tr]|]; [reflexivity|discriminate]. Qed.
  Lemma cut_at j tr : forall t1 x ev t2, cut j tr = Some (t1, (x, ev), t2) -> tr = t1 ++ (j, WC x ev) :: t2.
  Proof.
    induction tr as [|[n e] tr IH]; intros t1 x ev t2 H; [discriminate|]. cbn in H. destruct (Nat.eqb_spec n j) as [->|N].
    - destruct e as [e|y e]; [|injection H as <- <- <- <-; reflexivity]. destruct (cut j tr) as [[[u y] v]|]; [|discriminate]. injection H as <- -> <-. cbn. f_equal. now apply IH.
    - destruct (cut j tr) as [[[u y] v]|]; [|discriminate]. injection H as <- -> <-. cbn. f_equal. now apply IH.
  Qed.
  Definition saw_ok (i : nat) (x : G.client) (a : paction Z) : bool :=
    match a with PStage j (WClient y inp) => (negb (Nat.eqb j i) || ExH.is_saw (WClient y inp))%bool | _ => true end.
  Lemma saw_all i x acts : forallb (saw_ok i x) acts = true -> Forall (saw_in i x) acts.
  Proof.
    intros H. rewrite forallb_forall in H. apply Forall_forall. intros a I. specialize (H a I). destruct a as [|j [a|e g|y inp]|]; cbn; auto. intros -> ->. cbn [saw_ok] in H. rewrite Nat.eqb_refl in H. cbn [negb orb] in H.
    destruct inp as [ce| |se]; cbn in *; auto. destruct (v_res se); [|discriminate]. apply andb_prop in H as (A & B). repeat split; congruence.
  Qed.
  Definition conf (i : nat) : C.stage := nth i (map fst sets) (PipeProps.stage1 "" [] []).
  Definition clients (i : nat) : list (list (list client)) := nth i outs [].
  Definition state (i : nat) (st : pst Z) : wst Z := nth i (p_sts st) (whole_init []).
  Lemma nth_some {A} (l : list A) i d : Nat.ltb i (length l) = true -> nth_error l i = Some (nth i l d).
  Proof. intros H. apply nth_error_nth'. now apply Nat.ltb_lt. Qed.
  Lemma sets_3 : length (map fst sets) = 3%nat.
  Proof. vm_compute. reflexivity. Qed.
  Lemma outs_3 : length outs = 3%nat.
  Proof. vm_compute. reflexivity. Qed.
  Lemma stage_at i : (i < 3)%nat -> nth_error stages i = Some (conf i, clients i).
  Proof.
    intros H. unfold stages, conf, clients. pose proof sets_3 as S3. pose proof outs_3 as O3. revert S3 O3. generalize outs (map fst sets). clear - H. intros o s S3 O3.
    apply combine_nth2; lia.
  Qed.
  Definition exec_in (i : nat) (tr : list (nat * wevent Z)) : bool :=
    existsb (fun e => match e with (j, WC _ (EvExec _ _ _ _ _ _ _)) => Nat.eqb i j | _ => false end) tr.
  Lemma exec_is i tr : exec_in i tr = true -> exists y a b c d e f g, In (i, WC y (EvExec a b c d e f g)) tr.
  Proof.
    intros H. apply existsb_exists in H as ([j [e|y e]] & I & H); [discriminate|]. destruct e; try discriminate. apply Nat.eqb_eq in H. subst j. eauto 10.
  Qed.
End ExP2.

(** Three stages, all run to their end; the first has no runtime.  It executed its 3 queries before any client of the second did anything. *)
Example C133_example : exists st tr c out cl t1 x ev t2,
  (forall a c out, nth_error ExP2.stages a = Some (c, out) -> exists set, configured ExL.E ConfigProps.no_base ExP2.fs [] "" "" (PipeProps.P1 ExP2.files) a c set out) /\
  prog_run ExP2.stages prog_init ExP2.all = Some (st, tr) /\ map stage_over (p_sts st) = [true; true; true] /\
  nth_error ExP2.stages 0 = Some (c, out) /\ C.s_runtime c = "" /\ client_is out 0 0 0 cl /\
  tr = t1 ++ (1%nat, WC x ev) :: t2 /\ length (execs (done_by (0%nat, 0%nat) (of_stage 0 t1))) = 3%nat /\ length t2 = 149%nat.
Proof.
  assert (X : match ExP2.cut 1 (ExP2.tr_of ExP2.all) with Some (t1, _, t2) => (Nat.eqb (length (execs (done_by (0%nat, 0%nat) (of_stage 0 t1)))) 3 && Nat.eqb (length t2) 149)%bool | None => false end = true) by (vm_compute; reflexivity).
  destruct (ExP2.cut 1 (ExP2.tr_of ExP2.all)) as [[[t1 [x ev]] t2]|] eqn:Q; [|discriminate]. apply andb_prop in X as (X1 & X2). apply Nat.eqb_eq in X1, X2.
  assert (CI : exists cl, client_is (ExP2.clients 0) 0 0 0 cl) by (do 2 eexists; split; vm_compute; reflexivity). destruct CI as (cl & CI).
  exists (ExP2.after ExP2.all), (ExP2.tr_of ExP2.all), (ExP2.conf 0), (ExP2.clients 0), cl, t1, x, ev, t2.
  split; [exact ExP2.files_are|]. split; [apply ExP2.runs; vm_compute; reflexivity|]. split; [vm_compute; reflexivity|]. split; [apply ExP2.stage_at; lia|]. split; [vm_compute; reflexivity|].
  split; [exact CI|]. split; [apply ExP2.cut_at; exact Q|]. auto.
Qed.

(** The clients of the second stage when the third has begun: 8 steps end both of them. *)
Example C133_after_example : exists st tr0 c out w cl st' tr,
  prog_run ExP2.stages prog_init ExP2.third = Some (st, tr0) /\ nth_error ExP2.stages 1 = Some (c, out) /\ nth_error (p_sts st) 1 = Some w /\
  length (p_sts st) = 3%nat /\ client_is out 0 0 0 cl /\ queries cl <> [] /\
  prog_run ExP2.stages st ExP2.late = Some (st', tr) /\ Forall (saw_in 1 (0%nat, 0%nat)) ExP2.late /\
  length ExP2.late = 8%nat /\ length (filter (step_in 1 (0%nat, 0%nat)) ExP2.late) = 4%nat /\ length (execs (done_by (0%nat, 0%nat) (of_stage 1 tr))) = 1%nat.
Proof.
  assert (CI : exists cl, client_is (ExP2.clients 1) 0 0 0 cl /\ queries cl <> []) by (eexists; split; [eexists; split; vm_compute; reflexivity|vm_compute; discriminate]). destruct CI as (cl & CI & NQ).
  assert (X : match prog_run ExP2.stages (ExP2.after ExP2.third) ExP2.late with Some (_, tr) => Nat.eqb (length (execs (done_by (0%nat, 0%nat) (of_stage 1 tr)))) 1 | None => false end = true) by (vm_compute; reflexivity).
  destruct (prog_run ExP2.stages (ExP2.after ExP2.third) ExP2.late) as [[st' tr]|] eqn:Q; [|discriminate]. apply Nat.eqb_eq in X.
  exists (ExP2.after ExP2.third), (ExP2.tr_of ExP2.third), (ExP2.conf 1), (ExP2.clients 1), (ExP2.state 1 (ExP2.after ExP2.third)), cl, st', tr.
  split; [apply ExP2.runs; vm_compute; reflexivity|]. split; [apply ExP2.stage_at; lia|]. split; [apply ExP2.nth_some; vm_compute; reflexivity|]. split; [vm_compute; reflexivity|].
  split; [exact CI|]. split; [exact NQ|]. split; [exact Q|]. split; [apply ExP2.saw_all; vm_compute; reflexivity|]. split; [vm_compute; reflexivity|]. split; [vm_compute; reflexivity|exact X].
Qed.

(** The full statement is false: a client of the second stage, which has a runtime, sends a query after clients of the third did. *)
Theorem C133_refuted : exists fs Pe (stages : list (C.stage * list (list (list client)))) acts (st : pst Z) tr i j x ev t1 t2,
  (forall a c out, nth_error stages a = Some (c, out) -> exists set, configured ExL.E ConfigProps.no_base fs [] "" "" Pe a c set out) /\
  prog_run stages prog_init acts = Some (st, tr) /\ (i < j)%nat /\ tr = t1 ++ (j, WC x ev) :: t2 /\
  exists y a b c d e f g, In (i, WC y (EvExec a b c d e f g)) t2.
Proof.
  assert (X : match ExP2.cut 2 (ExP2.tr_of ExP2.all) with Some (_, _, t2) => ExP2.exec_in 1 t2 | None => false end = true) by (vm_compute; reflexivity).
  destruct (ExP2.cut 2 (ExP2.tr_of ExP2.all)) as [[[t1 [x ev]] t2]|] eqn:Q; [|discriminate].
  exists ExP2.fs, (PipeProps.P1 ExP2.files), ExP2.stages, ExP2.all, (ExP2.after ExP2.all), (ExP2.tr_of ExP2.all), 1%nat, 2%nat, x, ev, t1, t2.
  split; [exact ExP2.files_are|]. split; [apply ExP2.runs; vm_compute; reflexivity|]. split; [lia|]. split; [apply ExP2.cut_at; exact Q|]. apply ExP2.exec_is. exact X.
Qed.
Print Assumptions C133_refuted.
