(** C104: the statistics of a whole stage. *)
From Verif Require Import Prelude ListAux ScopeModel StmtModel WorkloadModel WorkloadSpec IterSpec ClientModel ClientSpec ClientProps
  StatsModel StatsSpec CollectorModel CollectorSpec TotalModel TotalSpec TotalProofs.
#[local] Open Scope string_scope.
#[local] Open Scope list_scope.

Lemma all_play {V} n (ps : list (played V)) actss : Forall of_group ps -> Forall2 (ran n) ps actss -> Forall2 (plays n) ps actss.
Proof. intros G R. induction R as [|p a ps l H _ IH]; constructor; inv G; auto. now apply ran_plays. Qed.

(** The allocator's clients are such clients. *)
Theorem C104_clients {V} ts ws stage w q t nx nx' out wl gs (ps : list (played V)) :
  allocate ts ws stage w q t nx = Some (nx', out) -> groups ts w = Some (wl, gs) -> no_empty_trx ts wl ->
  Forall (fun p => exists e g k cg, client_at out e g k = Some (pl_c p) /\ cg_at wl gs e g = Some cg /\ pl_lens p = trx_lens ts cg) ps ->
  Forall of_group ps.
Proof.
  intros A G N F. eapply Forall_impl; [|exact F]. intros p (e & g & k & cg & C & CG & E).
  destruct (C30_clients_have_trx _ _ _ _ _ _ _ _ _ _ _ _ _ _ _ _ A G N C CG) as [T O]. split; [now rewrite E|].
  destruct (ws && negb (cg_disableStats cg))%bool; [left|right]; exact O.
Qed.

(** Over all the reports of the stage, every execution by a client with statistics is counted once, in the total
    and under its trx, in its class, and every error.  Partial: no statistics are read while the client is
    writing to them ([C104_refuted]), the last collection is made after the clients are done, and every trx begins
    with a query ([C29_refuted]). *)
Theorem C104_counts_partial {V} flog n (ps : list (played V)) actss :
  Forall of_group ps -> Forall2 (ran n) ps actss ->
  Forall (Forall collected_last) actss -> Forall (Forall (quiet sw_init)) actss ->
  exists w reports, watch_all watch_new (map (fun p => c_stats (pl_c p)) ps) = Some w /\
    stage_reports flog w (concat actss) n = Some reports /\ List.length reports = n /\
    (* the number of clients *)
    wt_clients w = cntN (fun p => existsb (fun s => match s with Some _ => true | None => false end) (c_stats (pl_c p))) ps /\
    (* in total *)
    (forall q, sumN (map (fun r => total_n r q) reports) = executed ps (fun _ => true) q) /\
    (forall code, sumN (map (fun r => total_err r code) reports) = failed ps (fun _ => true) code) /\
    (* for each trx *)
    (forall p name, In p ps -> In (Some name) (c_stats (pl_c p)) ->
      (forall q, sumN (map (fun r => trx_n name r q) reports) = executed ps (String.eqb name) q) /\
      (forall code, sumN (map (fun r => trx_err name r code) reports) = failed ps (String.eqb name) code)).
Proof.
  intros G R CL Q. destruct (stage_counts flog n ps actss (all_play n ps actss G R) CL Q) as (w & reports & H1 & H2 & H3 & H4 & H5).
  exists w, reports. do 3 (split; [assumption|]). split; [exact H2|exact H5].
Qed.

(** In every interleaving, nothing is counted more often than it was executed. *)
Theorem C104_at_most_partial {V} flog n (ps : list (played V)) actss :
  Forall of_group ps -> Forall2 (ran n) ps actss ->
  exists w reports, watch_all watch_new (map (fun p => c_stats (pl_c p)) ps) = Some w /\
    stage_reports flog w (concat actss) n = Some reports /\ List.length reports = n /\
    (forall q, (sumN (map (fun r => total_n r q) reports) <= executed ps (fun _ => true) q)%N) /\
    (forall code, (sumN (map (fun r => total_err r code) reports) <= failed ps (fun _ => true) code)%N) /\
    (forall p name, In p ps -> In (Some name) (c_stats (pl_c p)) ->
      (forall q, (sumN (map (fun r => trx_n name r q) reports) <= executed ps (String.eqb name) q)%N) /\
      (forall code, (sumN (map (fun r => trx_err name r code) reports) <= failed ps (String.eqb name) code)%N)).
Proof. intros G R. exact (stage_le flog n ps actss (all_play n ps actss G R)). Qed.

(** Without periodic statistics: there is one report, made when the clients are done, and it is exact. *)
Theorem C104_one_report_partial {V} flog (ps : list (played V)) actss :
  Forall of_group ps -> Forall2 (ran 1) ps actss -> Forall done_before actss ->
  exists w r, watch_all watch_new (map (fun p => c_stats (pl_c p)) ps) = Some w /\
    stage_reports flog w (concat actss) 1 = Some [r] /\
    (forall q, total_n r q = executed ps (fun _ => true) q) /\
    (forall code, total_err r code = failed ps (fun _ => true) code) /\
    (forall p name, In p ps -> In (Some name) (c_stats (pl_c p)) ->
      (forall q, trx_n name r q = executed ps (String.eqb name) q) /\
      (forall code, trx_err name r code = failed ps (String.eqb name) code)).
Proof.
  intros G R D. destruct (C104_counts_partial flog 1 ps actss G R) as (w & reports & W & E & L & _ & A1 & A2 & A3).
  - eapply Forall_impl; [|exact D]. intros acts. apply Forall_impl. intros a (es & ->). apply (once_ok es).
  - eapply Forall_impl; [|exact D]. intros acts. apply Forall_impl. intros a (es & ->). apply (once_ok es).
  - destruct reports as [|r [|r' l]]; try discriminate L. exists w, r. split; [exact W|]. split; [exact E|].
    assert (S : forall f : _ -> N, sumN (map f [r]) = f r) by (intros; cbn; apply N.add_0_r).
    split; [intros q; rewrite <- A1; symmetry; apply (S (fun r => total_n r q))|].
    split; [intros q; rewrite <- A2; symmetry; apply (S (fun r => total_err r q))|].
    intros p name Ip I. destruct (A3 p name Ip I) as [B1 B2].
    split; [intros q; rewrite <- B1; symmetry; apply (S (fun r => trx_n name r q))|intros q; rewrite <- B2; symmetry; apply (S (fun r => trx_err name r q))].
Qed.

(* ------------------------------------------------------------------------------------ *)
Module ExT.
  Definition evs1 := Eval vm_compute in ExC.trace ExC.c ExC.run.
  Definition evs3 := Eval vm_compute in ExC.trace ExC.c (firstn 9 ExC.run).
  Definition p1 : played Z := Played ExC.c ExC.lens evs1.
  Definition p2 : played Z := Played ExC.c_off [2]%nat (ExC.trace ExC.c_off [IConnect ExC.ok; IGo; IStmt (ExC.se [] None)]).
  Definition p3 : played Z := Played ExC.c ExC.lens evs3.
  Definition ps := [p1; p2; p3].

  Definition sevs (k : nat) (p : played Z) : list sev :=
    flat_map (fun e => match e with EvRecord _ q => [SRec q 7] | EvError _ c => [SErr c] | _ => [] end) (filter (at_slot k) (pl_evs p)).
  Definition rec (l : list sev) : list (swact sev) := flat_map (fun e => [ALoad e; AWrite]) l.
  Definition collect : list (swact sev) := [AReset; AStore; ARead].
  (** one collection; two *)
  Definition mk1 (p : played Z) := map (fun k => rec (sevs k p) ++ collect) [0; 1]%nat.
  Definition mk2 (p : played Z) := map (fun k => rec (firstn 3 (sevs k p)) ++ collect ++ rec (skipn 3 (sevs k p)) ++ collect) [0; 1]%nat.
  Definition acts11 := Eval vm_compute in mk1 p1.
  Definition acts13 := Eval vm_compute in mk1 p3.
  Definition acts21 := Eval vm_compute in mk2 p1.
  Definition acts23 := Eval vm_compute in mk2 p3.
  (** the first collection reads the statistics before the first recording is written *)
  Definition late := Eval vm_compute in map (fun k => match sevs k p3 with e :: l => ALoad e :: collect ++ AWrite :: rec l ++ collect | [] => [] end) [0; 1]%nat.

  Lemma groups : Forall of_group ps.
  Proof.
    assert (T : has_trx ExC.c_off [2]%nat) by (split; [repeat constructor|repeat split]).
    constructor; [|constructor; [|constructor; [|constructor]]].
    - split; [exact ExC.has|]. left. exact ExC.on.
    - split; [exact T|]. right. repeat constructor.
    - split; [exact ExC.has|]. left. exact ExC.on.
  Qed.
  Lemma ran_c (evs : list (event Z)) inps acts n : (exists st pc, client_run ExC.c inps = Some (st, pc, evs)) ->
    (List.length acts = 2)%nat -> (forall k a, nth_error acts k = Some a -> Forall2 same_act (filter (at_slot k) evs) (loads a) /\
      exists s, sw_run sw_init a = Some s /\ List.length (sw_reported s) = n) -> ran n (Played ExC.c ExC.lens evs) acts.
  Proof. intros (st & pc & R) L H. split; [exact ExC.start|]. split; [discriminate|]. split; [eauto|]. split; [exact L|exact H]. Qed.
  Lemma ran2 n : ran n p2 [].
  Proof.
    split; [|split; [discriminate|split; [exists [IConnect ExC.ok; IGo; IStmt (ExC.se [] None)]; eexists; eexists; vm_compute; reflexivity|split; [reflexivity|intros [|k] a; discriminate]]]].
    intros [|[|i]] s E F; try discriminate F; [injection E as <-; reflexivity|]. destruct i; discriminate.
  Qed.
  Ltac slots := intros [|[|k]] a E; [injection E as <-|injection E as <-|destruct k; discriminate E];
    (split; [vm_compute; repeat constructor; vm_compute; intros; discriminate|eexists; split; vm_compute; reflexivity]).
  Lemma ran11 : ran 1 p1 acts11.
  Proof. apply (ran_c _ ExC.run); [eexists; eexists; vm_compute; reflexivity|reflexivity|slots]. Qed.
  Lemma ran31 : ran 1 p3 acts13.
  Proof. apply (ran_c _ (firstn 9 ExC.run)); [eexists; eexists; vm_compute; reflexivity|reflexivity|slots]. Qed.
  Lemma ran12 : ran 2 p1 acts21.
  Proof. apply (ran_c _ ExC.run); [eexists; eexists; vm_compute; reflexivity|reflexivity|slots]. Qed.
  Lemma ran32 : ran 2 p3 acts23.
  Proof. apply (ran_c _ (firstn 9 ExC.run)); [eexists; eexists; vm_compute; reflexivity|reflexivity|slots]. Qed.
  Lemma ran3l : ran 2 p3 late.
  Proof. apply (ran_c _ (firstn 9 ExC.run)); [eexists; eexists; vm_compute; reflexivity|reflexivity|slots]. Qed.

  Lemma last_ok a : (let b := firstn (List.length a - 3) a in
    match sw_run sw_init b with Some s => a = b ++ [AReset; AStore; ARead] /\ sw_client s = None /\ sw_coll s = CIdle | None => False end) -> collected_last a.
  Proof.
    cbn zeta. intros H. destruct (sw_run sw_init (firstn (List.length a - 3) a)) as [s|] eqn:E; [|contradiction]. destruct H as (H1 & H2 & H3).
    exists (firstn (List.length a - 3) a), s. auto.
  Qed.

  Definition flog : Z -> bool * N := fun _ => (false, 3%N).
  Definition counts (reports : option (list (stats * list (string * stats)))) : list (list N) :=
    match reports with
    | Some l => map (fun r => map (total_n r) [READ; WRITE; COMMIT; TOTAL] ++ map (total_err r) [1205; 2013; 1290]%N ++ [trx_n "t" r TOTAL; trx_n "u" r TOTAL]) l
    | None => []
    end.
  Definition reports (acts : list (list (list (swact sev)))) n :=
    match watch_all watch_new (map (fun p => c_stats (pl_c p)) ps) with Some w => stage_reports flog w (concat acts) n | None => None end.
End ExT.

Example C104_example :
  Forall of_group ExT.ps /\ Forall2 (ran 2) ExT.ps [ExT.acts21; []; ExT.acts23] /\
  Forall (Forall collected_last) [ExT.acts21; []; ExT.acts23] /\ Forall (Forall (quiet sw_init)) [ExT.acts21; []; ExT.acts23] /\
  ExT.counts (ExT.reports [ExT.acts21; []; ExT.acts23] 2) = [[2; 4; 0; 10; 0; 0; 0; 6; 4]; [3; 3; 3; 12; 1; 1; 1; 12; 0]]%N /\
  map (executed ExT.ps (fun _ => true)) [READ; WRITE; COMMIT; TOTAL] = [5; 7; 3; 22]%N /\
  map (failed ExT.ps (fun _ => true)) [1205; 2013; 1290]%N = [1; 1; 1]%N /\ executed ExT.ps (String.eqb "u") TOTAL = 4%N.
Proof.
  split; [exact ExT.groups|]. split; [constructor; [exact ExT.ran12|constructor; [apply ExT.ran2|constructor; [exact ExT.ran32|constructor]]]|].
  split; [|split; [|vm_compute; repeat split; reflexivity]].
  - constructor; [|constructor; [constructor|constructor; [|constructor]]]; (constructor; [|constructor; [|constructor]]); apply ExT.last_ok; vm_compute; repeat split; reflexivity.
  - constructor; [|constructor; [constructor|constructor; [|constructor]]]; (constructor; [|constructor; [|constructor]]); vm_compute; tauto.
Qed.
Example C104_one_example :
  Forall of_group ExT.ps /\ Forall2 (ran 1) ExT.ps [ExT.acts11; []; ExT.acts13] /\ Forall done_before [ExT.acts11; []; ExT.acts13] /\
  ExT.counts (ExT.reports [ExT.acts11; []; ExT.acts13] 1) = [[5; 7; 3; 22; 1; 1; 1; 18; 4]]%N.
Proof.
  split; [exact ExT.groups|]. split; [constructor; [exact ExT.ran11|constructor; [apply ExT.ran2|constructor; [exact ExT.ran31|constructor]]]|].
  split; [|vm_compute; reflexivity].
  constructor; [|constructor; [constructor|constructor; [|constructor]]]; (constructor; [|constructor; [|constructor]]);
    [exists (ExT.sevs 0 ExT.p1)|exists (ExT.sevs 1 ExT.p1)|exists (ExT.sevs 0 ExT.p3)|exists (ExT.sevs 1 ExT.p3)]; vm_compute; reflexivity.
Qed.

(** A recording that is written between two collections, to statistics loaded before the first, is in no report. *)
Theorem C104_refuted : exists flog n (ps : list (played Z)) actss w reports,
  Forall of_group ps /\ Forall2 (ran n) ps actss /\ Forall (Forall collected_last) actss /\
  watch_all watch_new (map (fun p => c_stats (pl_c p)) ps) = Some w /\ stage_reports flog w (concat actss) n = Some reports /\
  sumN (map (fun r => total_n r TOTAL) reports) = 4%N /\ executed ps (fun _ => true) TOTAL = 6%N.
Proof.
  exists ExT.flog, 2%nat, [ExT.p3], [ExT.late]. eexists. eexists.
  split; [constructor; [|constructor]; apply (proj1 (Forall_forall _ _) ExT.groups); cbn; auto|].
  split; [constructor; [exact ExT.ran3l|constructor]|]. split.
  - constructor; [|constructor]. constructor; [|constructor; [|constructor]]; apply ExT.last_ok; vm_compute; repeat split; reflexivity.
  - split; [vm_compute; reflexivity|]. split; [vm_compute; reflexivity|]. split; vm_compute; reflexivity.
Qed.

Print Assumptions C104_clients.
Print Assumptions C104_counts_partial.
Print Assumptions C104_at_most_partial.
Print Assumptions C104_one_report_partial.
Print Assumptions C104_refuted.
