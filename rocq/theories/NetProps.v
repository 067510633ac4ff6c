(** A whole run with remote instances: the properties. *)
From Verif Require Import Prelude ConfigModel NetModel NetSpec NetServerProofs NetProofs NetAnyProofs.
From Verif Require ApiSpec ApiProofs ApiReachProofs ApiStuckProofs.
#[local] Open Scope string_scope.
#[local] Open Scope list_scope.

(** * Schedules for the examples *)
Section runs.
  Context (test : bool) (name : nat -> string) (cfg : nat -> stage) (addr msg : string).
  Notation run := (run test name cfg addr msg).
  Notation step := (step test name cfg addr msg).
  Notation reach := (reach test name cfg addr msg).

  Lemma run_any l : forall w w' es tr, reach any w tr -> run w l = Some (w', es) -> reach any w' (tr ++ es).
  Proof.
    induction l as [|a l IH]; intros w w' es tr R H; cbn in H.
    - injection H as <- <-. now rewrite app_nil_r.
    - destruct (step w a) as [[w1 e1]|] eqn:E; [|discriminate]. destruct (run w1 l) as [[w2 e2]|] eqn:E2; [|discriminate].
      injection H as <- <-. rewrite app_assoc. eapply IH; [|exact E2]. econstructor; [exact R|exact I|exact E].
  Qed.

  Definition patientb (w : state) (a : action) : bool :=
    match a with
    | NFail r _ _ | NGive r =>
        match m_fl (w_rem w r) with
        | Some f => match f_req f with
                    | R.GetRun => true
                    | R.PostBoot true => false
                    | _ => match a with NFail _ _ true => false | _ =>
                             match f_conn f with
                             | Some i => match A.s_threads (w_srv w) i with Some _ => false | None => true end
                             | None => true
                             end end
                    end
        | None => true
        end
    | NArrive r read | NReceive r read =>
        match m_fl (w_rem w r) with
        | Some f => match f_req f with R.PostBoot true => Nat.eqb read 0 | _ => true end
        | None => true
        end
    | _ => true
    end.
  Lemma patientb_ok w a : patientb w a = true -> patient w a.
  Proof.
    destruct a; cbn; auto; intros H f Hf; rewrite Hf in H.
    - intros Hq. rewrite Hq in H. now apply Nat.eqb_eq.
    - intros Hq. rewrite Hq in H. now apply Nat.eqb_eq.
    - intros Hq. destruct (f_req f) as [| | |[]|]; try easy; destruct late; try discriminate;
        (split; [|split; [reflexivity|discriminate]]); intros i Hi; rewrite Hi in H; (destruct (A.s_threads (w_srv w) i); [discriminate H|reflexivity]).
    - intros Hq i Hi. rewrite Hi in H. destruct (A.s_threads (w_srv w) i); [|reflexivity]. now destruct (f_req f) as [| | |[]|].
  Qed.
  Fixpoint patient_run (w : state) (l : list action) : bool :=
    match l with
    | [] => true
    | a :: l' => if patientb w a then match step w a with Some (w1, _) => patient_run w1 l' | None => false end else false
    end.
  Lemma run_patient l : forall w w' es tr, reach patient w tr -> patient_run w l = true -> run w l = Some (w', es) -> reach patient w' (tr ++ es).
  Proof.
    induction l as [|a l IH]; intros w w' es tr R P H; cbn in H, P.
    - injection H as <- <-. now rewrite app_nil_r.
    - destruct (patientb w a) eqn:Pa; [|discriminate]. destruct (step w a) as [[w1 e1]|] eqn:E; [|discriminate].
      destruct (run w1 l) as [[w2 e2]|] eqn:E2; [|discriminate].
      injection H as <- <-. rewrite app_assoc. eapply IH; [|exact P|exact E2]. econstructor; [exact R|exact (patientb_ok _ _ Pa)|exact E].
  Qed.
End runs.


(** * C109: no instance runs before all have prepared the stage *)
(** Missing: attempts of requests given up while the server handles them, but for those for the run
    signal, for which it is false. *)
Theorem C109_barrier_partial : forall test name cfg addr msg w tr a w' es m, distinct name ->
  reach test name cfg addr msg patient w tr -> patient w a -> step test name cfg addr msg w a = Some (w', es) ->
  (In (ES (A.ELocal m)) es \/ exists r, In (ER r (Some m) R.QRun) es) ->
  exists L : list (option nat), NoDup L /\ N.of_nat (List.length L) = A.g_inst (A.s_metas (w_srv w) m)
    /\ (forall r, In (Some r) L -> In (ER r (Some m) (R.QPrepare (cfg m) true)) tr)
    /\ (In None L -> A.g_local (A.s_metas (w_srv w) m) = true).
Proof.
  intros test name cfg addr msg w tr a w' es m D R Pa H Hin. pose proof (reach_inv test name cfg addr msg D w tr R) as I.
  apply (all_prepared _ _ _ _ _ _ I). destruct Hin as [Hin|[r Hin]].
  - destruct (server_event _ _ _ _ _ _ _ _ _ _ _ I Pa H Hin) as (b & s' & ses & Hb & Hi).
    now destruct (ApiStuckProofs.local_booted test _ _ _ _ _ _ m (i_reach _ _ _ _ _ I) Hb Hi).
  - destruct (qrun_event test name cfg addr msg D w tr a w' es r (Some m) I H Hin) as (g & [= <-] & _ & Hb). exact Hb.
Qed.

(** * C110: a stage ends only when all its instances have run it *)
(** Missing: as in C109. *)
Theorem C110_end_partial : forall test name cfg addr msg w tr a w' es m, distinct name ->
  reach test name cfg addr msg patient w tr -> patient w a -> step test name cfg addr msg w a = Some (w', es) ->
  In (ES (A.EEnd m)) es ->
  exists L : list (option nat), NoDup L /\ N.of_nat (List.length L) = A.g_inst (A.s_metas (w_srv w) m)
    /\ (forall r, In (Some r) L -> In (ER r (Some m) R.QRunEnd) tr)
    /\ (In None L -> In (ES (A.ELocalDone m)) tr).
Proof.
  intros test name cfg addr msg w tr a w' es m D R Pa H Hin. pose proof (reach_inv test name cfg addr msg D w tr R) as I.
  destruct (server_event _ _ _ _ _ _ _ _ _ _ _ I Pa H Hin) as (b & s' & ses & Hb & Hi).
  destruct (ApiStuckProofs.finished_instances test _ _ _ _ _ m (i_reach _ _ _ _ _ I) Hb Hi) as (L & H1 & H2 & H3 & H4).
  destruct (to_remotes name (fun r => has_run tr r m) L H1) as (L' & G1 & G2 & G3 & G4).
  { intros n Hn. exact (i_done _ _ _ _ _ I m n (proj2 (H3 n Hn))). }
  exists L'. split; [exact G1|]. split; [now rewrite G2|]. split; [intros r Hr; now apply G3|].
  intros Hn. apply server_in. auto.
Qed.

(** * C111: a remote works on the stage the server has given it *)
(** Whatever the network does: a remote prepares only the configuration of a stage to which the
    server has assigned its name, and runs only such a stage after it has prepared it. *)
Theorem C111_own_stage : forall test name cfg addr msg w tr a w' es r st e,
  reach test name cfg addr msg any w tr -> step test name cfg addr msg w a = Some (w', es) -> In (ER r st e) es ->
  match e with
  | R.QPrepare c _ =>
      exists m, st = Some m /\ c = cfg m /\ In (ES (A.EAssigned m (A.clean (name r)) true)) (tr ++ es)
  | R.QRun | R.QRunEnd =>
      exists m, st = Some m /\ In (ER r (Some m) (R.QPrepare (cfg m) true)) (tr ++ es)
        /\ In (ES (A.EAssigned m (A.clean (name r)) true)) (tr ++ es)
  | _ => True
  end.
Proof.
  intros test name cfg addr msg w tr a w' es r st e R H Hin.
  exact (remote_event _ _ _ _ _ _ _ _ _ _ _ _ _ (reach_ainv _ _ _ _ _ _ _ _ R) H Hin).
Qed.

(** * Examples *)
Fixpoint nm (r : nat) : string := match r with O => "a" | S r' => String "a" (nm r') end.
Lemma nm_distinct : distinct nm.
Proof.
  assert (C : forall r, A.clean (nm r) = nm r) by (induction r as [|r IH]; cbn; [|rewrite IH]; reflexivity).
  assert (S : forall r, nm r <> "") by (intros []; discriminate).
  intros r r' H. rewrite !C in H. revert r' H. induction r as [|r IH]; intros [|r'] H; auto; cbn in H; injection H; intros E; auto.
  - symmetry in E. now apply S in E.
  - now apply S in E.
Qed.
Definition nt_stage (k : nat) : stage :=
  Stage (Compute true "2") false "s.yaml" "s" empty_mysql 0 [] "" "" (Stats None "" []) "" [] [].
Definition nrun := run false nm nt_stage "http://h" "oops".
(** A remote gets stage 0, prepares it and reports it; [i]: the first handler. *)
Definition nstep (i : nat) : action := NHandle i true true.
Definition nboot (r i : nat) : list action :=
  [NStart r; NArrive r 0; nstep i; nstep i; NReceive r 0; NLocal r (R.AOutcome true); NLocal r (R.AOutcome true);
   NLocal r (R.AOutcome true); NArrive r 0; nstep (1 + i); nstep (1 + i); nstep (1 + i); nstep (1 + i); NReceive r 0].
Definition nsrv : action := NServer (A.AServer false).
Definition ngo (r i : nat) : list action := [NArrive r 0; nstep i; nstep i; nstep i; nstep i; nstep i; NReceive r 0].
Definition nstage : list action := [NServer (A.ANewStage "s1" 2 true ["a.sql"] true); nsrv].
Definition ndone (r i : nat) : list action :=
  [NLocal r R.ARunEnd; NArrive r 0; nstep i; nstep i; nstep i; nstep i; nstep i; NReceive r 0].
(** Two remotes boot; the first asks for the run signal twice. *)
Definition ntwo : list action :=
  nstage ++ nboot 0 0 ++ [NArrive 0 0; nstep 2; NFail 0 0 false] ++ nboot 1 3 ++ [nsrv; nsrv; nsrv; nsrv; nsrv].

Notation nreach ok := (reach false nm nt_stage "http://h" "oops" ok).
Ltac nopen l :=
  destruct (nrun init l) as [[w tr]|] eqn:E; [|vm_compute in E; discriminate].
Lemma npatient l w tr : nrun init l = Some (w, tr) -> patient_run false nm nt_stage "http://h" "oops" init l = true -> nreach patient w tr.
Proof. intros H P. exact (run_patient _ _ _ _ _ l init w tr [] (reach_init _ _ _ _ _ _) P H). Qed.
Lemma nany l w tr : nrun init l = Some (w, tr) -> nreach any w tr.
Proof. intros H. exact (run_any _ _ _ _ _ l init w tr [] (reach_init _ _ _ _ _ _) H). Qed.

Example C109_barrier_ex : exists w tr w', nreach patient w tr /\ patient w (NReceive 0 0)
  /\ step false nm nt_stage "http://h" "oops" w (NReceive 0 0)
     = Some (w', [ER 0 (Some 0%nat) (R.QAnswer R.GetRun R.OK); ER 0 (Some 0%nat) R.QRun])
  /\ A.g_inst (A.s_metas (w_srv w) 0) = 2%N /\ A.s_threads (w_srv w) 2 <> None.
Proof.
  set (l := ntwo ++ [NArrive 0 0; nstep 5; nstep 5; nstep 5; nstep 5; nstep 5]). nopen l.
  assert (R : nreach patient w tr) by (apply (npatient l); [exact E|vm_compute; reflexivity]).
  vm_compute in E. injection E as <- <-. do 3 eexists. split; [exact R|]. split; [apply patientb_ok; reflexivity|].
  split; [vm_compute; reflexivity|]. split; [reflexivity|discriminate].
Qed.

(** A report of a successful boot that takes longer than a second is sent again, and both count: here
    a stage of two remotes runs though only one has ever prepared it. *)
Theorem C109_refuted : exists w tr, nreach any w tr
  /\ A.g_inst (A.s_metas (w_srv w) 0) = 2%N /\ A.g_local (A.s_metas (w_srv w) 0) = false
  /\ In (ER 0 (Some 0%nat) R.QRun) tr /\ forall r st c ok, In (ER r st (R.QPrepare c ok)) tr -> r = O.
Proof.
  set (l := nstage ++ [NStart 0; NArrive 0 0; nstep 0; nstep 0; NReceive 0 0; NLocal 0 (R.AOutcome true); NLocal 0 (R.AOutcome true);
            NLocal 0 (R.AOutcome true); NArrive 0 0; nstep 1; nstep 1; NFail 0 0 false; NArrive 0 0; nstep 2; nstep 2;
            nstep 1; nstep 2; nstep 1; nstep 2; NReceive 0 0; nsrv; nsrv; nsrv; nsrv; nsrv] ++ ngo 0 3).
  nopen l. exists w, tr. split; [now apply (nany l)|]. vm_compute in E. injection E as <- <-.
  split; [reflexivity|]. split; [reflexivity|]. split; [cbn; auto 30|].
  intros r st c ok Hin. cbn in Hin. repeat (destruct Hin as [Hin|Hin]; [try discriminate Hin; now injection Hin as <-|]). destruct Hin.
Qed.

Example C110_end_ex : exists w tr w', nreach patient w tr /\ patient w nsrv
  /\ step false nm nt_stage "http://h" "oops" w nsrv = Some (w', [ES (A.EEnd 0)])
  /\ A.g_inst (A.s_metas (w_srv w) 0) = 2%N.
Proof.
  set (l := ntwo ++ ngo 0 5 ++ ngo 1 6 ++ ndone 1 7 ++ ndone 0 8 ++ [nsrv; nsrv]). nopen l.
  assert (R : nreach patient w tr) by (apply (npatient l); [exact E|vm_compute; reflexivity]).
  vm_compute in E. injection E as <- <-. do 3 eexists. split; [exact R|]. split; [exact I|].
  split; [vm_compute; reflexivity|reflexivity].
Qed.

(** A report that the stage is done that takes longer than half a second is sent again, and both
    count: here a stage of two remotes ends though one of them still runs. *)
Theorem C110_refuted : exists w tr, nreach any w tr
  /\ A.g_inst (A.s_metas (w_srv w) 0) = 2%N /\ A.g_local (A.s_metas (w_srv w) 0) = false
  /\ In (ES (A.EEnd 0)) tr /\ R.m_phase (m_st (w_rem w 1)) = R.Running "s1" /\ forall st, ~ In (ER 1 st R.QRunEnd) tr.
Proof.
  set (l := nstage ++ nboot 0 0 ++ nboot 1 2 ++ [nsrv; nsrv; nsrv; nsrv; nsrv] ++ ngo 0 4 ++ ngo 1 5 ++
            [NLocal 0 R.ARunEnd; NArrive 0 0; NFail 0 0 false; NArrive 0 0; nstep 6; nstep 7; nstep 6; nstep 7; nstep 6; nstep 7;
             nstep 6; nstep 7; nsrv; nsrv; nsrv]).
  nopen l. exists w, tr. split; [now apply (nany l)|]. vm_compute in E. injection E as <- <-.
  split; [reflexivity|]. split; [reflexivity|]. split; [cbn; auto 50|]. split; [reflexivity|].
  intros st Hin. cbn in Hin. repeat (destruct Hin as [Hin|Hin]; [discriminate Hin|]). destruct Hin.
Qed.

(** The first attempt reaches the server after the second has been answered, and is refused. *)
Example C111_own_stage_ex : exists w tr w', nreach any w tr
  /\ step false nm nt_stage "http://h" "oops" w (NLocal 0 (R.AOutcome true))
     = Some (w', [ER 0 (Some 0%nat) (R.QPrepare (nt_stage 0) true); ER 0 (Some 0%nat) (R.QSend (R.PostBoot false) "s1")])
  /\ In (ES (A.EAssigned 0 "a" true)) tr /\ In (ES (A.EResp "a" A.PBoot true 410)) tr.
Proof.
  set (l := nstage ++ [NStart 0; NFail 0 0 true; NArrive 0 0; nstep 0; nstep 0; NStray 0; NReceive 0 0;
            NLocal 0 (R.AOutcome true); NLocal 0 (R.AOutcome true)]).
  nopen l. pose proof (nany l w tr E) as R. vm_compute in E. injection E as <- <-. do 3 eexists. split; [exact R|].
  split; [vm_compute; reflexivity|]. cbn. auto 20.
Qed.

Print Assumptions C109_barrier_partial.
Print Assumptions C109_refuted.
Print Assumptions C110_end_partial.
Print Assumptions C110_refuted.
Print Assumptions C111_own_stage.
