(** The client-server protocol: the properties. *)
From Verif Require Import Prelude ConfigModel ConfigProofs TrxModel ApiModel ApiSpec ApiProofs ApiServerProofs ApiSeqProofs ApiInvProofs
  ApiReachProofs ApiStuckProofs.
#[local] Open Scope string_scope.
#[local] Open Scope list_scope.

(** * Schedules for the examples *)
Definition get (p : path) (n sid : string) : action := ARequest (Req GET p (Some n) (Some sid) None None).
Definition post (p : path) (n sid : string) : action := ARequest (Req POST p (Some n) (Some sid) None None).
Definition t (i : nat) : action := AThread i (Some "") true.
Definition srv : action := AServer false.

(** A stage of one remote. *)
Definition one_stage : list action := [ANewStage "s1" 1 true ["a.sql"] true; srv].
Definition boot_a : list action := [get PBoot "a" ""; t 0; t 0; post PBoot "a" "s1"; t 1; t 1; t 1; t 1].
Definition run_a : list action := [srv; srv; srv; srv; get PRun "a" "s1"; t 2; t 2; t 2; t 2; t 2].
Definition done_a : list action := [post PRun "a" "s1"; t 3; t 3; t 3; t 3; t 3; srv; srv].

Definition all_a : list action := one_stage ++ boot_a ++ run_a ++ done_a.

Example all_a_run : exists s, run false init all_a = Some (s,
  [EAssigned 0 "a" true; EResp "a" PBoot true 200; EBooted 0 "a"; EResp "a" PBoot false 200; ECount 0 (Some "a");
   ERun 0 "a"; EResp "a" PRun true 200; EDone 0 "a"; EResp "a" PRun false 200; EFinished 0 (Some "a"); EEnd 0])
  /\ run_seq false init all_a = true.
Proof. eexists. split; [vm_compute; reflexivity|vm_compute; reflexivity]. Qed.

Lemma reach_run test l s es : run test init l = Some (s, es) -> run_seq test init l = true -> reach test sequential s es.
Proof. intros H Hs. exact (run_reach_seq test init l s es [] (reach_init _ _) H Hs). Qed.
Lemma reach_any test l s es : run test init l = Some (s, es) -> reach test any s es.
Proof. intros H. exact (run_reach test any init l s es [] (reach_init _ _) H (fun _ _ => I)). Qed.

(** * C49: at most the configured number of remotes, each in order *)
Theorem C49_bound : forall test s tr m, reach test any s tr -> (m < s_nmetas s)%nat ->
  (1 <= g_inst (s_metas s m) < 2 ^ 63)%N ->
  NoDup (map fst (g_clients (s_metas s m)))
  /\ (N.of_nat (List.length (g_clients (s_metas s m)))
      <= (if g_local (s_metas s m) then g_inst (s_metas s m) - 1 else g_inst (s_metas s m)))%N.
Proof.
  intros test s tr m R Hm Hi. destruct (reach_sane _ _ _ _ R) as (B & F & N).
  split; [exact (n_keys _ _ _ N m)|].
  pose proof (n_need _ _ _ N m Hm) as Hn. pose proof (n_bound _ _ _ N m) as Hb.
  assert (P63 : (2 ^ 63 = 9223372036854775808)%N) by reflexivity.
  assert (P64 : (2 ^ 64 = 18446744073709551616)%N) by reflexivity.
  destruct (g_local (s_metas s m)).
  - assert (E : g_need (s_metas s m) = (g_inst (s_metas s m) - 1)%N).
    { rewrite Hn. rewrite P64, P63 in *. replace (g_inst (s_metas s m) + 18446744073709551616 - 1)%N
        with ((g_inst (s_metas s m) - 1) + 1 * 18446744073709551616)%N by lia.
      rewrite N.mod_add by lia. apply N.mod_small. lia. }
    rewrite E in Hb. apply Hb. lia.
  - rewrite Hn in Hb. apply Hb. lia.
Qed.
Example C49_bound_ex : exists s tr, reach false any s tr /\ (0 < s_nmetas s)%nat
  /\ g_inst (s_metas s 0) = 1%N /\ g_local (s_metas s 0) = false /\ map fst (g_clients (s_metas s 0)) = ["a"].
Proof.
  destruct (run false init (one_stage ++ boot_a)) as [[s tr]|] eqn:E; [|vm_compute in E; discriminate].
  exists s, tr. split; [exact (reach_any _ _ _ _ E)|]. vm_compute in E. injection E as <- _. vm_compute. auto.
Qed.

(** A remote gets the run signal after it reported a successful boot, reports that it is done after
    it got the run signal and only once, and only statistics of running remotes count.  Missing:
    remotes whose requests to boot or to report overlap, for which it is false. *)
Theorem C49_order_partial : forall test s tr a s' es m n, reach test sequential s tr -> sequential s a ->
  step test s a = Some (s', es) ->
  (In (ERun m n) es -> In (EBooted m n) tr)
  /\ (In (EDone m n) es -> In (ERun m n) tr /\ ~ In (EFinished m (Some n)) tr)
  /\ (In (EStats m n) es -> In (ERun m n) tr).
Proof.
  intros test s tr a s' es m n R Hs H. split; [|split]; intros Hin.
  - now apply (run_signal_seq test s tr a s' es m n R Hs H Hin).
  - destruct (done_after_run test s tr a s' es m n R Hs H Hin) as [H1 H2]. split; [exact H1|].
    intros Hf. apply H2. unfold fin. apply in_app_iff. left. unfold finished. apply in_flat_map.
    exists (EFinished m (Some n)). split; [exact Hf|]. cbn. rewrite Nat.eqb_refl. now left.
  - now apply (stats_while_running test s tr a s' es m n R Hs H Hin).
Qed.
Example C49_order_ex : exists s tr s', reach false sequential s tr /\ sequential s (t 2)
  /\ step false s (t 2) = Some (s', [ERun 0 "a"; EResp "a" PRun true 200]) /\ In (EBooted 0 "a") tr.
Proof.
  set (l := one_stage ++ boot_a ++ [srv; srv; srv; srv; get PRun "a" "s1"; t 2; t 2; t 2]).
  destruct (run false init l) as [[s tr]|] eqn:E; [|vm_compute in E; discriminate].
  assert (R : reach false sequential s tr) by (apply (reach_run _ l); [exact E|vm_compute; reflexivity]).
  vm_compute in E. injection E as <- <-. do 3 eexists. split; [exact R|]. split; [exact I|]. split; [reflexivity|]. vm_compute. auto.
Qed.

(** Requests that name no instance or no stage, come from instances that are not in the stage (but
    for GET /boot) or name another stage than the current one are refused and change nothing. *)
Theorem C49_refused : forall test s q,
  (q_method q = OTHER
   \/ q_name q = None
   \/ q_sid q = None
   \/ s_cur s = None
   \/ exists m n sid, s_cur s = Some m /\ q_name q = Some n /\ q_sid q = Some sid
        /\ match sget (clean n) (g_clients (s_metas s m)) with
           | None => ~ (q_method q = GET /\ q_path q = PBoot)
           | Some _ => g_done (s_metas s m) = false /\ clean sid <> g_id (s_metas s m)
           end) ->
  exists name code, step test s (ARequest q) = Some (s, [EResp name (q_path q) (is_get q) code])
    /\ (code = 400 \/ code = 405 \/ code = 410)%nat.
Proof.
  intros test s q H. unfold step, request_step.
  assert (X : exists code, api_client s q = Refused code /\ (code = 400 \/ code = 405 \/ code = 410)%nat).
  { unfold api_client. destruct H as [->|[E|[E|[E|(m & n & sid & Hc & Hn & Hs & H)]]]]; [eauto| | | |].
    - rewrite E. destruct (q_method q); eauto.
    - rewrite E. destruct (q_method q), (q_name q); eauto.
    - rewrite E. destruct (q_method q), (q_name q), (q_sid q); eauto.
    - rewrite Hc, Hn, Hs. destruct (sget (clean n) (g_clients (s_metas s m))).
      + destruct H as [-> H]. destruct (String.eqb_spec (g_id (s_metas s m)) (clean sid)) as [E|]; [congruence|]. cbn.
        destruct (q_method q); eauto.
      + destruct (q_method q); eauto. destruct (q_path q); eauto. exfalso. now apply H. }
  destruct X as (code & -> & Hcode). eauto.
Qed.
Example C49_refused_ex : exists s tr, reach false any s tr
  /\ step false s (get PRun "b" "s1") = Some (s, [EResp "b" PRun true 410])
  /\ step false s (get PRun "a" "s0") = Some (s, [EResp "a" PRun true 410])
  /\ exists s', run false s [get PRun "a" "s1"; t 1] = Some (s', [EResp "a" PRun true 412]).
Proof.
  set (l := one_stage ++ [get PBoot "a" ""; t 0; t 0]).
  destruct (run false init l) as [[s tr]|] eqn:E; [|vm_compute in E; discriminate].
  assert (R : reach false any s tr) by (now apply (reach_any _ l)).
  vm_compute in E. injection E as <- <-. do 2 eexists. split; [exact R|]. repeat split. eexists. vm_compute. reflexivity.
Qed.

(** Requests out of order are refused and change nothing either. *)
Theorem C49_out_of_order : forall test s i c p body ok s' es,
  s_threads s i = Some (c, p) ->
  match p with
  | GetBootCheck => r_state (s_rcs s c) <> Ready
  | PostBootCheck | FileCheck _ _ => r_state (s_rcs s c) <> Booting
  | GetRunCheck => r_state (s_rcs s c) <> Runnable
  | PostRunCheck | StatsCheck => r_state (s_rcs s c) <> Running
  | _ => False
  end ->
  step test s (AThread i body ok) = Some (s', es) ->
  same_stages s s' /\ s_threads s' i = None
  /\ exists path get, es = [EResp (r_name (s_rcs s c)) path get 412].
Proof.
  intros test s i c p body ok s' es Hi Hp H. unfold step in H. rewrite Hi in H.
  assert (N : forall x y, x <> y -> rstate_eqb x y = false) by (intros [] []; easy).
  destruct p; try easy; unfold thread_step in H; cbv zeta in H; rewrite (N _ _ Hp) in H; injection H as <- <-;
    (split; [repeat split|split; [cbn; now rewrite upd_same|eauto]]).
Qed.
Example C49_out_of_order_ex : exists s tr s', reach false any s tr /\ s_threads s 1 = Some (0%nat, GetRunCheck)
  /\ r_state (s_rcs s 0) = Booting /\ step false s (t 1) = Some (s', [EResp "a" PRun true 412]).
Proof.
  set (l := one_stage ++ [get PBoot "a" ""; t 0; t 0; get PRun "a" "s1"]).
  destruct (run false init l) as [[s tr]|] eqn:E; [|vm_compute in E; discriminate].
  assert (R : reach false any s tr) by (now apply (reach_any _ l)).
  vm_compute in E. injection E as <- <-. do 3 eexists. split; [exact R|]. repeat split.
Qed.

(** It is false that requests for another stage are always refused: while a stage is being ended
    (Stage has set [done]) the stage ID is not looked at, so a remote can end the stage by a request for another one. *)
Theorem C49_refuted : exists s tr s' es, reach false sequential s tr
  /\ s_cur s = Some 0%nat /\ g_id (s_metas s 0) = "s1" /\ ~ In (EDone 0 "a") tr
  /\ run false s [post PRun "a" "another"; t 3; t 3; t 3; t 3; t 3] = Some (s', es)
  /\ In (EDone 0 "a") es /\ In (EResp "a" PRun false 200) es.
Proof.
  set (l := one_stage ++ boot_a ++ run_a ++ [ACancel; AServer true; srv; srv]).
  destruct (run false init l) as [[s tr]|] eqn:E; [|vm_compute in E; discriminate].
  assert (R : reach false sequential s tr) by (apply (reach_run _ l); [exact E|vm_compute; reflexivity]).
  vm_compute in E. injection E as <- <-. do 4 eexists. split; [exact R|].
  split; [reflexivity|]. split; [reflexivity|]. split; [vm_compute; intuition discriminate|]. split; [vm_compute; reflexivity|].
  split; [now left|right; now left].
Qed.

(** * C50: booting again after a failure *)
(** What it has to do is report success without asking again: POST /boot with the stage's ID. *)
Theorem C50_again_partial : forall test s m n c sid i, s_cur s = Some m ->
  sget n (g_clients (s_metas s m)) = Some c -> r_name (s_rcs s c) = n -> r_stage (s_rcs s c) = Some m ->
  r_state (s_rcs s c) = Booting -> clean n = n -> clean sid = g_id (s_metas s m) ->
  (N.of_nat (List.length (g_bootq (s_metas s m))) < g_inst (s_metas s m))%N ->
  i = s_nthreads s ->
  exists s', run test s [post PBoot n sid; t i; t i; t i; t i] = Some (s', [EBooted m n; EResp n PBoot false 200])
    /\ r_state (s_rcs s' c) = Runnable
    /\ g_bootq (s_metas s' m) = g_bootq (s_metas s m) ++ [(Some n, false)].
Proof.
  intros test s m n c sid i Hc Hg Hn Hst Hs Hcn Hid Hl ->.
  assert (A : api_client s (Req POST PBoot (Some n) (Some sid) None None) = Known c).
  { unfold api_client. cbn. rewrite Hc, Hcn, Hg, Hid, String.eqb_refl. now destruct (g_done (s_metas s m)). }
  eexists. split.
  - apply N.ltb_lt in Hl. unfold run, post. unfold step at 1. unfold request_step. rewrite A. cbn -[N.ltb N.of_nat upd].
    do 8 (rewrite ?upd_same, ?Hst, ?Hs, ?Hn, ?Hl; cbn -[N.ltb N.of_nat upd]). reflexivity.
  - cbn. rewrite !upd_same. split; reflexivity.
Qed.
Example C50_again_ex : exists s tr, reach false sequential s tr /\ In (EFailed 0 "a") tr
  /\ s_cur s = Some 0%nat /\ sget "a" (g_clients (s_metas s 0)) = Some 0%nat /\ r_state (s_rcs s 0) = Booting
  /\ r_stage (s_rcs s 0) = Some 0%nat /\ g_bootq (s_metas s 0) = [] /\ g_inst (s_metas s 0) = 1%N.
Proof.
  set (l := one_stage ++ [get PBoot "a" ""; t 0; t 0; post PBoot "a" "s1"; t 1; AThread 1 (Some "error") true; t 1; t 1; srv]).
  destruct (run false init l) as [[s tr]|] eqn:E; [|vm_compute in E; discriminate].
  assert (R : reach false sequential s tr) by (apply (reach_run _ l); [exact E|vm_compute; reflexivity]).
  vm_compute in E. injection E as <- <-. do 2 eexists. split; [exact R|]. vm_compute. auto 10.
Qed.

(** But asking for /boot again gets it nowhere: whatever the remotes ask for (any number of GET
    /boot, with any stage ID), no remote is assigned, counted or run. *)
Theorem C50_refuted : exists s tr, reach false sequential s tr
  /\ In (EFailed 0 "a") tr /\ ~ In (EBooted 0 "a") tr
  /\ forall l s' es,
       Forall (fun a => forall q, a = ARequest q -> q_path q = PBoot -> q_method q = POST -> q_name q <> Some "a") l ->
       Forall (fun a => forall q, a = ARequest q -> option_map clean (q_name q) = q_name q) l ->
       run false s l = Some (s', es) ->
       forall e, In e es -> match e with
                            | EAssigned _ _ _ | EBooted _ _ | ECount _ _ | ERun _ _ | ELocal _ => False
                            | _ => True
                            end.
Proof.
  set (l := one_stage ++ [get PBoot "a" ""; t 0; t 0; post PBoot "a" "s1"; t 1; AThread 1 (Some "error") true; t 1; t 1]).
  destruct (run false init l) as [[s tr]|] eqn:E; [|vm_compute in E; discriminate].
  assert (R : reach false sequential s tr) by (apply (reach_run _ l); [exact E|vm_compute; reflexivity]).
  exists s, tr. split; [exact R|].
  pose proof (reach_bound _ _ _ _ R) as B.
  assert (K : stuck 0 s /\ skeys (g_clients (s_metas s 0)) = ["a"] /\ In (EFailed 0 "a") tr /\ ~ In (EBooted 0 "a") tr).
  { vm_compute in E. injection E as <- <-. split; [|split; [reflexivity|split; [vm_compute; auto|vm_compute; intuition discriminate]]].
    split; cbn; try reflexivity; try (repeat split; fail).
    - intros n c. destruct (String.eqb n "a"); [|easy]. intros [= <-]. auto.
    - intros i c p. repeat (destruct i as [|i]; [discriminate|]). discriminate.
    - right. exists 0%N. split; [reflexivity|discriminate].
    - repeat constructor. }
  destruct K as (K & Kk & Hf & Hb). split; [exact Hf|]. split; [exact Hb|]. intros l' s' es Hl Hcl H.
  assert (Q : Forall (quiet (skeys (g_clients (s_metas s 0)))) l').
  { rewrite Kk. rewrite Forall_forall in *. intros a Ha q n -> Hp Hm Hn [Hin|[]]. apply (Hl _ Ha q eq_refl Hp Hm).
    pose proof (Hcl _ Ha q eq_refl) as X. rewrite Hn in X. cbn in X. congruence. }
  destruct (stuck_run false 0 l' s s' es B K Q H) as (_ & _ & F). rewrite Forall_forall in F.
  intros e He. specialize (F e He). now destruct e.
Qed.

(** * C51: no instance runs before all booted *)
(** Missing: remotes whose requests to boot or to report overlap, for which it is false. *)
Theorem C51_barrier_partial : forall test s tr a s' es m, reach test sequential s tr -> sequential s a ->
  step test s a = Some (s', es) ->
  (In (ELocal m) es \/ exists n, In (ERun m n) es) ->
  test = false
  /\ exists L, NoDup L /\ N.of_nat (List.length L) = g_inst (s_metas s m)
       /\ (forall n, In (Some n) L -> In (EBooted m n) tr) /\ (In None L -> g_local (s_metas s m) = true).
Proof.
  intros test s tr a s' es m R Hs H Hin. destruct (reach_sane _ _ _ _ R) as (B & F & N).
  assert (X : g_booted (s_metas s m) = true /\ test = false).
  { destruct Hin as [Hin|[n Hin]].
    - now destruct (local_booted test sequential s tr a s' es m R H Hin) as (? & ? & ?).
    - destruct (run_signal_seq test s tr a s' es m n R Hs H Hin) as (_ & Hr). now apply (n_run _ _ _ N). }
  split; [easy|]. now apply (booted_instances test).
Qed.
(** A remote that asks for the run signal again, because its first request took too long. *)
Example C51_again_ex : exists s tr s', reach false sequential s tr
  /\ s_threads s 2 = Some (0%nat, GetRunWrite) /\ s_threads s 3 = Some (0%nat, GetRunWrite)
  /\ step false s (t 3) = Some (s', [ERun 0 "a"; EResp "a" PRun true 200]).
Proof.
  set (l := one_stage ++ boot_a ++ [get PRun "a" "s1"; t 2; get PRun "a" "s1"; t 3; srv; srv; srv; srv; t 2; t 2; t 3; t 3]).
  destruct (run false init l) as [[s tr]|] eqn:E; [|vm_compute in E; discriminate].
  assert (R : reach false sequential s tr) by (apply (reach_run _ l); [exact E|vm_compute; reflexivity]).
  vm_compute in E. injection E as <- <-. do 3 eexists. split; [exact R|]. repeat split.
Qed.
Example C51_barrier_ex : exists s tr s', reach false sequential s tr /\ g_inst (s_metas s 0) = 2%N
  /\ step false s srv = Some (s', [ELocal 0]) /\ In (EBooted 0 "a") tr.
Proof.
  set (l := [ANewStage "s1" 2 false ["a.sql"] true; srv] ++ boot_a ++ [srv; srv; srv; srv]).
  destruct (run false init l) as [[s tr]|] eqn:E; [|vm_compute in E; discriminate].
  assert (R : reach false sequential s tr) by (apply (reach_run _ l); [exact E|vm_compute; reflexivity]).
  vm_compute in E. injection E as <- <-. do 3 eexists. split; [exact R|]. split; [reflexivity|]. split; [reflexivity|]. vm_compute. auto.
Qed.

(** With any requests, the number of acks counted is the number of instances when the local
    instance starts. *)
Theorem C51_local : forall test s tr a s' es m, reach test any s tr ->
  step test s a = Some (s', es) -> In (ELocal m) es ->
  N.of_nat (List.length (counted m tr)) = g_inst (s_metas s m) /\ test = false.
Proof.
  intros test s tr a s' es m R H Hin. destruct (reach_sane _ _ _ _ R) as (B & F & N).
  destruct (local_booted test any s tr a s' es m R H Hin) as (Hb & _ & Ht). split; [|exact Ht]. now apply (n_booted _ _ _ N).
Qed.

(** With --test nothing runs, whatever is requested. *)
Theorem C51_test : forall s tr, reach true any s tr ->
  forall e, In e tr -> match e with ELocal _ | ERun _ _ => False | _ => True end.
Proof.
  intros s tr R. induction R as [|s tr a s' es R IH Hok H]; [easy|]. intros e He. apply in_app_iff in He as [He|He]; [exact (IH _ He)|].
  destruct e; try exact I.
  - destruct (test_no_run _ _ _ R) as [_ T]. step_cases H; cbn in He; try (intuition discriminate).
    all: match goal with X : s_threads _ _ = Some (_, _) |- _ => apply T in X; discriminate X end.
  - now destruct (local_booted true any s tr a s' es m R H He).
Qed.
Example C51_test_ex : exists s tr, reach true any s tr /\ In (ECount 0 (Some "a")) tr /\ s_server s = Idle.
Proof.
  set (l := one_stage ++ boot_a ++ [srv; srv; srv]).
  destruct (run true init l) as [[s tr]|] eqn:E; [|vm_compute in E; discriminate].
  exists s, tr. split; [now apply (reach_any _ l)|]. vm_compute in E. injection E as <- <-. vm_compute. auto 10.
Qed.

(** Two overlapping POST /boot of one remote are counted as two instances: here a stage of two
    remotes runs though only one has booted. *)
Theorem C51_refuted : exists s tr, reach false any s tr
  /\ g_inst (s_metas s 0) = 2%N /\ g_local (s_metas s 0) = false
  /\ In (ERun 0 "a") tr /\ forall n, In (EBooted 0 n) tr -> n = "a".
Proof.
  set (l := [ANewStage "s1" 2 true ["a.sql"] true; srv; get PBoot "a" ""; t 0; t 0;
             post PBoot "a" "s1"; post PBoot "a" "s1"; t 1; t 2; t 1; t 2; t 1; t 2; t 1; t 2;
             srv; srv; srv; srv; srv; get PRun "a" "s1"; t 3; t 3; t 3; t 3; t 3]).
  destruct (run false init l) as [[s tr]|] eqn:E; [|vm_compute in E; discriminate].
  exists s, tr. split; [now apply (reach_any _ l)|]. vm_compute in E. injection E as <- <-.
  split; [reflexivity|]. split; [reflexivity|]. split; [vm_compute; auto 12|].
  intros n Hn. cbn in Hn. repeat (destruct Hn as [Hn|Hn]; [try discriminate Hn; now injection Hn as <-|]). destruct Hn.
Qed.

(** * C53: ending a stage *)
(** When the remotes have left, Stage goes on. *)
Theorem C53_left_partial : forall test s old next k d, s_server s = Stage3 old next k ->
  g_clients (s_metas s old) = [] ->
  exists s' s'', step test s (AServer d) = Some (s', []) /\ step test s' (AServer d) = Some (s'', [])
    /\ s_cur s'' = next /\ s_server s'' = k.
Proof.
  intros test s old next k d Hv Hc. cbn. unfold server_step. rewrite Hv, Hc. do 2 eexists. split; [reflexivity|].
  cbn. repeat split.
Qed.
Example C53_left_ex : exists s tr, reach false sequential s tr /\ s_server s = Stage3 0 (Some 1%nat) (Boot 1 0)
  /\ g_clients (s_metas s 0) = [].
Proof.
  set (l := all_a ++ [ANewStage "s2" 1 true ["a.sql"] true; srv; srv]).
  destruct (run false init l) as [[s tr]|] eqn:E; [|vm_compute in E; discriminate].
  assert (R : reach false sequential s tr) by (apply (reach_run _ l); [exact E|vm_compute; reflexivity]).
  vm_compute in E. injection E as <- <-. do 2 eexists. split; [exact R|]. vm_compute. auto.
Qed.

(** If a remote is lost it never goes on: whatever happens, for any time, the server stays where
    it is as long as the remote sends nothing. *)
Theorem C53_refuted : exists s tr, reach false sequential s tr
  /\ s_cancelled s = true
  /\ s_server s = Stage3 0 None (RunWait 0 1)
  /\ forall l s' es,
       Forall (fun a => forall q, a = ARequest q -> option_map clean (q_name q) <> Some "a") l ->
       run false s l = Some (s', es) -> s_server s' = Stage3 0 None (RunWait 0 1) /\ ~ In (EEnd 0) es.
Proof.
  set (l := one_stage ++ boot_a ++ run_a ++ [ACancel; AServer true; srv; srv]).
  destruct (run false init l) as [[s tr]|] eqn:E; [|vm_compute in E; discriminate].
  assert (R : reach false sequential s tr) by (apply (reach_run _ l); [exact E|vm_compute; reflexivity]).
  exists s, tr. split; [exact R|]. pose proof (reach_bound _ _ _ _ R) as B.
  assert (K : waits "a" 0 s /\ s_server s = Stage3 0 None (RunWait 0 1) /\ s_cancelled s = true).
  { vm_compute in E. injection E as <- <-. split; [|split; reflexivity]. split; [cbn; eauto|]. split; [vm_compute; easy|].
    intros i c p. cbn. repeat (destruct i as [|i]; [discriminate|]). discriminate. }
  destruct K as (K & Hv & Hcc). split; [exact Hcc|]. split; [exact Hv|]. intros l' s' es Hl H.
  clear E l R tr Hcc. revert s es B K Hv Hl H. induction l' as [|a l IH]; cbn; intros s es B K Hv Hl H.
  - injection H as <- <-. auto.
  - destruct (step false s a) as [[s1 e1]|] eqn:E; [|discriminate].
    destruct (run false s1 l) as [[s2 e2]|] eqn:E2; [|discriminate]. injection H as <- <-. inv Hl.
    destruct (waits_step false "a" 0 s a s1 e1 B K H1 E) as (K1 & V1). rewrite Hv in V1.
    destruct (IH s1 e2 (bound_step _ _ _ _ _ B E) K1 V1 H2 E2) as (V2 & He). split; [exact V2|].
    rewrite in_app_iff. intros [Hin|Hin]; [|easy]. clear - E Hin Hv.
    step_cases E; cbn in Hin; try (intuition discriminate); congruence.
Qed.

(** * C73: a stage ends only when all its instances are done *)
(** Missing: remotes whose requests to boot or to report overlap. *)
Theorem C73_end_partial : forall test s tr a s' es m, reach test sequential s tr ->
  step test s a = Some (s', es) -> In (EEnd m) es ->
  exists L, NoDup L /\ N.of_nat (List.length L) = g_inst (s_metas s m)
    /\ (forall n, In (Some n) L -> In (EBooted m n) tr /\ In (EDone m n) tr) /\ (In None L -> In (ELocalDone m) tr).
Proof. exact finished_instances. Qed.
Example C73_end_ex : exists s tr s', reach false sequential s tr /\ g_inst (s_metas s 0) = 1%N
  /\ step false s srv = Some (s', [EEnd 0]) /\ In (EDone 0 "a") tr.
Proof.
  set (l := one_stage ++ boot_a ++ run_a ++ [post PRun "a" "s1"; t 3; t 3; t 3; t 3; t 3; srv]).
  destruct (run false init l) as [[s tr]|] eqn:E; [|vm_compute in E; discriminate].
  assert (R : reach false sequential s tr) by (apply (reach_run _ l); [exact E|vm_compute; reflexivity]).
  vm_compute in E. injection E as <- <-. do 3 eexists. split; [exact R|]. split; [reflexivity|]. split; [reflexivity|]. vm_compute. auto 12.
Qed.
(** With any requests the number of done messages counted is the number of instances. *)
Theorem C73_count : forall test s tr a s' es m, reach test any s tr ->
  step test s a = Some (s', es) -> In (EEnd m) es -> N.of_nat (List.length (finished m tr)) = g_inst (s_metas s m).
Proof.
  intros test s tr a s' es m R H Hin. destruct (reach_sane _ _ _ _ R) as (B & F & N). pose proof (n_srv _ _ _ N) as V.
  destruct a; try (exfalso; step_cases H; cbn in Hin; intuition discriminate; fail).
  unfold step, server_step in H. destruct (s_server s); try discriminate; cbn in V.
  all: cbv zeta in H; repeat (dmh H; try discriminate H); try discriminate H; injection H as <- <-; cbn in Hin; try (intuition discriminate).
  destruct Hin as [[= <-]|[]]. apply N.eqb_eq in Heqb. lia.
Qed.
(** Two overlapping POST /run of one remote end the stage though another remote still runs. *)
Theorem C73_refuted : exists s tr, reach false any s tr
  /\ g_inst (s_metas s 0) = 2%N /\ g_local (s_metas s 0) = false
  /\ In (EEnd 0) tr /\ In (ERun 0 "b") tr /\ ~ In (EDone 0 "b") tr.
Proof.
  set (l := [ANewStage "s1" 2 true ["a.sql"] true; srv; get PBoot "a" ""; t 0; t 0; get PBoot "b" ""; t 1; t 1;
             post PBoot "a" "s1"; t 2; t 2; t 2; t 2; post PBoot "b" "s1"; t 3; t 3; t 3; t 3;
             srv; srv; srv; srv; srv; get PRun "a" "s1"; t 4; t 4; t 4; t 4; t 4; get PRun "b" "s1"; t 5; t 5; t 5; t 5; t 5;
             post PRun "a" "s1"; post PRun "a" "s1"; t 6; t 7; t 6; t 7; t 6; t 7; t 6; t 7; srv; srv; srv]).
  destruct (run false init l) as [[s tr]|] eqn:E; [|vm_compute in E; discriminate].
  exists s, tr. split; [now apply (reach_any _ l)|]. vm_compute in E. injection E as <- <-.
  split; [reflexivity|]. split; [reflexivity|]. split; [vm_compute; auto 30|]. split; [vm_compute; auto 30|]. vm_compute. intuition discriminate.
Qed.

(** * C74: --test releases the remotes *)
(** It never does: with --test no request for /run is ever answered with "run" or "reset". *)
Theorem C74_refuted : forall s tr n code, reach true any s tr -> In (EResp n PRun true code) tr ->
  code <> 200%nat /\ code <> 205%nat.
Proof.
  intros s tr n code R. induction R as [|s tr a s' es R IH Hok H]; [easy|]. intros He. apply in_app_iff in He as [He|He]; [exact (IH He)|].
  destruct (test_no_run _ _ _ R) as [_ T]. step_cases H; cbn in He; try (intuition discriminate).
  all: try (match goal with X : s_threads _ _ = Some (_, _) |- _ => apply T in X; discriminate X end).
  all: destruct He as [He|[]]; injection He; intros; subst; try easy.
  all: match goal with X : api_client _ _ = Refused _ |- _ => unfold api_client in X;
    repeat (dmh X; try discriminate X); injection X as <-; easy end.
Qed.
(** A remote that booted waits for it. *)
Example C74_ex : exists s tr, reach true any s tr /\ In (EBooted 0 "a") tr /\ s_threads s 2 = Some (0%nat, GetRunWait)
  /\ s_server s = Stage3 0 (Some 1%nat) (Boot 1 0) /\ sget "a" (g_clients (s_metas s 0)) = Some 0%nat.
Proof.
  set (l := one_stage ++ boot_a ++ [srv; srv; srv; get PRun "a" "s1"; t 2; ANewStage "s2" 1 true ["a.sql"] true; srv; srv]).
  destruct (run true init l) as [[s tr]|] eqn:E; [|vm_compute in E; discriminate].
  exists s, tr. split; [now apply (reach_any _ l)|]. vm_compute in E. injection E as <- <-. vm_compute. auto 10.
Qed.

(** * C75: a place is only given to a remote that waits for it *)
(** A remote that has gone while waiting is given the place all the same (writing the answer fails),
    and nobody else gets it. *)
Theorem C75_refuted : exists s tr, reach false sequential s tr
  /\ In (EAssigned 0 "a" false) tr /\ s_threads s 1 = Some (1%nat, GetBootWait) /\ r_name (s_rcs s 1) = "b"
  /\ forall l s' es,
       Forall (fun a => forall q, a = ARequest q -> option_map clean (q_name q) <> Some "a") l ->
       run false s l = Some (s', es) ->
       forall e, In e es -> match e with
                            | EAssigned _ _ _ | EBooted _ _ | ECount _ _ | ERun _ _ | ELocal _ => False
                            | _ => True
                            end.
Proof.
  set (l := one_stage ++ [get PBoot "a" ""; t 0; get PBoot "b" ""; t 1; AThread 0 None false]).
  destruct (run false init l) as [[s tr]|] eqn:E; [|vm_compute in E; discriminate].
  assert (R : reach false sequential s tr) by (apply (reach_run _ l); [exact E|vm_compute; reflexivity]).
  exists s, tr. split; [exact R|]. pose proof (reach_bound _ _ _ _ R) as B.
  assert (K : stuck 0 s /\ skeys (g_clients (s_metas s 0)) = ["a"] /\ In (EAssigned 0 "a" false) tr
     /\ s_threads s 1 = Some (1%nat, GetBootWait) /\ r_name (s_rcs s 1) = "b").
  { vm_compute in E. injection E as <- <-. split; [|split; [reflexivity|vm_compute; auto]].
    split; cbn; try reflexivity; try (repeat split; fail).
    - intros n c. destruct (String.eqb n "a"); [|easy]. intros [= <-]. auto.
    - intros i c p. repeat (destruct i as [|i]; [intros [=]; subst; try exact I|]). discriminate.
    - right. exists 0%N. split; [reflexivity|discriminate].
    - constructor. }
  destruct K as (K & Kk & Hf & Hb & Hr). split; [exact Hf|]. split; [exact Hb|]. split; [exact Hr|]. intros l' s' es Hl H.
  assert (Q : Forall (quiet (skeys (g_clients (s_metas s 0)))) l').
  { rewrite Kk. rewrite Forall_forall in *. intros a Ha q n -> Hp Hm Hn [Hin|[]]. apply (Hl _ Ha q eq_refl).
    rewrite Hn. cbn. congruence. }
  destruct (stuck_run false 0 l' s s' es B K Q H) as (_ & _ & F). rewrite Forall_forall in F.
  intros e He. specialize (F e He). now destruct e.
Qed.

(** Otherwise the free places of a stage that boots go to the remotes that still wait, in whatever order they are served. *)
Theorem C75_waiting_partial : forall test m ws s,
  let name w := r_name (s_rcs s (snd w)) in
  s_cur s = Some m -> g_done (s_metas s m) = false -> g_booted (s_metas s m) = false ->
  NoDup (map fst ws) -> NoDup (map name ws) ->
  (forall i c, In (i, c) ws -> s_threads s i = Some (c, GetBootWait) /\ sget (r_name (s_rcs s c)) (g_clients (s_metas s m)) = None) ->
  (N.of_nat (List.length (g_clients (s_metas s m)) + List.length ws) <= g_need (s_metas s m))%N ->
  exists s', run test s (map (fun w => AThread (fst w) None true) ws) =
      Some (s', flat_map (fun w => [EAssigned m (name w) true; EResp (name w) PBoot true 200]) ws) /\
    (forall i c, In (i, c) ws -> s_threads s' i = None /\ sget (r_name (s_rcs s c)) (g_clients (s_metas s' m)) = Some c /\
       r_state (s_rcs s' c) = Booting /\ r_stage (s_rcs s' c) = Some m) /\
    (forall i, ~ In i (map fst ws) -> s_threads s' i = s_threads s i) /\ (forall c, ~ In c (map snd ws) -> s_rcs s' c = s_rcs s c) /\
    forall n, ~ In n (map name ws) -> sget n (g_clients (s_metas s' m)) = sget n (g_clients (s_metas s m)).
Proof.
  intros test m. induction ws as [|[i c] ws IH]; intros s name Hc Hd Hb N1 N2 HW HL.
  { exists s. split; [reflexivity|]. split; [intros i c []|]. auto. }
  cbn [map fst snd] in N1, N2. inversion N1 as [|? ? A1 B1]; subst. inversion N2 as [|? ? A2 B2]; subst.
  destruct (HW i c (or_introl eq_refl)) as (T & G).
  set (s1 := with_thread (with_rc (with_meta s m (set_clients (s_metas s m) (sset (r_name (s_rcs s c)) c (g_clients (s_metas s m))))) c
               (Rc (r_name (s_rcs s c)) (Some m) Booting)) i None).
  assert (F : full (s_metas s m) = false).
  { unfold full. destruct (g_need (s_metas s m) <? 2 ^ 63)%N; [|reflexivity]. cbn [andb]. apply N.eqb_neq. cbn [List.length] in HL. lia. }
  assert (S1 : step test s (AThread i None true) = Some (s1, [EAssigned m (r_name (s_rcs s c)) true; EResp (r_name (s_rcs s c)) PBoot true 200])).
  { cbn [step]. rewrite T. unfold thread_step. rewrite Hc, Hd, Hb, F. reflexivity. }
  assert (NM : forall w, r_name (s_rcs s1 (snd w)) = name w).
  { intros [j d]. unfold name, s1. cbn. unfold upd. destruct (Nat.eqb_spec d c) as [->|]; reflexivity. }
  assert (G1 : g_clients (s_metas s1 m) = sset (r_name (s_rcs s c)) c (g_clients (s_metas s m))) by (unfold s1; cbn; now rewrite upd_same).
  assert (NM' : map (fun w => r_name (s_rcs s1 (snd w))) ws = map name ws) by (apply map_ext; exact NM).
  destruct (IH s1) as (s2 & R & P1 & P2 & P3 & P4).
  - exact Hc.
  - unfold s1; cbn; now rewrite upd_same.
  - unfold s1; cbn; now rewrite upd_same.
  - exact B1.
  - now rewrite NM'.
  - intros j d I. destruct (HW j d (or_intror I)) as (T' & G'). split.
    + unfold s1. cbn. rewrite upd_other; [exact T'|]. intros ->. apply A1. exact (in_map fst _ _ I).
    + pose proof (NM (j, d)) as NJ. cbn [snd] in NJ. rewrite NJ, G1, sget_sset. unfold name. cbn [snd]. destruct (String.eqb_spec (r_name (s_rcs s d)) (r_name (s_rcs s c))) as [E|]; [exfalso|exact G']. apply A2. replace (name (i, c)) with (name (j, d)) by exact E. exact (in_map name _ _ I).
  - rewrite G1, sset_length, G. cbn [List.length] in HL. unfold s1. cbn. rewrite upd_same. cbn. lia.
  - exists s2. split; [|split; [|split; [|split]]].
    + cbn [map fst run]. rewrite S1, R. cbn [flat_map]. do 2 f_equal.
      assert (X : flat_map (fun w : nat * nat => [EAssigned m (r_name (s_rcs s1 (snd w))) true; EResp (r_name (s_rcs s1 (snd w))) PBoot true 200]) ws =
                  flat_map (fun w => [EAssigned m (name w) true; EResp (name w) PBoot true 200]) ws).
      { rewrite !flat_map_concat_map. f_equal. apply map_ext. intros w. now rewrite NM. }
      rewrite X. reflexivity.
    + intros j d [E|I].
      * injection E as <- <-. split; [rewrite P2 by exact A1; unfold s1; cbn; now rewrite upd_same|]. split.
        -- rewrite P4 by (rewrite NM'; exact A2). now rewrite G1, sget_sset, String.eqb_refl.
        -- rewrite P3; [unfold s1; cbn; rewrite upd_same; auto|]. intros I. apply A2. apply in_map_iff in I as ([j d] & E & I). cbn in E. subst d.
           change (r_name (s_rcs s c)) with (name (j, c)). exact (in_map name _ _ I).
      * destruct (P1 j d I) as (Q1 & Q2 & Q3). pose proof (NM (j, d)) as NJ. cbn [snd] in NJ. rewrite NJ in Q2. split; [exact Q1|]. split; [exact Q2|exact Q3].
    + intros j J. cbn [map fst] in J. rewrite P2 by (intros I; apply J; now right). unfold s1. cbn. apply upd_other. intros ->. apply J. now left.
    + intros d D. cbn [map snd] in D. rewrite P3 by (intros I; apply D; now right). unfold s1. cbn. apply upd_other. intros ->. apply D. now left.
    + intros n Hn. cbn [map] in Hn. rewrite P4 by (rewrite NM'; intros I; apply Hn; now right). rewrite G1, sget_sset. destruct (String.eqb_spec n (r_name (s_rcs s c))) as [->|]; [exfalso; apply Hn; now left|reflexivity].
Qed.
(** a has given up, but its request is still there; if c and b are served before it they take both places. *)
Example C75_waiting_ex : exists s tr, reach false any s tr /\ s_cur s = Some 0%nat /\ g_done (s_metas s 0) = false /\ g_booted (s_metas s 0) = false /\
  g_need (s_metas s 0) = 2%N /\ g_clients (s_metas s 0) = [] /\
  (forall i c, In (i, c) [(2, 2); (1, 1)]%nat -> s_threads s i = Some (c, GetBootWait) /\ sget (r_name (s_rcs s c)) (g_clients (s_metas s 0)) = None) /\
  map (fun w => r_name (s_rcs s (snd w))) [(2, 2); (1, 1)]%nat = ["c"; "b"] /\ s_threads s 0 = Some (0%nat, GetBootWait).
Proof.
  set (l := [ANewStage "s1" 2 true ["a.sql"] true; srv; get PBoot "a" ""; get PBoot "b" ""; get PBoot "c" ""; t 0; t 1; t 2]).
  destruct (run false init l) as [[s tr]|] eqn:E; [|vm_compute in E; discriminate].
  exists s, tr. split; [now apply (reach_any _ l)|]. vm_compute in E. injection E as <- <-.
  repeat (split; [reflexivity|]). split; [|split; reflexivity]. intros i c [X|[X|[]]]; injection X as <- <-; split; reflexivity.
Qed.

Print Assumptions C49_bound.
Print Assumptions C49_order_partial.
Print Assumptions C49_refused.
Print Assumptions C49_out_of_order.
Print Assumptions C49_refuted.
Print Assumptions C50_again_partial.
Print Assumptions C50_refuted.
Print Assumptions C51_barrier_partial.
Print Assumptions C51_local.
Print Assumptions C51_test.
Print Assumptions C51_refuted.
Print Assumptions C53_left_partial.
Print Assumptions C53_refuted.
Print Assumptions C73_end_partial.
Print Assumptions C73_count.
Print Assumptions C73_refuted.
Print Assumptions C74_refuted.
Print Assumptions C75_refuted.
Print Assumptions C75_waiting_partial.

(** ** C113: names in logs *)

(** The text has neither a line feed nor a carriage return. *)
Definition one_line (s : string) : Prop :=
  forall i c, String.get i s = Some c -> c <> ascii_of_nat 10 /\ c <> ascii_of_nat 13.
(** The instance an event, and the server's log lines about it, are about. *)
Definition event_name (e : event) : option string :=
  match e with
  | EResp n _ _ _ | EAssigned _ n _ | EBooted _ n | EFailed _ n | EFile _ n _ | ERun _ n | EDone _ n | EStats _ n => Some n
  | ECount _ who | EFinished _ who => who
  | ELocal _ | ELocalDone _ | EEnd _ => None
  end.

Lemma one_line_nil : one_line "".
Proof. intros [|i] c H; discriminate. Qed.
Lemma clean_one_line s : one_line (clean s).
Proof.
  induction s as [|x s IH]; [apply one_line_nil|]. cbn [clean].
  destruct (Nat.eqb_spec (nat_of_ascii x) 10) as [|A]; cbn [orb]; [exact IH|].
  destruct (Nat.eqb_spec (nat_of_ascii x) 13) as [|B]; cbn [orb]; [exact IH|].
  intros [|i] c H; cbn [String.get] in H; [|exact (IH i c H)]. injection H as <-.
  split; intros ->; [apply A|apply B]; reflexivity.
Qed.

Definition names_ok (s : state) : Prop :=
  (forall c, one_line (r_name (s_rcs s c))) /\
  forall m w b, In (Some w, b) (g_bootq (s_metas s m) ++ g_doneq (s_metas s m)) -> one_line w.

Lemma names_init : names_ok init.
Proof. split; [intros c; apply one_line_nil|intros m w b []]. Qed.

Ltac in_cases H :=
  cbn [List.app In] in H; rewrite ?in_app_iff in H; cbn [In] in H;
  repeat match goal with
         | X : _ \/ _ |- _ => destruct X
         | X : (_, _) = (_, _) |- _ => inv X
         | X : False |- _ => destruct X
         end.

Lemma names_step test s a s' es : names_ok s -> step test s a = Some (s', es) ->
  names_ok s' /\ forall e n, In e es -> event_name e = Some n -> one_line n.
Proof.
  intros [R Q] H. assert (C := clean_one_line).
  assert (QB : forall m w b, In (Some w, b) (g_bootq (s_metas s m)) -> one_line w) by (intros; eapply Q, in_app_iff; eauto).
  assert (QD : forall m w b, In (Some w, b) (g_doneq (s_metas s m)) -> one_line w) by (intros; eapply Q, in_app_iff; eauto).
  split; [split|].
  - intros c. step_cases H; try known; cbn; ups; cbn; auto.
  - intros m w b I. step_cases H; cbn in I; ups; cbn in I; in_cases I; eauto.
    all: match goal with E : g_bootq _ = _ :: _ |- _ => eapply QB; rewrite E; right; eassumption
         | E : g_doneq _ = _ :: _ |- _ => eapply QD; rewrite E; right; eassumption end.
  - intros e n I N. step_cases H; cbn in I; in_cases I; subst; cbn in N; try discriminate; try (injection N as <-); auto.
    all: try apply one_line_nil.
    all: subst; match goal with E : g_bootq _ = _ :: _ |- _ => eapply QB; rewrite E; left; reflexivity
         | E : g_doneq _ = _ :: _ |- _ => eapply QD; rewrite E; left; reflexivity end.
Qed.

(** Whatever names are sent, those the server keeps and logs have no line breaks. *)
Theorem C113_names : forall test ok s tr, reach test ok s tr ->
  (forall c, one_line (r_name (s_rcs s c))) /\
  forall e n, In e tr -> event_name e = Some n -> one_line n.
Proof.
  intros test ok s tr H. assert (X : names_ok s /\ forall e n, In e tr -> event_name e = Some n -> one_line n); [|split; [apply X|apply X]].
  induction H as [|s tr a s' es H [IH1 IH2] _ E]; [split; [apply names_init|intros e n []]|].
  destruct (names_step _ _ _ _ _ IH1 E) as [A B]. split; [exact A|].
  intros e n I N. apply in_app_iff in I as [I|I]; eauto.
Qed.
Print Assumptions C113_names.

Example C113_example : exists s tr e,
  let name := String "a" (String (ascii_of_nat 10) (String "b" (String (ascii_of_nat 13) ""))) in
  run false init [ANewStage "s1" 1 true [] true; srv; get PBoot name "s1"; t 0; t 0] = Some (s, tr) /\
  In e tr /\ event_name e = Some "ab" /\ r_name (s_rcs s 0) = "ab".
Proof. do 3 eexists. split; [vm_compute; reflexivity|]. split; [left; reflexivity|]. split; reflexivity. Qed.
