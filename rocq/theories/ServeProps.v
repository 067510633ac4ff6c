(** C84-C86: running the stages of the command line (compute/server.go). *)
From Verif Require Import Prelude ConfigModel ConfigProps ServeModel ServeSpec ServeProofs.
#[local] Open Scope string_scope.
#[local] Open Scope list_scope.

(** ** C84: stages run in the order of the command line, one after the other *)

(** No event of a stage comes after one of a later stage, and those of one stage come in order:
    the directory is changed, the local instance prepared, the stage published to the remotes,
    instances boot, then run, then finish; all but booting, failing to boot, finishing and being
    told to stop at most once. *)
Theorem C84_order : forall api test stages dir_of chdir_ok collector_ok prepare_ok cwd l s es a e' b e c,
  run api test stages dir_of chdir_ok collector_ok prepare_ok (init cwd) l = Some (s, es) ->
  es = (a ++ e' :: b) ++ e :: c -> in_order e' e.
Proof.
  intros until c. intros H E. apply inv_run in H. destruct H as [_ _ _ Hg].
  apply (g_order _ _ _ _ _ _ _ _ _ (Hg _ _ _ E)). apply in_app_iff. right. now left.
Qed.
Print Assumptions C84_order.

(** Whatever is done for a stage is done after every stage before it ended, without error, and
    before CTRL-C, and before Server.Run returns. *)
Theorem C84_next : forall api test stages dir_of chdir_ok collector_ok prepare_ok cwd l s es a e b i,
  run api test stages dir_of chdir_ok collector_ok prepare_ok (init cwd) l = Some (s, es) ->
  es = a ++ e :: b -> stage_of e = Some i ->
  (exists c, nth_error stages i = Some c) /\ (forall r, ~ In (EReturn r) a) /\
  forall j, j < i -> exists a1 a2,
    a = (a1 ++ (if test then ETested j else EEnd j) :: a2)%list /\ ~ In ECancel a1.
Proof.
  intros until i. intros H E Hi. apply inv_run in H. destruct H as [_ _ _ Hg].
  exact (g_stage _ _ _ _ _ _ _ _ _ (Hg _ _ _ E) i Hi).
Qed.
Print Assumptions C84_next.

(** The local instance is prepared in the directory of the stage's file, with statistics unless
    the stage disables them. *)
Theorem C84_prepare : forall api test stages dir_of chdir_ok collector_ok prepare_ok cwd l s es a i c d st b,
  run api test stages dir_of chdir_ok collector_ok prepare_ok (init cwd) l = Some (s, es) ->
  es = a ++ EPrepare i c d st :: b ->
  nth_error stages i = Some c /\ d = dir_of (s_file c) /\ In (EDir i d) a /\
  (st = false <-> st_disable (s_stats c) = Some true) /\ c_nolocal (s_compute c) = false.
Proof.
  intros until b. intros H E. apply inv_run in H. destruct H as [_ _ _ Hg].
  destruct (g_prepare _ _ _ _ _ _ _ _ _ (Hg _ _ _ E) i c d st eq_refl) as (H1 & H2 & H3 & H4 & H5).
  split; [exact H1|]. split; [exact H2|]. split; [exact H3|]. split.
  - rewrite H4. unfold stats_on. destruct (st_disable (s_stats c)) as [[|]|]; split; congruence.
  - unfold has_local in H5. now destruct (c_nolocal (s_compute c)).
Qed.
Print Assumptions C84_prepare.

(** Instances run only once as many have booted as the stage has instances, the local one being
    prepared; never with --test. *)
Theorem C84_run : forall api test stages dir_of chdir_ok collector_ok prepare_ok cwd l s es a i b,
  run api test stages dir_of chdir_ok collector_ok prepare_ok (init cwd) l = Some (s, es) ->
  es = a ++ ERun i :: b ->
  test = false /\ exists c, nth_error stages i = Some c /\
  N.of_nat (length (booted_by i a)) = uint_of (c_instances (s_compute c)) /\
  (c_nolocal (s_compute c) = false -> exists d st, In (EPrepare i c d st) a).
Proof.
  intros until b. intros H E. apply inv_run in H. destruct H as [_ _ _ Hg].
  destruct (g_run _ _ _ _ _ _ _ _ _ (Hg _ _ _ E) i eq_refl) as (H1 & c & H2 & H3 & H4).
  split; [exact H1|]. exists c. split; [exact H2|]. split; [exact H3|].
  intros Hl. apply H4. unfold has_local. now rewrite Hl.
Qed.
Print Assumptions C84_run.
Theorem C84_run_local : forall api test stages dir_of chdir_ok collector_ok prepare_ok cwd l s es a i b,
  run api test stages dir_of chdir_ok collector_ok prepare_ok (init cwd) l = Some (s, es) ->
  es = a ++ ELocal i :: b -> exists a', a = (a' ++ [ERun i])%list.
Proof.
  intros until b. intros H E. apply inv_run in H. destruct H as [_ _ _ Hg].
  exact (g_local _ _ _ _ _ _ _ _ _ (Hg _ _ _ E) i eq_refl).
Qed.
Print Assumptions C84_run_local.

(** A stage ends once as many instances have finished as it has, its local instance among them if
    there are no remotes, or if no remote is counted twice or without having booted (see C73). *)
Theorem C84_end : forall api test stages dir_of chdir_ok collector_ok prepare_ok cwd l s es a i b,
  run api test stages dir_of chdir_ok collector_ok prepare_ok (init cwd) l = Some (s, es) ->
  es = a ++ EEnd i :: b ->
  In (ERun i) a /\ exists c, nth_error stages i = Some c /\
  N.of_nat (length (booted_by i a)) = uint_of (c_instances (s_compute c)) /\
  N.of_nat (length (finished_by i a)) = uint_of (c_instances (s_compute c)) /\
  (c_nolocal (s_compute c) = false ->
   uint_of (c_instances (s_compute c)) = 1%N \/ api = false
   \/ (NoDup (finished_by i a) /\ incl (finished_by i a) (booted_by i a)) ->
   In (ELocal i) a /\ In (ELocalEnd i) a).
Proof.
  intros until b. intros H E. apply inv_run in H. destruct H as [_ _ _ Hg].
  specialize (Hg _ _ _ E).
  destruct (g_end _ _ _ _ _ _ _ _ _ Hg i eq_refl) as (H1 & H2 & c & H3 & H4 & H5 & H6 & H7 & H8).
  split; [exact H2|]. exists c. split; [exact H3|]. split; [exact H4|]. split; [exact H5|].
  intros Hl Hcase. assert (Hl' : has_local c = true) by (unfold has_local; now rewrite Hl).
  destruct (H6 Hl') as [H6a H6b]. split; [exact H6a|]. apply H7.
  assert (Hnz := g_nonzero _ _ _ _ _ _ _ _ _ Hg i c eq_refl ltac:(cbn; lia) H3 Hl').
  destruct Hcase as [Hone|[Hapi|[Hnd Hincl]]].
  - assert (Hr : (api && (0 <? remotes c)%N)%bool = false).
    { unfold remotes. rewrite Hl'. unfold instances. rewrite Hone. apply andb_false_r. }
    destruct (finished_by i a) as [|w ws] eqn:Ef; [cbn in H5; lia|].
    left. apply (H8 Hr). now left.
  - destruct (finished_by i a) as [|w ws] eqn:Ef; [cbn in H5; lia|].
    left. apply H8; [now rewrite Hapi|now left].
  - refine (NoDup_length_incl Hnd _ Hincl None H6b). unfold who in *. lia.
Qed.
Print Assumptions C84_end.

(** With --test nothing runs. *)
Theorem C84_test : forall api stages dir_of chdir_ok collector_ok prepare_ok cwd l s es,
  run api true stages dir_of chdir_ok collector_ok prepare_ok (init cwd) l = Some (s, es) ->
  forall i, ~ In (ERun i) es /\ ~ In (ELocal i) es /\ ~ In (EEnd i) es.
Proof.
  intros until es. intros H i. apply inv_run in H. destruct H as [_ _ _ Hg].
  assert (Hr : ~ In (ERun i) es).
  { intros Hi. apply in_split in Hi as (a & b & E). destruct (g_run _ _ _ _ _ _ _ _ _ (Hg _ _ _ E) i eq_refl). discriminate. }
  split; [exact Hr|]. split.
  - intros Hi. apply in_split in Hi as (a & b & E). destruct (g_local _ _ _ _ _ _ _ _ _ (Hg _ _ _ E) i eq_refl) as (a' & ->).
    apply Hr. rewrite E. apply in_app_iff. left. apply in_app_iff. right. now left.
  - intros Hi. apply in_split in Hi as (a & b & E). destruct (g_end _ _ _ _ _ _ _ _ _ (Hg _ _ _ E) i eq_refl). discriminate.
Qed.
Print Assumptions C84_test.

(** Server.Run returns once; nil only if every stage ended (with --test: booted) or after CTRL-C,
    an error only if a directory cannot be entered, reporters cannot be made or the local instance
    cannot be prepared. *)
Theorem C84_return : forall api test stages dir_of chdir_ok collector_ok prepare_ok cwd l s es a r b,
  run api test stages dir_of chdir_ok collector_ok prepare_ok (init cwd) l = Some (s, es) ->
  es = a ++ EReturn r :: b ->
  (forall r', ~ In (EReturn r') a) /\
  if r then exists i c, nth_error stages i = Some c /\
    (chdir_ok (dir_of (s_file c)) = false
     \/ (st_disable (s_stats c) <> Some true /\ collector_ok c = false)
     \/ (c_nolocal (s_compute c) = false /\ prepare_ok c = false))
  else In ECancel a \/ forall j, j < length stages -> In (if test then ETested j else EEnd j) a.
Proof.
  intros until b. intros H E. apply inv_run in H. destruct H as [_ _ _ Hg].
  destruct (g_return _ _ _ _ _ _ _ _ _ (Hg _ _ _ E) r eq_refl) as [H1 H2]. split; [exact H1|].
  destruct r; [|exact H2]. destruct H2 as (i & c & H2 & H3). exists i, c. split; [exact H2|].
  destruct H3 as [H3|[[H3 H4]|[H3 H4]]]; [auto|right; left|right; right]; (split; [|exact H4]).
  - unfold stats_on in H3. destruct (st_disable (s_stats c)) as [[|]|]; congruence.
  - unfold has_local in H3. now destruct (c_nolocal (s_compute c)).
Qed.
Print Assumptions C84_return.

(** Two local stages, and one with a remote. *)
Definition sv_stage (file inst : string) (dis nolocal : bool) (t : list trx) : stage :=
  Stage (Compute nolocal inst) dis file "" empty_mysql 0 [] "" "" (Stats None "" []) "" t [].
Definition sv_dir (f : string) : string := ("dir of " ++ f)%string.
Definition sv_run (api test : bool) (cs : list stage) (l : list action) : option (phase * list event) :=
  match run api test cs sv_dir (fun _ => true) (fun _ => true) (fun _ => true) (init "/") l with
  | Some (s, es) => Some (v_phase s, es)
  | None => None
  end.
Definition sv_local_stage (i : nat) : list action :=
  [AServer false; AServer false; AServer false; AServer false; ALocalDone i; AServer false; AServer false; AServer false].
Example C84_example :
  let a := sv_stage "a" "1" false false [x0] in
  let b := sv_stage "b" "2" false false [x0] in
  sv_run true false [a; b]
    (sv_local_stage 0 ++ [AServer false; AServer false; AServer false; ARemoteBoot "r" false; AServer false; AServer false;
       ARemoteDone "r"; AServer false; ALocalDone 1; AServer false; AServer false; AServer false; AServer false])
  = Some (Returned false,
      [EDir 0 "dir of a"; EPrepare 0 a "dir of a" true; EBooted 0 None; ERun 0; ELocal 0; ELocalEnd 0; EFinished 0 None; EEnd 0;
       EDir 1 "dir of b"; EPrepare 1 b "dir of b" true; EPublish 1; EBooted 1 None; EBooted 1 (Some "r"); ERun 1; ELocal 1;
       EFinished 1 (Some "r"); ELocalEnd 1; EFinished 1 None; EEnd 1; EReturn false]).
Proof. reflexivity. Qed.
Example C84_example_cancel :
  let a := sv_stage "a" "1" false false [x0] in
  sv_run false false [a; a]
    [AServer false; AServer false; AServer false; AServer false; ACancel; AServer true; ALocalDone 0; AServer false; AServer false; AServer false]
  = Some (Returned false,
      [EDir 0 "dir of a"; EPrepare 0 a "dir of a" true; EBooted 0 None; ERun 0; ELocal 0; ECancel; ELocalEnd 0;
       EFinished 0 None; EEnd 0; EReturn false]).
Proof. reflexivity. Qed.

(** ** C85: a disabled stage is skipped *)

(** What is true of it: if its number of instances is not set, a disabled stage is not run;
    neither is any stage after it. *)
Theorem C85_not_run_partial : forall api test stages dir_of chdir_ok collector_ok prepare_ok cwd l s es i c e j,
  run api test stages dir_of chdir_ok collector_ok prepare_ok (init cwd) l = Some (s, es) ->
  nth_error stages i = Some c -> s_disable c = true -> c_instances (s_compute c) = "" ->
  c_nolocal (s_compute c) = false ->
  In e es -> stage_of e = Some j -> i <= j ->
  i = j /\ exists d, e = EDir i d \/ exists st, e = EPrepare i c d st.
Proof.
  intros until j. intros H Hc _ Hn Hl Hin He Hij. apply inv_run in H. destruct H as [_ _ _ Hg].
  assert (Hl' : has_local c = true) by (unfold has_local; now rewrite Hl).
  assert (Hz : instances c = 0%N) by (unfold instances; now rewrite Hn).
  assert (Hsmall : forall e, In e es -> stage_of e = Some i -> rank e < 2).
  { intros e0 Hi0 He0. apply in_split in Hi0 as (a & b & E).
    assert (G := g_nonzero _ _ _ _ _ _ _ _ _ (Hg _ _ _ E) i c He0).
    destruct (Nat.lt_ge_cases (rank e0) 2) as [|Hge]; [assumption|]. now destruct (G Hge Hc Hl'). }
  destruct (Nat.eq_dec i j) as [<-|Hne].
  - split; [reflexivity|]. specialize (Hsmall e Hin He). apply in_split in Hin as (a & b & E). assert (G := Hg _ _ _ E). clear E.
    destruct e; cbn in Hsmall, He; try lia; inv He.
    + exists dir. now left.
    + exists cwd0. right. destruct (g_prepare _ _ _ _ _ _ _ _ _ G i c0 cwd0 stats eq_refl) as (E1 & _).
      rewrite Hc in E1. inv E1. eauto.
  - exfalso. apply in_split in Hin as (a & b & E).
    destruct (g_stage _ _ _ _ _ _ _ _ _ (Hg _ _ _ E) j He) as (_ & _ & Hd).
    destruct (Hd i ltac:(lia)) as (a1 & a2 & -> & _).
    assert (Hlt : rank (end_of test i) < 2).
    { apply Hsmall; [|now destruct test]. rewrite E. rewrite <- app_assoc. apply in_app_iff. right. now left. }
    unfold end_of in Hlt. destruct test; cbn in Hlt; lia.
Qed.
Print Assumptions C85_not_run_partial.

Definition sv_loaded (cs : list stage) : option (list stage) :=
  load E0 no_base (map file cs) [] "" "".

(** C85 is false: a disabled stage whose number of instances is set is run like any other. *)
Theorem C85_refuted : exists c cs l es,
  s_disable c = true /\ sv_loaded [c] = Some cs /\
  sv_run false false cs l = Some (Returned false, es) /\ In (ELocal 0) es /\ In (EEnd 0) es.
Proof.
  exists (sv_stage "" "1" true false [x0]). eexists. exists (sv_local_stage 0 ++ [AServer false])%list. eexists.
  split; [reflexivity|]. split; [vm_compute; reflexivity|]. split; [vm_compute; reflexivity|]. cbn. tauto.
Qed.
Print Assumptions C85_refuted.

(** And one without trx files, which only disabled stages may have, makes the program panic. *)
Theorem C85_refuted_panic : exists c cs l es,
  s_disable c = true /\ sv_loaded [c; c] = Some cs /\ sv_run false false cs l = Some (Panicked 0, es).
Proof.
  exists (sv_stage "" "" true false []). eexists. exists [AServer false; AServer false]. eexists.
  split; [reflexivity|]. split; [vm_compute; reflexivity|]. vm_compute. reflexivity.
Qed.
Print Assumptions C85_refuted_panic.

(** One whose number of instances is not set hangs after connecting to MySQL; so the stage after
    it is never run (C85_not_run_partial). *)
Theorem C85_refuted_hang : exists c d cs l es,
  s_disable c = true /\ s_disable d = false /\ sv_loaded [c; d] = Some cs /\
  sv_run false false cs l = Some (Hung 0, es) /\ exists c' w, In (EPrepare 0 c' w true) es.
Proof.
  exists (sv_stage "" "" true false [x0]), (sv_stage "" "" false false [x0]). eexists.
  exists [AServer false; AServer false]. eexists.
  split; [reflexivity|]. split; [reflexivity|]. split; [vm_compute; reflexivity|]. split; [vm_compute; reflexivity|].
  eexists. eexists. right. left. reflexivity.
Qed.
Print Assumptions C85_refuted_hang.

(** ** C86: stages that are accepted are run to their end *)

(** If every stage has one, local, instance and nothing fails, then Server.Run takes a bounded number
    of steps in every schedule; it never gets stuck before it returns nil; and then, without
    CTRL-C, every stage was run (with --test: booted). *)
Theorem C86_ends_partial : forall api test stages dir_of chdir_ok collector_ok prepare_ok cwd l s es,
  (forall c, In c stages -> uint_of (c_instances (s_compute c)) = 1%N /\ c_nolocal (s_compute c) = false /\
     s_trx c <> [] /\ chdir_ok (dir_of (s_file c)) = true /\ collector_ok c = true /\ prepare_ok c = true) ->
  run api test stages dir_of chdir_ok collector_ok prepare_ok (init cwd) l = Some (s, es) ->
  length (filter forward l) <= 8 * length stages + 1 /\
  ((exists a s1 es1, forward a = true /\
      step api test stages dir_of chdir_ok collector_ok prepare_ok s a = Some (s1, es1))
   \/ (v_phase s = Returned false /\ In (EReturn false) es /\
       (~ In ECancel es -> forall j, j < length stages -> In (if test then ETested j else EEnd j) es))).
Proof.
  intros until es. intros Hall H.
  assert (A1 : forall c, In c stages -> instances c = 1%N /\ has_local c = true).
  { intros c Hc. destruct (Hall c Hc) as (E1 & E2 & _). split; [exact E1|]. unfold has_local. now rewrite E2. }
  assert (A2 : forall c, In c stages -> s_trx c <> []) by (intros c Hc; apply (Hall c Hc)).
  assert (A3 : forall c, In c stages -> chdir_ok (dir_of (s_file c)) = true) by (intros c Hc; apply (Hall c Hc)).
  assert (A4 : forall c, In c stages -> stats_on c = true -> collector_ok c = true) by (intros c Hc _; apply (Hall c Hc)).
  assert (A5 : forall c, In c stages -> prepare_ok c = true) by (intros c Hc; apply (Hall c Hc)).
  destruct (local_run api test stages dir_of chdir_ok collector_ok prepare_ok A1 A2 A3 A4 A5 l _ _ _
              (local_init stages cwd) H) as [Hi Hm].
  split.
  - assert (B : length (filter forward l) <= counted api test stages dir_of chdir_ok collector_ok prepare_ok (init cwd) l).
    { clear -H. revert H. generalize (init cwd). revert s es. induction l as [|a l IH]; intros s es s0 H; [cbn; lia|].
      cbn in H |- *. destruct (step _ _ _ _ _ _ _ s0 a) as [[s1 e1]|] eqn:E1; [|discriminate].
      destruct (run _ _ _ _ _ _ _ s1 l) as [[s3 e3]|] eqn:E2; [|discriminate]. inv H.
      specialize (IH _ _ _ E2). destruct (forward a) eqn:Ef; cbn; [|destruct (counts s0 a); lia].
      replace (counts s0 a) with true; [lia|]. unfold counts. destruct a as [[|]| | | |]; cbn in Ef; try discriminate; now destruct (v_phase s0). }
    unfold measure in Hm. cbn [init v_phase v_locals length] in Hm. lia.
  - assert (D : (forall r, v_phase s <> Returned r) \/ exists r, v_phase s = Returned r).
    { destruct (v_phase s); try (left; intros; discriminate). right. eauto. }
    destruct D as [D|[r D]].
    + left. destruct (local_progress api test stages dir_of chdir_ok collector_ok prepare_ok A1 s Hi D) as (a & s1 & e1 & E1 & E2 & E3).
      exists a, s1, e1. split; [|exact E1]. unfold local_inv in Hi.
      destruct a as [[|]|w err|w|i|]; try reflexivity; try congruence; exfalso; cbn in E1, E2; [| |discriminate].
      * destruct (v_phase s) eqn:Ep; try discriminate. unfold published in E1.
        destruct (nth_error stages i) as [c|] eqn:Ec; [|discriminate].
        rewrite (local_remotes stages A1 c) in E1 by (eapply nth_error_In; eauto). rewrite andb_false_r in E1. discriminate.
      * destruct (v_phase s) eqn:Ep; try discriminate. unfold published in E1.
        destruct (nth_error stages i) as [c|] eqn:Ec; [|discriminate].
        rewrite (local_remotes stages A1 c) in E1 by (eapply nth_error_In; eauto). rewrite andb_false_r in E1. discriminate.
    + right. apply inv_run in H. destruct H as [_ _ Hp Hg]. unfold phase_inv in Hp. rewrite D in Hp.
      destruct (in_split _ _ Hp) as (a & b & E).
      destruct (g_return _ _ _ _ _ _ _ _ _ (Hg _ _ _ E) r eq_refl) as [_ Hr].
      destruct r.
      * destruct Hr as (i & c & Ec & Hr). apply nth_error_In in Ec. destruct (Hall c Ec) as (_ & _ & _ & ? & ? & ?).
        destruct Hr as [?|[[_ ?]|[_ ?]]]; congruence.
      * split; [exact D|]. split; [exact Hp|]. intros Hn j Hj. destruct Hr as [Hr|Hr].
        -- exfalso. apply Hn. rewrite E. apply in_app_iff. now left.
        -- rewrite E. apply in_app_iff. left. exact (Hr j Hj).
Qed.
Print Assumptions C86_ends_partial.

(** C86 is false in general: with compute.instances 0, which is accepted, Server.Run hangs after
    preparing the stage, and nothing wakes it: not even CTRL-C. *)
Theorem C86_refuted : exists c cs s es,
  sv_loaded [c] = Some cs /\ s_disable c = false /\
  (exists l, run false false cs sv_dir (fun _ => true) (fun _ => true) (fun _ => true) (init "/") l = Some (s, es)) /\
  (forall r, ~ In (EReturn r) es) /\
  forall l s' es', run false false cs sv_dir (fun _ => true) (fun _ => true) (fun _ => true) s l = Some (s', es') ->
    forall e, In e es' -> e = ECancel.
Proof.
  exists (sv_stage "" "0" false false [x0]). eexists. eexists. eexists.
  split; [vm_compute; reflexivity|]. split; [reflexivity|].
  split; [exists [AServer false; AServer false]; vm_compute; reflexivity|].
  split; [cbn; intuition discriminate|].
  intros l. match goal with |- forall s' es', ServeModel.run _ _ ?c _ _ _ _ ?s _ = _ -> _ => set (cs := c); set (s0 := s) end.
  assert (Hs : v_phase s0 = Hung 0 /\ v_locals s0 = []) by (split; reflexivity).
  clearbody s0. revert s0 Hs. induction l as [|a l IH]; intros s0 [Hs Hl] s' es' H e He.
  - cbn in H. inv H. destruct He.
  - cbn in H. destruct (step _ _ _ _ _ _ _ s0 a) as [[s1 e1]|] eqn:E1; [|discriminate].
    destruct (run _ _ _ _ _ _ _ s1 l) as [[s3 e3]|] eqn:E2; [|discriminate]. inv H.
    destruct a as [ctx|w err|w|i|]; cbn in E1; unfold server_step in E1; rewrite ?Hs, ?Hl in E1; try discriminate.
    inv E1. destruct He as [<-|He]; [reflexivity|]. eapply (IH (St (Hung 0) (v_bootq s0) (v_doneq s0) [] true (v_cwd s0))); eauto.
Qed.
Print Assumptions C86_refuted.

(** Without --server a stage with two instances, which is accepted too, waits until CTRL-C. *)
Theorem C86_refuted_remotes : exists c cs, sv_loaded [c] = Some cs /\ s_disable c = false /\
  forall l s es, run false false cs sv_dir (fun _ => true) (fun _ => true) (fun _ => true) (init "/") l = Some (s, es) ->
    ~ In ECancel es -> (forall i, ~ In (ERun i) es) /\ forall r, ~ In (EReturn r) es.
Proof.
  exists (sv_stage "" "2" false false [x0]). eexists.
  split; [vm_compute; reflexivity|]. split; [reflexivity|].
  intros l s es H Hn.
  match type of H with ServeModel.run _ _ ?c _ _ _ _ _ _ = _ => set (cs := c) in * end.
  pose (Q := fun (s : state) (es : list event) => ~ In ECancel es ->
     ((v_phase s = Top 0 \/ v_phase s = Start 0 \/ (v_phase s = Boot 0 0 /\ v_bootq s = [(None, false)]) \/ (v_phase s = Boot 0 1 /\ v_bootq s = []))
      /\ v_cancelled s = false /\ v_locals s = []) /\ (forall i, ~ In (ERun i) es) /\ forall r, ~ In (EReturn r) es).
  assert (HQ : Q s es).
  { refine (run_invariant _ _ _ _ _ _ _ Q _ l (init "/") [] s es _ H); [|intros _; cbn; auto 7].
    clear. intros s es a s1 es1 HQ H Hn.
    assert (Hn0 : ~ In ECancel es) by (intros Hi; apply Hn; apply in_app_iff; now left).
    destruct (HQ Hn0) as ((Hp & Hc & Hl) & H1 & H2).
    assert (K : forall es1, (forall i, ~ In (ERun i) es1) -> (forall r, ~ In (EReturn r) es1) ->
       (forall i, ~ In (ERun i) (es ++ es1)%list) /\ forall r, ~ In (EReturn r) (es ++ es1)%list).
    { intros es2 K1 K2. split; intros x Hx; apply in_app_iff in Hx as [Hx|Hx]; [now apply (H1 x)|now apply (K1 x)|now apply (H2 x)|now apply (K2 x)]. }
    destruct a as [ctx|w err|w|i|]; cbn [ServeModel.step] in H.
    - unfold server_step in H. destruct Hp as [Hp|[Hp|[[Hp Hq]|[Hp Hq]]]]; rewrite Hp in H; cbn in H.
      + inv H. cbn. split; [auto|]. apply K; cbn; intuition discriminate.
      + inv H. cbn. split; [auto 6|]. apply K; cbn; intuition discriminate.
      + destruct ctx; [rewrite Hc in H; discriminate|]. rewrite Hq in H. inv H. cbn. split; [auto 7|]. apply K; cbn; intuition discriminate.
      + destruct ctx; [rewrite Hc in H; discriminate|]. rewrite Hq in H. discriminate.
    - exfalso. destruct (v_phase s) eqn:Ep; try discriminate. destruct Hp as [Hp|[Hp|[[Hp Hq]|[Hp Hq]]]]; inv Hp; discriminate.
    - exfalso. destruct (v_phase s) eqn:Ep; try discriminate. destruct Hp as [Hp|[Hp|[[Hp Hq]|[Hp Hq]]]]; inv Hp; discriminate.
    - rewrite Hl in H. discriminate.
    - inv H. exfalso. apply Hn. apply in_app_iff. right. now left. }
  destruct (HQ Hn) as (_ & ? & ?). auto.
Qed.
Print Assumptions C86_refuted_remotes.

Example C86_example :
  sv_run false true [sv_stage "a" "1" false false [x0]; sv_stage "b" "1" false false [x0]]
    [AServer false; AServer false; AServer false; AServer false; AServer false; AServer false; AServer false; AServer false; AServer false; AServer false; AServer false]
  = Some (Returned false,
      [EDir 0 "dir of a"; EPrepare 0 (sv_stage "a" "1" false false [x0]) "dir of a" true; EBooted 0 None; ETested 0;
       EDir 1 "dir of b"; EPrepare 1 (sv_stage "b" "1" false false [x0]) "dir of b" true; EBooted 1 None; ETested 1; EReturn false]).
Proof. reflexivity. Qed.
