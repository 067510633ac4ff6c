From Verif Require Import Prelude ConfigModel ConfigProofs UrlModel ServeModel ServeSpec ServeProofs RemoteModel BootModel.
From Verif Require RemoteProofs.
#[local] Open Scope string_scope.
#[local] Open Scope list_scope.

Section P.
Variable cmd : option cmdline.
Variables (E : env) (bases : string -> option (option base)) (file_of : string -> stage_file).
Variables (dir_of : string -> string) (chdir_ok : string -> bool) (collector_ok prepare_ok : stage -> bool)
          (cpu_ok : string -> bool) (hostname cwd : string).
Notation up := (up cmd E bases file_of cpu_ok cwd).
Notation bstep := (bstep cmd E bases file_of dir_of chdir_ok collector_ok prepare_ok cpu_ok hostname cwd).
Notation brun := (brun cmd E bases file_of dir_of chdir_ok collector_ok prepare_ok cpu_ok hostname cwd).
Notation srun stages := (ServeModel.run (api_of cmd) (test_of cmd) stages dir_of chdir_ok collector_ok prepare_ok (ServeModel.init cwd)).
Notation rrun := (RemoteModel.run (addr_of cmd) hostname RemoteModel.init).

Lemma brun_snoc l a s s2 es : brun s (l ++ [a]) = Some (s2, es) ->
  exists s1 e1 e2, brun s l = Some (s1, e1) /\ bstep s1 a = Some (s2, e2) /\ es = e1 ++ e2.
Proof.
  revert s es. induction l as [|x l IH]; intros s es H; cbn in H.
  - destruct (bstep s a) as [[s1 e1]|] eqn:F; [|discriminate]. inv H. exists s, [], e1. cbn. rewrite app_nil_r. auto.
  - destruct (bstep s x) as [[s1 e1]|] eqn:F; [|discriminate].
    destruct (brun s1 (l ++ [a])) as [[s3 e3]|] eqn:G; [|discriminate]. inv H.
    apply IH in G as (s4 & e4 & e5 & G1 & G2 & ->). exists s4, (e1 ++ e4), e5. cbn. rewrite F, G1, app_assoc. auto.
Qed.

Lemma srun_snoc stages l a v es v' es' : srun stages l = Some (v, es) ->
  serve_step cmd dir_of chdir_ok collector_ok prepare_ok stages v a = Some (v', es') ->
  srun stages (l ++ [a]) = Some (v', es ++ es').
Proof.
  unfold serve_step. generalize (ServeModel.init cwd). revert es.
  induction l as [|x l IH]; intros es s0 H F.
  - cbn in H. inv H. cbn. rewrite F. now rewrite app_nil_r.
  - cbn in *. destruct (ServeModel.step _ _ _ _ _ _ _ s0 x) as [[s1 e1]|]; [|discriminate].
    destruct (ServeModel.run _ _ _ _ _ _ _ s1 l) as [[s3 e3]|] eqn:G; [|discriminate]. inv H.
    rewrite (IH _ _ G F). now rewrite app_assoc.
Qed.

Lemma rrun_snoc l a v es v' es' : rrun l = Some (v, es) ->
  remote_step cmd hostname v a = Some (v', es') -> rrun (l ++ [a]) = Some (v', es ++ es').
Proof.
  unfold remote_step. generalize RemoteModel.init. revert es.
  induction l as [|x l IH]; intros es s0 H F.
  - cbn in H. inv H. cbn. rewrite F. now rewrite app_nil_r.
  - cbn in *. destruct (RemoteModel.step _ _ s0 x) as [[s1 e1]|]; [|discriminate].
    destruct (RemoteModel.run _ _ s1 l) as [[s3 e3]|] eqn:G; [|discriminate]. inv H.
    rewrite (IH _ _ G F). now rewrite app_assoc.
Qed.

(** How Server.Run ended. *)
Definition serve_code (ctrl_c : bool) (v : ServeModel.state) (code : N) : Prop :=
  (v_phase v = ServeModel.Returned false /\ code = 0%N) \/
  (v_phase v = ServeModel.Returned true /\ code = 1%N) \/
  ((exists i, v_phase v = Panicked i) /\ code = 2%N) \/
  (ctrl_c = true /\ code = 1%N).
Definition remote_code (ctrl_c : bool) (m : RemoteModel.state) (code : N) : Prop :=
  ((exists r, m_phase m = RemoteModel.Returned r) /\ code = 0%N) \/ (ctrl_c = true /\ code = 1%N).

(** What a state and the events so far can be. *)
Inductive shape : bstate -> list bevent -> Prop :=
| sh_init : shape (BSt BInit false) []
| sh_exit code es : up = (BSt (BExited code) false, es) -> shape (BSt (BExited code) false) es
| sh_serve stages sl v ses c :
    up = (BSt (BServe stages (ServeModel.init cwd)) false, []) ->
    srun stages sl = Some (v, ses) -> (c = true <-> In ECancel ses) ->
    shape (BSt (BServe stages v) c) (map XServe ses)
| sh_served stages sl v ses c code :
    up = (BSt (BServe stages (ServeModel.init cwd)) false, []) ->
    srun stages sl = Some (v, ses) -> (c = true <-> In ECancel ses) -> serve_code c v code ->
    shape (BSt (BExited code) c) (map XServe ses ++ [XExit code])
| sh_remote rl m res c :
    up = (BSt (BRemote RemoteModel.init) false, map XRemote first) ->
    rrun rl = Some (m, res) -> (c = true <-> In QCtrlC res) ->
    shape (BSt (BRemote m) c) (map XRemote (first ++ res))
| sh_remoted rl m res c code :
    up = (BSt (BRemote RemoteModel.init) false, map XRemote first) ->
    rrun rl = Some (m, res) -> (c = true <-> In QCtrlC res) -> remote_code c m code ->
    shape (BSt (BExited code) c) (map XRemote (first ++ res) ++ [XExit code]).

Lemma no_cancel stages v x v' es : serve_step cmd dir_of chdir_ok collector_ok prepare_ok stages v x = Some (v', es) ->
  x <> ACancel -> ~ In ECancel es.
Proof.
  unfold serve_step. destruct x as [ctx|w err|w|i|]; cbn [ServeModel.step]; intros H Hx; [|dmh H; try discriminate; dmh H; inv H; cbn; easy..| |congruence].
  - unfold server_step, start_stage in H. intros Hi.
    repeat (dmh H; try discriminate); inv H; cbn in Hi;
      repeat (match goal with K : context [match ?x with _ => _ end] |- _ => destruct x; cbn in K end); intuition discriminate.
  - dmh H; inv H. cbn. intuition discriminate.
Qed.
Lemma no_ctrl_c m x m' es : remote_step cmd hostname m x = Some (m', es) -> x <> ACtrlC -> ~ In QCtrlC es.
Proof.
  unfold remote_step. intros H Hx Hi.
  destruct x; cbn [RemoteModel.step] in H; try congruence;
    repeat (dmh H; try discriminate); inv H; cbn in Hi; intuition discriminate.
Qed.

Lemma up_shape : match up with
  | (BSt (BExited _) false, _) => True
  | (BSt (BServe _ v) false, es) => v = ServeModel.init cwd /\ es = []
  | (BSt (BRemote m) false, es) => m = RemoteModel.init /\ es = map XRemote first
  | _ => False
  end.
Proof.
  unfold BootModel.up, exit. destruct cmd as [k|]; [|exact I]. destruct (k_help k); [exact I|]. destruct (k_version k); [exact I|].
  destruct (negb (String.eqb (k_cpu k) "") && negb (cpu_ok (k_cpu k)))%bool; [exact I|].
  destruct (negb (String.eqb (k_client k) "")); [auto|]. destruct (Nat.eqb (length (k_args k)) 1); [exact I|].
  destruct (load _ _ _ _ _ _); [auto|exact I].
Qed.

Lemma shape_step s es a s2 e2 : shape s es -> bstep s a = Some (s2, e2) -> shape s2 (es ++ e2).
Proof.
  intros Hs H. unfold BootModel.bstep in H. destruct Hs as [|code es U|stages sl v ses c U R C|stages sl v ses c code U R C K|rl m res c U R C|rl m res c code U R C K]; cbn [b_phase b_ctrl_c] in H.
  - destruct a as [| |a| | |]; try discriminate.
    + inv H. pose proof up_shape as S. rewrite H1 in S. destruct s2 as [p c]. destruct p as [|stages v|m|code], c; try contradiction.
      * destruct S as [-> ->]. apply (sh_serve stages [] (ServeModel.init cwd) []); auto. cbn. easy.
      * destruct S as [-> ->]. apply (sh_remote [] RemoteModel.init []); auto. easy.
      * apply (sh_exit code e2); auto.
    + destruct a; discriminate.
    + destruct a; discriminate.
  - destruct a as [|a|a| | |]; try discriminate; destruct a; discriminate.
  - assert (G : forall x v' es', serve_step cmd dir_of chdir_ok collector_ok prepare_ok stages v x = Some (v', es') -> x <> ACancel ->
       shape (BSt (BServe stages v') c) (map XServe ses ++ map XServe es')).
    { intros x v' es' F Hx. rewrite <- map_app. eapply sh_serve; [exact U|eapply srun_snoc; eauto|].
      rewrite in_app_iff, C. pose proof (no_cancel _ _ _ _ _ F Hx). tauto. }
    destruct a as [|x|x| | |]; try discriminate.
    + destruct x; try discriminate;
        match type of H with match ?X with _ => _ end = _ => destruct X as [[v' es']|] eqn:F; [|discriminate] end;
        inv H; eapply G; eauto; discriminate.
    + destruct x; discriminate.
    + destruct (v_phase v) as [i|i|i n|i n|i|r|i|i] eqn:Ep; try discriminate; inv H; cbn [app].
      * eapply sh_served; eauto. unfold serve_code. rewrite Ep. destruct r; auto 6.
      * eapply sh_served; eauto. unfold serve_code. rewrite Ep. eauto 6.
    + destruct c eqn:Ec.
      * inv H. rewrite app_nil_r. eapply sh_serve; eauto.
      * cbn in H. match type of H with Some (BSt (BServe _ ?v') _, _) = _ => pose (v1 := v') end. inv H. cbn [map app].
        change [XServe ECancel] with (map XServe [ECancel]). rewrite <- map_app.
        eapply sh_serve; [exact U|eapply (srun_snoc _ _ ACancel); [exact R|reflexivity]|]. rewrite in_app_iff. cbn. tauto.
    + destruct c eqn:Ec; [|discriminate]. inv H. cbn [app]. eapply sh_served; eauto. unfold serve_code. auto 6.
  - destruct a as [|a|a| | |]; try discriminate; destruct a; discriminate.
  - assert (G : forall x m' es', remote_step cmd hostname m x = Some (m', es') -> x <> ACtrlC ->
       shape (BSt (BRemote m') c) (map XRemote (first ++ res) ++ map XRemote es')).
    { intros x m' es' F Hx. rewrite <- map_app, <- app_assoc. eapply sh_remote; [exact U|eapply rrun_snoc; eauto|].
      rewrite in_app_iff, C. pose proof (no_ctrl_c _ _ _ _ F Hx). tauto. }
    destruct a as [|x|x| | |]; try discriminate.
    + destruct x; discriminate.
    + destruct x; try discriminate;
        match type of H with match ?X with _ => _ end = _ => destruct X as [[v' es']|] eqn:F; [|discriminate] end;
        inv H; eapply G; eauto; discriminate.
    + destruct (m_phase m) eqn:Ep; try discriminate; inv H; cbn [app].
      eapply sh_remoted; eauto. unfold remote_code. rewrite Ep. eauto.
    + destruct c eqn:Ec.
      * inv H. rewrite app_nil_r. eapply sh_remote; eauto.
      * cbn in H. inv H. change [XRemote QCtrlC] with (map XRemote [QCtrlC]). rewrite <- map_app, <- app_assoc.
        eapply sh_remote; [exact U|eapply (rrun_snoc _ ACtrlC); [exact R|reflexivity]|]. rewrite in_app_iff. cbn. tauto.
    + destruct c eqn:Ec; [|discriminate]. inv H. cbn [app]. eapply sh_remoted; eauto. unfold remote_code. auto.
  - destruct a as [|a|a| | |]; try discriminate; destruct a; discriminate.
Qed.

Lemma shape_run l s es : brun binit l = Some (s, es) -> shape s es.
Proof.
  revert s es. induction l as [|a l IH] using rev_ind; intros s es H.
  - inv H. constructor.
  - apply brun_snoc in H as (s1 & e1 & e2 & H1 & H2 & ->). eapply shape_step; eauto.
Qed.

(** What the command line has to be for the server, or for the remote. *)
Lemma up_serve stages v c es : up = (BSt (BServe stages v) c, es) ->
  exists k, cmd = Some k /\ k_help k = false /\ k_version k = false /\ k_client k = "" /\ length (k_args k) <> 1 /\
  load E bases (map file_of (tl (k_args k))) (k_params k) (k_dsn k) (k_db k) = Some stages.
Proof.
  unfold BootModel.up, exit. destruct cmd as [k|]; [|discriminate].
  destruct (k_help k) eqn:A1; [discriminate|]. destruct (k_version k) eqn:A2; [discriminate|].
  dmg; [discriminate|]. destruct (String.eqb_spec (k_client k) ""); cbn; [|discriminate].
  destruct (Nat.eqb_spec (length (k_args k)) 1); [discriminate|].
  destruct (load _ _ _ _ _ _) eqn:L; [|discriminate]. intros H. inv H. eauto 10.
Qed.
Lemma up_remote m c es : up = (BSt (BRemote m) c, es) ->
  exists k, cmd = Some k /\ k_help k = false /\ k_version k = false /\ k_client k <> "".
Proof.
  unfold BootModel.up, exit. destruct cmd as [k|]; [|discriminate].
  destruct (k_help k) eqn:A1; [discriminate|]. destruct (k_version k) eqn:A2; [discriminate|].
  dmg; [discriminate|]. destruct (String.eqb_spec (k_client k) ""); cbn; [|intros H; inv H; eauto].
  dmg; [discriminate|]. dmg; discriminate.
Qed.

Definition bad_start : Prop :=
  cmd = None \/ exists k, cmd = Some k /\ k_help k = false /\ k_version k = false /\
  ((k_cpu k <> "" /\ cpu_ok (k_cpu k) = false) \/
   (k_client k = "" /\ (length (k_args k) = 1 \/
     load E bases (map file_of (tl (k_args k))) (k_params k) (k_dsn k) (k_db k) = None))).

Lemma up_exit code c es : up = (BSt (BExited code) c, es) ->
  (exists k, cmd = Some k /\ k_help k = true /\ code = 0%N /\ es = [XHelp; XExit 0]) \/
  (exists k, cmd = Some k /\ k_help k = false /\ k_version k = true /\ code = 0%N /\ es = [XVersion; XExit 0]) \/
  (code = 1%N /\ es = [XExit 1] /\ bad_start).
Proof.
  unfold BootModel.up, exit, bad_start. destruct cmd as [k|]; [|intros H; inv H; auto 6].
  destruct (k_help k) eqn:A1; [intros H; inv H; eauto 8|]. destruct (k_version k) eqn:A2; [intros H; inv H; eauto 10|].
  intros H. right. right.
  assert (K : code = 1%N /\ es = [XExit 1] /\ (k_cpu k <> "" /\ cpu_ok (k_cpu k) = false \/
    k_client k = "" /\ (length (k_args k) = 1 \/ load E bases (map file_of (tl (k_args k))) (k_params k) (k_dsn k) (k_db k) = None)));
    [|destruct K as (-> & -> & K); split; [auto|split; [auto|right; exists k; auto]]].
  destruct (String.eqb_spec (k_cpu k) ""); cbn in H.
  - destruct (String.eqb_spec (k_client k) ""); cbn in H; [|discriminate].
    destruct (Nat.eqb_spec (length (k_args k)) 1); [inv H; auto 7|]. destruct (load _ _ _ _ _ _); inv H; auto 7.
  - destruct (cpu_ok (k_cpu k)) eqn:B; cbn in H; [|inv H; auto].
    destruct (String.eqb_spec (k_client k) ""); cbn in H; [|discriminate].
    destruct (Nat.eqb_spec (length (k_args k)) 1); [inv H; auto 7|]. destruct (load _ _ _ _ _ _); inv H; auto 7.
Qed.
End P.

(** The stage of a file. *)
Lemma loaded_file E bases fs kvs dsn db cs i f c : load E bases fs kvs dsn db = Some cs ->
  nth_error fs i = Some f -> nth_error cs i = Some c -> s_file c = f_abs f /\ s_n c = S i.
Proof.
  intros L F C. apply load_nth in L as [_ L]. destruct (L i f F) as (b & c0 & c1 & c2 & _ & _ & V & W & N).
  rewrite C in N. inv N. apply validate_fields in W as (_ & _ & _ & -> & -> & _).
  apply stage_vars_fields in V as (_ & _ & _ & _ & _ & _ & _ & _ & _ & _ & _ & -> & ->).
  now split.
Qed.

Lemma loaded_trx E bases fs kvs dsn db cs c : load E bases fs kvs dsn db = Some cs ->
  In c cs -> s_trx c = [] -> s_disable c = true.
Proof.
  intros L Hc T. apply In_nth_error in Hc as [i C]. apply load_nth in L as [Hl L].
  destruct (nth_error fs i) as [f|] eqn:F.
  - destruct (L i f F) as (b & c0 & c1 & c2 & _ & _ & V & W & N). rewrite C in N. inv N.
    unfold stage_validate in W. destruct (s_disable c1) eqn:D; [now inv W|].
    destruct (s_trx c1) as [|t ts]; [discriminate|]. exfalso.
    destruct (check_trx E [] (t :: ts)) as [xs|] eqn:X; [|discriminate].
    destruct (check_workload E xs [] "" (s_workload c1)) as [[gs [w wo]]|]; [|discriminate].
    repeat (dmh W; [discriminate|]). destruct (check_stats E (s_stats c1)); [|discriminate]. inv W. cbn in T. subst xs.
    cbn in X. repeat (dmh X; try discriminate).
  - apply nth_error_None in F. assert (nth_error cs i <> None) by congruence. apply nth_error_Some in H. lia.
Qed.

Lemma panicked_trx api test stages dir_of chdir_ok collector_ok prepare_ok cwd l v es i :
  ServeModel.run api test stages dir_of chdir_ok collector_ok prepare_ok (ServeModel.init cwd) l = Some (v, es) ->
  v_phase v = Panicked i -> exists c, nth_error stages i = Some c /\ s_trx c = [].
Proof.
  intros H. revert i. pose (Q := fun (v : ServeModel.state) (_ : list ServeModel.event) =>
    forall i, v_phase v = Panicked i -> exists c, nth_error stages i = Some c /\ s_trx c = []).
  change (Q v es). change es with ([] ++ es).
  refine (ServeProofs.run_invariant api test stages dir_of chdir_ok collector_ok prepare_ok Q _ l (ServeModel.init cwd) [] v es _ H);
    [|unfold Q; cbn; discriminate].
  clear. intros s es a s1 es1 HQ H i Hp. unfold Q in HQ. destruct a as [ctx|w err|w|j|]; cbn in H.
  - unfold server_step in H. destruct (v_phase s) as [j|j|j n|j n|j|r|j|j] eqn:Ep; try discriminate.
    + repeat (dmh H; try discriminate); inv H; discriminate.
    + destruct (nth_error stages j) as [c|] eqn:Ec; [|discriminate]. unfold start_stage in H.
      repeat (dmh H; try discriminate); inv H; try discriminate. cbn in Hp. inv Hp. eauto.
    + repeat (dmh H; try discriminate); inv H; discriminate.
    + repeat (dmh H; try discriminate); inv H; cbn in Hp; congruence.
    + repeat (dmh H; try discriminate); inv H; discriminate.
  - repeat (dmh H; try discriminate); inv H. cbn in Hp. apply HQ. congruence.
  - repeat (dmh H; try discriminate); inv H. cbn in Hp. apply HQ. congruence.
  - dmh H; [|discriminate]. inv H. cbn in Hp. auto.
  - inv H. cbn in Hp. auto.
Qed.

(** Server.Run has returned in every state in which it has said so. *)
Lemma returned_last api test stages dir_of chdir_ok collector_ok prepare_ok cwd l v es r :
  ServeModel.run api test stages dir_of chdir_ok collector_ok prepare_ok (ServeModel.init cwd) l = Some (v, es) ->
  v_phase v = ServeModel.Returned r -> In (EReturn r) es.
Proof. intros H Hp. apply inv_run in H. destruct H as [_ _ I _]. unfold phase_inv in I. now rewrite Hp in I. Qed.
