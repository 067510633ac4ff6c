(** What a step of the server does to handlers and clients, for NetProofs.v. *)
From Verif Require Import Prelude ConfigModel ConfigProofs TrxModel ApiModel ApiSpec ApiProofs ApiServerProofs ApiSeqProofs ApiInvProofs
  ApiReachProofs ApiStuckProofs.
From Verif Require NetModel.

(** The kinds of handlers: of GET /boot, POST /boot, GET /run, POST /run and the others. *)
Inductive kind := KGetBoot | KPostBoot | KGetRun | KPostRun | KOther.
Definition pc_kind (p : pc) : kind :=
  match p with
  | GetBootCheck | GetBootWait => KGetBoot
  | PostBootCheck | PostBootRead | PostBootSet _ | PostBootAck _ => KPostBoot
  | GetRunCheck | GetRunWait | GetRunDone | GetRunWrite | GetRunSet => KGetRun
  | PostRunCheck | PostRunRead | PostRunDelete _ | PostRunAck _ | PostRunReady => KPostRun
  | _ => KOther
  end.
Lemma kind_main p : main_pc p = match pc_kind p with KGetRun | KOther => false | _ => true end.
Proof. now destruct p. Qed.
Lemma kind_booting p : booting_pc p = match pc_kind p with KGetBoot => true | _ => false end.
Proof. now destruct p. Qed.

Section srv.
  Context (test : bool).

  Lemma srv_threads s a s' es i : step test s a = Some (s', es) -> (i < s_nthreads s)%nat ->
    (forall body ok, a <> AThread i body ok) -> s_threads s' i = s_threads s i.
  Proof.
    intros H Hi Ha. step_cases H; cbn; ups; auto; try lia; exfalso; eapply Ha; reflexivity.
  Qed.
  Lemma srv_nthreads s a s' es : step test s a = Some (s', es) ->
    (s_nthreads s <= s_nthreads s')%nat /\ ((forall q, a <> ARequest q) -> s_nthreads s' = s_nthreads s).
  Proof. intros H. step_cases H; cbn; split; auto; intros X; exfalso; eapply X; reflexivity. Qed.

  Lemma srv_clients s a s' es n m : bound s -> step test s a = Some (s', es) -> sget n (g_clients (s_metas s' m)) <> None ->
    sget n (g_clients (s_metas s m)) <> None
    \/ exists i body ok c, a = AThread i body ok /\ s_threads s i = Some (c, GetBootWait) /\ r_name (s_rcs s c) = n /\ s_cur s = Some m.
  Proof.
    intros B H Hg. step_cases H; cbn in *; ups; cbn in *; auto; try (rewrite sget_sset in Hg); try (rewrite sget_sdel in Hg).
    all: try (destruct (String.eqb_spec n (r_name (s_rcs s n0))) as [En|]; [easy|now left]).
    all: try (exfalso; now apply Hg).
    match type of Hg with context [if String.eqb ?a ?b then _ else _] => destruct (String.eqb_spec a b) as [En|]; [|now left] end.
    right. do 4 eexists. split; [reflexivity|]. split; [eassumption|]. split; [now symmetry|first [assumption|reflexivity]].
  Qed.

  Lemma srv_booted s a s' es m : bound s -> step test s a = Some (s', es) -> g_booted (s_metas s m) = true ->
    g_booted (s_metas s' m) = true.
  Proof.
    intros B H Hb. destruct (Nat.lt_ge_cases m (s_nmetas s)) as [Hm|Hm].
    - now apply (step_booted test s a s' es m B H Hm).
    - rewrite (b_meta s B) in Hb by exact Hm. discriminate.
  Qed.

  (** A handler goes on. *)
  Lemma own_pc s i c p body ok s' es c' p' : s_threads s i = Some (c, p) -> thread_step s i c p body ok = Some (s', es) ->
    s_threads s' i = Some (c', p') ->
    c' = c /\ pc_kind p' = pc_kind p
    /\ match p' with
       | PostBootSet e => exists b, body = Some b /\ e = negb (String.eqb b "")
       | PostBootAck e => p = PostBootSet e
       | GetBootCheck | GetBootWait => es = []
       | _ => True
       end.
  Proof.
    intros Hi H Hi'. unfold thread_step in H. cbv zeta in H.
    destruct p; repeat (dmh H; try discriminate H); try discriminate H; injection H as <- <-; cbn in Hi'; rewrite ?upd_same in Hi'; try discriminate;
      try (rewrite Hi in Hi'); injection Hi' as <- <-; (split; [reflexivity|]); (split; [reflexivity|]); eauto.
  Qed.

  Lemma srv_main s a s' es i c p : bound s -> step test s a = Some (s', es) -> s_threads s' i = Some (c, p) -> main_pc p = true ->
    (exists p0, s_threads s i = Some (c, p0) /\ main_pc p0 = true)
    \/ (exists q, a = ARequest q /\ main_request q = true /\ i = s_nthreads s).
  Proof.
    intros B H Hi Hp. destruct (other_thread test s a s' es i c p B H Hi) as [(body & ok & ->)|[Hi0|(q & -> & -> & -> & _)]].
    - left. unfold step in H. destruct (s_threads s i) as [[c0 p0]|] eqn:E; [|discriminate].
      destruct (own_pc s i c0 p0 body ok s' es c p E H Hi) as (-> & K & _). exists p0. split; [reflexivity|].
      rewrite kind_main in *. now rewrite <- K.
    - left. eauto.
    - right. exists q. split; [reflexivity|]. split; [|reflexivity]. revert Hp. unfold first_pc, main_request. now destruct (q_path q), (is_get q).
  Qed.

  Lemma srv_done s a s' es m n : bound s -> step test s a = Some (s', es) -> In (EDone m n) es ->
    exists i body ok c err, a = AThread i body ok /\ s_threads s i = Some (c, PostRunAck err)
      /\ r_stage (s_rcs s c) = Some m /\ r_name (s_rcs s c) = n.
  Proof.
    intros B H Hin. step_cases H; cbn in Hin; try (intuition discriminate).
    - destruct Hin as [[= <- <-]|[]]. do 5 eexists. repeat split; eauto.
    - exfalso. now apply (b_ts s B _ _ _ Heqo).
  Qed.

  (** Answers. *)
  Lemma own_answer s i c p body ok s' es code x : thread_step s i c p body ok = Some (s', es) ->
    NetModel.answered es = Some (code, x) ->
    match x with
    | Some m => p = GetBootWait /\ s_cur s = Some m /\ code = 200%nat
    | None => pc_kind p = KGetRun -> code = 200%nat -> p = GetRunWrite
    end.
  Proof.
    intros H Ha. unfold thread_step in H. cbv zeta in H.
    destruct p; repeat (dmh H; try discriminate H); try discriminate H; injection H as <- <-; cbn in Ha; try discriminate Ha;
      try (injection Ha as <- <-; try (intros _; congruence); easy).
    destruct ok; [|discriminate]. injection Ha as <- <-. auto.
  Qed.

  (** A request that gets a handler. *)
  Lemma admitted s q s' es n : bound s -> (exists tr, known s tr) -> request_step s q = (s', es) -> q_name q = Some n ->
    (exists code, api_client s q = Refused code /\ s' = s)
    \/ es = [] /\ s_nthreads s' = S (s_nthreads s) /\ s_metas s' = s_metas s
       /\ exists c, s_threads s' (s_nthreads s) = Some (c, first_pc q) /\ r_name (s_rcs s' c) = clean n
          /\ (booting_pc (first_pc q) = false -> exists m, r_stage (s_rcs s' c) = Some m /\ sget (clean n) (g_clients (s_metas s m)) <> None).
  Proof.
    intros B [tr [K _]] H Hq.
    unfold request_step in H. destruct (api_client s q) as [code|n1|c] eqn:Ea.
    - injection H as <- <-. left. eauto.
    - injection H as <- <-. right. destruct (api_client_new _ _ _ Ea) as (m & n0 & Hc & Hq0 & -> & Hg & Hmeth & Hpath).
      repeat split; auto. exists (s_nrcs s). cbn. rewrite !upd_same. cbn. split; [reflexivity|]. split; [congruence|].
      unfold first_pc, is_get. rewrite Hpath, Hmeth. discriminate.
    - injection H as <- <-. right. destruct (api_client_known _ _ _ Ea) as (m & n0 & Hc & Hq0 & Hg & Hmeth).
      assert (n0 = n) as -> by congruence. destruct (b_cl s B _ _ _ Hg) as (_ & _ & En).
      repeat split; auto. exists c. cbn. rewrite !upd_same. split; [reflexivity|]. split; [exact En|].
      intros _. exists m. destruct (K _ _ _ Hg) as (K1 & _). split; [exact K1|congruence].
  Qed.
End srv.
