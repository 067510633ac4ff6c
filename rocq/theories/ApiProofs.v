(** Invariants of the client-server protocol that hold for any schedule. *)
From Verif Require Import Prelude ConfigModel ConfigProofs TrxModel ApiModel ApiSpec.

#[global] Opaque N.pow.

(** * Maps *)
Lemma sget_sdel {A} k (m : smap A) k' : sget k' (sdel k m) = if String.eqb k' k then None else sget k' m.
Proof.
  unfold sdel in *. induction m as [|[k0 v] m IH]; cbn; [now destruct (String.eqb k' k)|].
  destruct (String.eqb_spec k0 k) as [->|Hn]; cbn.
  - rewrite IH. destruct (String.eqb_spec k' k); reflexivity.
  - rewrite IH. destruct (String.eqb_spec k' k0) as [->|]; [|reflexivity].
    destruct (String.eqb_spec k0 k); congruence.
Qed.
Lemma sget_nil_iff {A} (m : smap A) : (forall n, sget n m = None) <-> m = [].
Proof.
  split; [|now intros ->]. intros H. destruct m as [|[k v] m]; [reflexivity|].
  specialize (H k). cbn in H. now rewrite String.eqb_refl in H.
Qed.
Lemma sset_length {A} k (v : A) m :
  List.length (sset k v m) = match sget k m with Some _ => List.length m | None => S (List.length m) end.
Proof.
  induction m as [|[k0 w] m IH]; cbn; [reflexivity|].
  destruct (String.eqb k k0); cbn; [reflexivity|]. rewrite IH. now destruct (sget k m).
Qed.
Lemma sset_nodup {A} k (v : A) m : NoDup (skeys m) -> NoDup (skeys (sset k v m)).
Proof.
  induction m as [|[k0 w] m IH]; cbn; intros H; [repeat constructor; easy|]. inv H.
  destruct (String.eqb_spec k k0) as [->|Hn]; cbn; constructor; auto.
  fold (skeys (sset k v m)). rewrite skeys_sset. intros [E|Hi]; [congruence|easy].
Qed.
Lemma sdel_keys {A} k (m : smap A) x : In x (skeys (sdel k m)) -> In x (skeys m).
Proof.
  unfold skeys, sdel. rewrite !in_map_iff. intros (y & E & Hy). exists y. split; [easy|].
  apply filter_In in Hy. easy.
Qed.
Lemma sdel_nodup {A} k (m : smap A) : NoDup (skeys m) -> NoDup (skeys (sdel k m)).
Proof.
  induction m as [|[k0 w] m IH]; cbn; intros H; [constructor|]. inv H.
  destruct (String.eqb k0 k); cbn; [auto|]. constructor; [intros Hi; apply sdel_keys in Hi; auto|now apply IH].
Qed.
Lemma sdel_length {A} k (m : smap A) : (List.length (sdel k m) <= List.length m)%nat.
Proof. unfold sdel. induction m as [|[k0 w] m IH]; cbn; [lia|]. destruct (String.eqb k0 k); cbn; lia. Qed.
Lemma sdel_nil {A} k (m : smap A) : m = [] -> sdel k m = [].
Proof. now intros ->. Qed.

Lemma upd_same {A} (f : nat -> A) i x : upd f i x i = x.
Proof. unfold upd. now rewrite Nat.eqb_refl. Qed.
Lemma upd_other {A} (f : nat -> A) i x j : j <> i -> upd f i x j = f j.
Proof. unfold upd. intros H. destruct (Nat.eqb_spec j i); congruence. Qed.

Ltac ups :=
  unfold upd in *;
  repeat match goal with
         | H : context [Nat.eqb ?a ?b] |- _ => destruct (Nat.eqb_spec a b); subst
         | |- context [Nat.eqb ?a ?b] => destruct (Nat.eqb_spec a b); subst
         end.

Lemma flat_map_app_ {A B} (f : A -> list B) l l' : flat_map f (l ++ l') = flat_map f l ++ flat_map f l'.
Proof. apply flat_map_app. Qed.
Lemma counted_app m tr es : counted m (tr ++ es) = counted m tr ++ counted m es.
Proof. apply flat_map_app. Qed.
Lemma finished_app m tr es : finished m (tr ++ es) = finished m tr ++ finished m es.
Proof. apply flat_map_app. Qed.

(** * Cases *)
Ltac step_cases H :=
  unfold step, request_step, thread_step, server_step, new_stage in H;
  cbv zeta in H;
  repeat (dmh H; try discriminate H);
  try discriminate H; injection H as <- <-.

(** Names do not change. *)
Lemma step_name test s a s' es c : step test s a = Some (s', es) -> (c < s_nrcs s)%nat ->
  r_name (s_rcs s' c) = r_name (s_rcs s c) /\ (s_nrcs s <= s_nrcs s')%nat.
Proof.
  intros H Hc. step_cases H; cbn; ups; try (split; [reflexivity|lia]); try lia.
Qed.

(** * Pointers *)
Definition booting_pc (p : pc) : bool := match p with GetBootCheck | GetBootWait => true | _ => false end.

Fixpoint srv_bound (s : state) (v : server) : Prop :=
  match v with
  | Stage1 next k | Stage4 next k => (forall m, next = Some m -> (m < s_nmetas s)%nat) /\ srv_bound s k
  | Stage2 old next k | Stage3 old next k =>
      (old < s_nmetas s)%nat /\ (forall m, next = Some m -> (m < s_nmetas s)%nat) /\ srv_bound s k
  | Boot m _ | SetBooted m _ | RunStart m _ | RunWait m _ => (m < s_nmetas s)%nat
  | _ => True
  end.
Lemma srv_bound_mono s s' v : (s_nmetas s <= s_nmetas s')%nat -> srv_bound s v -> srv_bound s' v.
Proof.
  intros Hle. induction v; cbn; intros; repeat match goal with H : _ /\ _ |- _ => destruct H end;
    repeat split; try lia; auto; intros x Ex; match goal with H : forall m, _ -> _ |- _ => specialize (H x Ex) end; lia.
Qed.

Record bound (s : state) : Prop := {
  b_thr : forall i, (s_nthreads s <= i)%nat -> s_threads s i = None;
  b_tc : forall i c p, s_threads s i = Some (c, p) -> (c < s_nrcs s)%nat;
  b_ts : forall i c p, s_threads s i = Some (c, p) -> booting_pc p = false -> r_stage (s_rcs s c) <> None;
  b_cl : forall m n c, sget n (g_clients (s_metas s m)) = Some c ->
      (c < s_nrcs s)%nat /\ r_stage (s_rcs s c) <> None /\ r_name (s_rcs s c) = n;
  b_meta : forall m, (s_nmetas s <= m)%nat -> s_metas s m = no_meta;
  b_rc : forall c m, r_stage (s_rcs s c) = Some m -> (m < s_nmetas s)%nat;
  b_cur : forall m, s_cur s = Some m -> (m < s_nmetas s)%nat;
  b_loc : forall m, In m (s_locals s) -> (m < s_nmetas s)%nat;
  b_srv : srv_bound s (s_server s) }.

Lemma bound_init : bound init.
Proof. split; cbn; try discriminate; try easy. Qed.

Lemma remove_one_in m l x : In x (remove_one m l) -> In x l.
Proof.
  induction l as [|y l IH]; cbn; [easy|]. destruct (Nat.eqb y m); cbn; [now right|]. intros [->|H]; auto.
Qed.

Lemma api_client_known s q c : api_client s q = Known c ->
  exists m n, s_cur s = Some m /\ q_name q = Some n /\ sget (clean n) (g_clients (s_metas s m)) = Some c
    /\ q_method q <> OTHER.
Proof.
  unfold api_client. intros H. repeat (dmh H; try discriminate H); inv H; exists n, s0; easy.
Qed.
Lemma api_client_new s q n : api_client s q = New n ->
  exists m n0, s_cur s = Some m /\ q_name q = Some n0 /\ n = clean n0
    /\ sget n (g_clients (s_metas s m)) = None /\ q_method q = GET /\ q_path q = PBoot.
Proof.
  unfold api_client. intros H. repeat (dmh H; try discriminate H); inv H; exists n0, s0; easy.
Qed.

Ltac known :=
  match goal with
  | H : api_client _ _ = Known _ |- _ => destruct (api_client_known _ _ _ H) as (?m0 & ?n0 & ?Hcur & ?Hqn & ?Hget & ?Hmeth)
  | H : api_client _ _ = New _ |- _ => destruct (api_client_new _ _ _ H) as (?m0 & ?n0 & ?Hcur & ?Hqn & ?Enm & ?Hget & ?Hmeth & ?Hpath)
  end.

Lemma bound_step test s a s' es : bound s -> step test s a = Some (s', es) -> bound s'.
Proof.
  intros B H. split.
  - intros i Hi. pose proof (b_thr s B) as T. step_cases H; cbn in *; ups; auto; try (apply T; lia);
      try (rewrite T in * by lia; congruence); try lia.
  - pose proof (b_tc s B) as T. intros i c p Hi. step_cases H; try known; cbn in *; ups; eauto;
      try (injection Hi as <- <-); eauto; try lia; try discriminate;
      try (now apply (b_cl s B) in Hget);
      try (specialize (T _ _ _ Hi); lia).
  - pose proof (b_ts s B) as T. intros i c p Hi Hb. step_cases H; try known; cbn in *; ups; eauto;
      try (injection Hi as <- <-); eauto; try lia; try discriminate;
      try (now apply (b_cl s B) in Hget).
    all: try (injection Hi as <-; unfold first_pc, is_get in Hb; rewrite Hpath, Hmeth in Hb; discriminate).
    all: try (apply (b_tc s B) in Hi; lia).
    all: exfalso; match goal with
         | E : s_threads _ _ = Some (_, _), E' : r_stage (s_rcs _ _) = None |- _ =>
             apply (T _ _ _ E); [reflexivity|exact E'] end.
  - pose proof (b_cl s B) as T. intros m n c Hi. step_cases H; try known; cbn in *; ups; eauto; cbn in *; eauto.
    all: try (rewrite sget_sdel in Hi; destruct (String.eqb n _); [discriminate|]; eauto).
    all: try (rewrite sget_sset in Hi; destruct (String.eqb_spec n (r_name (s_rcs s n0))); [injection Hi as <-|]; cbn; eauto).
    all: try discriminate.
    all: try (destruct (T _ _ _ Hi) as (? & ? & ?); repeat split; auto; lia).
    all: try (specialize (T _ _ _ Hi)); try tauto.
    all: try (repeat split; eauto; try easy; try (eapply (b_tc s B); eassumption)).
    rewrite sget_sset in Hi. destruct (String.eqb_spec n (r_name (s_rcs s n0))); [easy|]. now apply T in Hi.
  - pose proof (b_meta s B) as T. intros m Hm. step_cases H; try known; cbn in *; ups; eauto; try lia.
    all: try (apply T; lia).
    all: exfalso.
    all: try (match goal with E : s_server _ = _ |- _ => pose proof (b_srv s B) as X; rewrite E in X; cbn in X; lia end).
    all: try (match goal with E : s_cur _ = _ |- _ => apply (b_cur s B) in E; lia end).
    all: try (match goal with E : r_stage (s_rcs _ _) = Some _ |- _ => apply (b_rc s B) in E; lia end).
    all: try (match goal with E : s_threads _ _ = Some (_, _), E' : r_stage (s_rcs _ _) = None |- _ =>
                apply (b_ts s B _ _ _ E); [reflexivity|exact E'] end).
    all: try (match goal with E : existsb _ _ && _ = true |- _ => apply andb_prop in E as [E _]; apply existsb_exists in E as (x & Hx & E); apply Nat.eqb_eq in E as <-; apply (b_loc s B) in Hx; lia end).
  - pose proof (b_rc s B) as T. intros c m Hm. step_cases H; try known; cbn in *; ups; cbn in *; eauto; try discriminate.
    all: try (specialize (T _ _ Hm); lia).
    all: try (injection Hm as <-; now apply (b_cur s B)).
    injection Hm as <-. eauto.
  - intros m Hm. step_cases H; try known; pose proof (b_cur s B) as T; pose proof (b_srv s B) as X; cbn in *;
      try match goal with E : s_server _ = _ |- _ => rewrite E in X; cbn in X end; ups; eauto; try discriminate.
    all: try (specialize (T _ Hm); lia).
    all: try (now apply X).
  - intros m Hm. step_cases H; try known; pose proof (b_loc s B) as T; pose proof (b_srv s B) as X; cbn in *;
      try match goal with E : s_server _ = _ |- _ => rewrite E in X; cbn in X end; ups; eauto; try discriminate.
    all: try (specialize (T _ Hm); lia).
    all: try (destruct Hm as [<-|Hm]; auto).
    all: try (apply remove_one_in in Hm; auto).
  - step_cases H; try known; pose proof (b_srv s B) as X; cbn in *;
      try match goal with E : s_server _ = _ |- _ => rewrite E in X; cbn in X end.
    all: try (eapply srv_bound_mono; [|eassumption]; cbn; lia).
    all: try (intuition idtac; eapply srv_bound_mono; [|eassumption]; cbn; lia).
    all: try lia.
    all: try (split; [intros ? [= <-]|]; lia).
    + split; [now apply (b_cur s B)|]. split; [easy|]. eapply srv_bound_mono; [|apply X]; cbn; lia.
    + exact (b_srv s B).
    + eapply srv_bound_mono; [|apply (b_srv s B)]; cbn; lia.
Qed.
Lemma reach_bound test ok s tr : reach test ok s tr -> bound s.
Proof. induction 1; [apply bound_init|eapply bound_step; eassumption]. Qed.


(** * The server *)
Section sane.
  Context (test : bool).

  Fixpoint srv_ok (s : state) (tr : list event) (v : server) : Prop :=
    match v with
    | Stage1 _ k => srv_ok s tr k
    | Stage2 old _ k => s_cur s = Some old /\ srv_ok s tr k
    | Stage3 old _ k => s_cur s = Some old /\ g_done (s_metas s old) = true /\ srv_ok s tr k
    | Stage4 _ k =>
        (exists old, s_cur s = Some old /\ g_done (s_metas s old) = true /\ g_clients (s_metas s old) = [])
        /\ srv_ok s tr k
    | Boot m n =>
        N.of_nat (List.length (counted m tr)) = n /\ g_booted (s_metas s m) = false /\ g_run (s_metas s m) = false
    | SetBooted m n =>
        N.of_nat (List.length (counted m tr)) = n /\ n = g_inst (s_metas s m) /\ g_run (s_metas s m) = false
    | RunStart m n =>
        n = g_inst (s_metas s m) /\ g_booted (s_metas s m) = true /\ g_run (s_metas s m) = false /\ test = false
    | RunWait m n =>
        g_run (s_metas s m) = true /\ (N.of_nat (List.length (finished m tr)) + n)%N = g_inst (s_metas s m)
    | _ => True
    end.

  Record sane (s : state) (tr : list event) : Prop := {
    n_new : forall m, (s_nmetas s <= m)%nat -> counted m tr = [] /\ finished m tr = [];
    n_srv : srv_ok s tr (s_server s);
    n_run : forall m, g_run (s_metas s m) = true -> g_booted (s_metas s m) = true /\ test = false;
    n_booted : forall m, g_booted (s_metas s m) = true ->
        N.of_nat (List.length (counted m tr)) = g_inst (s_metas s m);
    n_fin : forall m, g_run (s_metas s m) = false -> finished m tr = [];
    n_cold : forall m, g_clients (s_metas s m) <> [] -> s_cur s = Some m;
    n_keys : forall m, NoDup (skeys (g_clients (s_metas s m)));
    n_need : forall m, (m < s_nmetas s)%nat ->
        g_need (s_metas s m) = if g_local (s_metas s m) then ((g_inst (s_metas s m) + 2 ^ 64 - 1) mod 2 ^ 64)%N
                               else g_inst (s_metas s m);
    n_bound : forall m, (g_need (s_metas s m) < 2 ^ 63)%N ->
        (N.of_nat (List.length (g_clients (s_metas s m))) <= g_need (s_metas s m))%N }.

  Lemma sane_init : sane init [].
  Proof.
    split; cbn; try easy.
    constructor.
  Qed.

  (** What handlers leave alone. *)
  Definition kept (g g' : meta) : Prop :=
    g_id g' = g_id g /\ g_inst g' = g_inst g /\ g_need g' = g_need g /\ g_local g' = g_local g /\ g_trx g' = g_trx g
    /\ g_run g' = g_run g /\ g_booted g' = g_booted g /\ g_done g' = g_done g
    /\ (g_done g = true -> g_clients g = [] -> g_clients g' = []).
  Lemma kept_refl g : kept g g.
  Proof. repeat split; easy. Qed.

  Lemma srv_ok_frame s tr s' tr' v :
    s_cur s' = s_cur s -> (forall m, kept (s_metas s m) (s_metas s' m)) ->
    (forall m, counted m tr' = counted m tr) -> (forall m, finished m tr' = finished m tr) ->
    srv_ok s tr v -> srv_ok s' tr' v.
  Proof.
    intros Hc Hm Hn Hf. induction v; cbn; rewrite ?Hc, ?Hn, ?Hf; auto; try tauto;
      try (pose proof (Hm m) as (? & ? & ? & ? & ? & ? & ? & ? & ?); intuition congruence);
      try (pose proof (Hm old) as (? & ? & ? & ? & ? & ? & ? & ? & ?); intuition congruence).
    intros [(old & E & D & C) H]. split; [|auto]. exists old.
    pose proof (Hm old) as (? & ? & ? & ? & ? & ? & ? & ? & ?). repeat split; auto; congruence.
  Qed.

  Lemma sset_not_nil {A} k (v : A) m : sset k v m <> [].
  Proof. destruct m as [|[k0 w] m]; cbn; [easy|]. now destruct (String.eqb k k0). Qed.

  Definition handler (a : action) : Prop := match a with ARequest _ | AThread _ _ _ => True | _ => False end.

  Definition other_event (e : event) : Prop :=
    match e with ECount _ _ | ELocal _ | EFinished _ _ | EEnd _ | ELocalDone _ => False | _ => True end.

  Lemma handler_kept s a s' es : handler a -> step test s a = Some (s', es) ->
    s_cur s' = s_cur s /\ s_server s' = s_server s /\ s_nmetas s' = s_nmetas s /\ s_locals s' = s_locals s
    /\ (forall m, kept (s_metas s m) (s_metas s' m)) /\ Forall other_event es.
  Proof.
    intros Hh H. destruct a; try easy; step_cases H; cbn; repeat split; auto; repeat constructor; ups; cbn; try easy.
    all: try apply kept_refl.
    all: try (now intros ? ->).
    intros D. rewrite D in *. discriminate.
  Qed.

  Lemma other_counted es m : Forall other_event es -> counted m es = [] /\ finished m es = [].
  Proof.
    induction es as [|e es IH]; intros H; [easy|]. inv H. cbn. destruct (IH H3) as [E1 E2].
    unfold counted, finished in *. rewrite E1, E2. destruct e; easy.
  Qed.

  Lemma handler_counted s a s' es tr m : handler a -> step test s a = Some (s', es) ->
    counted m (tr ++ es) = counted m tr /\ finished m (tr ++ es) = finished m tr.
  Proof.
    intros Hh H. apply handler_kept in H as (_ & _ & _ & _ & _ & H); [|exact Hh].
    rewrite counted_app, finished_app. destruct (other_counted es m H) as [-> ->]. now rewrite !app_nil_r.
  Qed.

  (** A handler changes the clients of a stage by adding to a current stage that is not full, or by
      deleting. *)
  Lemma handler_clients s a s' es m : handler a -> step test s a = Some (s', es) ->
    g_clients (s_metas s' m) = g_clients (s_metas s m)
    \/ (exists n, g_clients (s_metas s' m) = sdel n (g_clients (s_metas s m)))
    \/ (exists n c, g_clients (s_metas s' m) = sset n c (g_clients (s_metas s m)) /\ s_cur s = Some m
          /\ g_done (s_metas s m) = false /\ g_booted (s_metas s m) = false /\ full (s_metas s m) = false).
  Proof.
    intros Hh H. destruct a; try easy; step_cases H; cbn; ups; cbn; eauto.
    right. right. apply orb_false_elim in Heqb as [Hd Hf]. apply orb_false_elim in Hd as [Hd Hb]. eauto 9.
  Qed.

  Lemma sane_handler s a s' es tr : bound s -> sane s tr -> handler a -> step test s a = Some (s', es) -> sane s' (tr ++ es).
  Proof.
    intros B N Hh H. pose proof (handler_kept _ _ _ _ Hh H) as (Hc & Hv & Hn & Hl & Hm & _).
    pose proof (fun m => handler_counted s a s' es tr m Hh H) as Hcf.
    pose proof (fun m => handler_clients s a s' es m Hh H) as Hcl.
    split.
    - intros m Hi. destruct (Hcf m) as [-> ->]. apply (n_new _ _ N). lia.
    - rewrite Hv. eapply srv_ok_frame; [exact Hc|exact Hm|apply Hcf|apply Hcf|apply (n_srv _ _ N)].
    - intros m. pose proof (Hm m) as (? & ? & ? & ? & ? & -> & -> & ? & ?). apply (n_run _ _ N).
    - intros m. pose proof (Hm m) as (? & -> & ? & ? & ? & ? & -> & ? & ?). destruct (Hcf m) as [-> _]. apply (n_booted _ _ N).
    - intros m. pose proof (Hm m) as (? & ? & ? & ? & ? & -> & ? & ? & ?). destruct (Hcf m) as [_ ->]. apply (n_fin _ _ N).
    - intros m Hne. rewrite Hc. destruct (Hcl m) as [E|[[n E]|(n & c & E & Hcur & _)]]; [| |exact Hcur].
      + apply (n_cold _ _ N). congruence.
      + apply (n_cold _ _ N). intros E0. rewrite E, E0 in Hne. easy.
    - intros m. destruct (Hcl m) as [->|[[n ->]|(n & c & -> & _)]];
        [|apply sdel_nodup|apply sset_nodup]; apply (n_keys _ _ N).
    - intros m. rewrite Hn. pose proof (Hm m) as (? & -> & -> & -> & _). apply (n_need _ _ N).
    - intros m. pose proof (Hm m) as (? & ? & -> & _). intros Hb. pose proof (n_bound _ _ N m Hb) as Hlen.
      destruct (Hcl m) as [->|[[n ->]|(n & c & -> & _ & _ & _ & Hf)]]; [exact Hlen| |].
      + pose proof (sdel_length n (g_clients (s_metas s m))). lia.
      + rewrite sset_length. unfold full in Hf. destruct (sget n _); [exact Hlen|].
        assert (g_need (s_metas s m) <? 2 ^ 63 = true)%N as E by now apply N.ltb_lt.
        rewrite E in Hf. cbn in Hf. apply N.eqb_neq in Hf. lia.
  Qed.
End sane.
