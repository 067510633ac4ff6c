(** Proofs about loading, inheriting and validating configuration. *)
From Verif Require Import Prelude ListAux ConfigModel ConfigSpec ConfigVarsProofs.
From Coq Require Import Permutation.
#[local] Open Scope list_scope.
#[local] Open Scope string_scope.

(** ** Maps *)
Lemma sget_sset {V} k (v : V) m k' : sget k' (sset k v m) = if String.eqb k' k then Some v else sget k' m.
Proof.
  induction m as [|[a w] m IH]; cbn.
  - now destruct (String.eqb k' k).
  - destruct (String.eqb_spec k a).
    + subst. cbn. now destruct (String.eqb k' a).
    + cbn. rewrite IH. destruct (String.eqb_spec k' a), (String.eqb_spec k' k); subst; congruence.
Qed.
Lemma sget_keys {V} k (m : smap V) : sget k m <> None <-> In k (skeys m).
Proof.
  induction m as [|[a w] m IH]; cbn; [tauto|].
  destruct (String.eqb_spec k a); subst; [intuition congruence|]. rewrite IH. intuition congruence.
Qed.
Lemma skeys_sset {V} k (v : V) m x : In x (skeys (sset k v m)) <-> x = k \/ In x (skeys m).
Proof.
  rewrite <- !sget_keys, sget_sset. destruct (String.eqb_spec x k); subst; intuition congruence.
Qed.
Lemma nodup_sset {V} k (v : V) m : NoDup (skeys m) -> NoDup (skeys (sset k v m)).
Proof.
  induction m as [|[a w] m IH]; cbn; intros H; [repeat constructor; easy|].
  apply NoDup_cons_iff in H as [H1 H2].
  destruct (String.eqb_spec k a); cbn; apply NoDup_cons_iff.
  - subst. auto.
  - split; auto. intros X. apply (skeys_sset k v m a) in X. destruct X; [congruence|auto].
Qed.

Lemma sget_add_missing b c k :
  sget k (add_missing b c) = match sget k c with Some v => Some v | None => sget k b end.
Proof.
  revert c; induction b as [|[a w] b IH]; intros c; cbn.
  - now destruct (sget k c).
  - rewrite IH. destruct (sget a c) eqn:E.
    + destruct (String.eqb_spec k a); subst; [now rewrite E|reflexivity].
    + rewrite sget_sset. destruct (String.eqb_spec k a); subst; [now rewrite E|reflexivity].
Qed.

Lemma sget_fold (ps m : smap string) k : NoDup (skeys ps) ->
  sget k (fold_left (fun m kv => sset (fst kv) (snd kv) m) ps m)
  = match sget k ps with Some v => Some v | None => sget k m end.
Proof.
  revert m; induction ps as [|[a w] ps IH]; intros m H; cbn; auto.
  apply NoDup_cons_iff in H as [H1 H2]. rewrite IH by auto. rewrite sget_sset. cbn.
  destruct (String.eqb_spec k a); subst; auto.
  destruct (sget a ps) eqn:E; auto. exfalso. apply H1. apply (sget_keys a ps). congruence.
Qed.

Lemma kv_nodup kvs m : NoDup (skeys m) -> NoDup (skeys (kv_params kvs m)).
Proof.
  revert m; induction kvs as [|kv kvs IH]; intros m H; cbn; auto.
  apply IH. destruct (split_eq kv) as [[k v]|]; auto. now apply nodup_sset.
Qed.

Lemma split_eq_app k v : every (fun c => c <> "="%char) k -> split_eq (k ++ String "=" v) = Some (k, v).
Proof.
  induction k as [|c k IH]; cbn; auto. intros [H1 H2]. rewrite IH by auto.
  destruct (Ascii.eqb_spec c "="); congruence.
Qed.
Lemma kv_last kvs1 k v kvs2 m : every (fun c => c <> "="%char) k ->
  (forall v', ~ In (k ++ String "=" v') kvs2) ->
  sget k (kv_params (kvs1 ++ (k ++ String "=" v)%string :: kvs2)%list m) = Some v.
Proof.
  revert m; induction kvs1 as [|kv kvs1 IH]; intros m Hk Hn; cbn [kv_params app]; auto.
  rewrite split_eq_app by auto.
  assert (X : forall m', sget k m' = Some v -> sget k (kv_params kvs2 m') = Some v).
  { clear m. induction kvs2 as [|kv kvs2 IH2]; intros m' Hm; cbn; auto.
    apply IH2; [intros v' Hv; apply (Hn v'); now right|].
    destruct (split_eq kv) as [[k' v']|] eqn:E; auto. rewrite sget_sset.
    destruct (String.eqb_spec k k'); auto. subst k'. exfalso. apply (Hn v'). left.
    clear -E. revert k E; induction kv as [|c kv IHk]; intros k E; cbn in E; [discriminate|].
    destruct (Ascii.eqb_spec c "="); [inv E; auto|].
    destruct (split_eq kv) as [[a b]|]; inv E. cbn. now rewrite <- (IHk a). }
  apply X. rewrite sget_sset. now rewrite String.eqb_refl.
Qed.

(** ** With *)
Lemma or_default_prefer a b : prefer a b (or_default a b).
Proof. destruct a; cbn; split; congruence. Qed.
Lemma set_bool_prefer a b : prefer_bool a b (set_bool a b).
Proof. destruct a, b; cbn; split; congruence. Qed.

(** ** Interpolating params *)
Lemma vars_params_plain E order : NoDup order -> forall ps,
  (forall k v, In k order -> sget k ps = Some v -> no_dollar v) ->
  match vars_params E order ps with
  | Some r =>
      forall k, sget k r =
        (if existsb (String.eqb k) order
         then match sget k ps with Some v => number_pass E v | None => None end else sget k ps)
  | None => exists k v, In k order /\ sget k ps = Some v /\ number_pass E v = None
  end /\
  (forall k v, In k order -> sget k ps = Some v -> number_pass E v = None -> vars_params E order ps = None).
Proof.
  induction order as [|k0 ks IH]; intros ND ps H.
  - cbn. split; [auto|easy].
  - apply NoDup_cons_iff in ND as [N1 N2]. cbn [vars_params].
    assert (Hex : existsb (String.eqb k0) ks = false).
    { apply not_true_is_false. rewrite existsb_exists. intros (x & Hx & Hq).
      apply String.eqb_eq in Hq. now subst. }
    destruct (sget k0 ps) as [v|] eqn:Ek.
    + rewrite vars_true, vars_plain by (eapply H; [now left|eauto]).
      destruct (number_pass E v) as [v'|] eqn:Ev.
      * specialize (IH N2 (sset k0 v' ps)). destruct IH as [IH1 IH2].
        { intros k u Hk Hu. rewrite sget_sset in Hu. destruct (String.eqb_spec k k0).
          - subst. easy.
          - eapply H; [right|]; eauto. }
        split.
        -- destruct (vars_params E ks (sset k0 v' ps)) as [r|].
           ++ intros k. rewrite IH1. cbn [existsb]. rewrite sget_sset.
              destruct (String.eqb_spec k k0); subst; cbn [orb].
              ** now rewrite Hex, Ek, Ev.
              ** reflexivity.
           ++ destruct IH1 as (k & u & Hk & Hu & Hn). rewrite sget_sset in Hu.
              destruct (String.eqb_spec k k0); [subst; easy|]. exists k, u. split; [now right|auto].
        -- intros k u [->|Hk] Hu Hn; [congruence|].
           apply (IH2 k u); auto. rewrite sget_sset. destruct (String.eqb_spec k k0); [subst; easy|auto].
      * split; [|auto]. exists k0, v. split; [now left|auto].
    + destruct (IH N2 ps) as [IH1 IH2]; [intros k v Hk; apply H; now right|].
      split.
      * destruct (vars_params E ks ps).
        -- intros k. rewrite IH1. cbn [existsb]. destruct (String.eqb_spec k k0); subst; cbn [orb]; auto.
           now rewrite Hex, Ek.
        -- destruct IH1 as (k & u & Hk & Hu & Hn). exists k, u. split; [now right|auto].
      * intros k u [->|Hk] Hu Hn; [congruence|eauto].
Qed.

(** ** Validate *)
Lemma check_cgroup_fields E g g1 : check_cgroup E g = Some g1 ->
  g_group g1 = g_group g /\ g_trx g1 = g_trx g /\ g_db g1 = g_db g /\
  Forall (fun s => s = "" \/ exists n, parse_uint32 s = Some n)
    [g_clients g; g_iter g; g_iter_c g; g_iter_x g; g_qps g; g_qps_c g; g_qps_x g; g_tps g; g_tps_c g; g_tps_x g] /\
  valid_freq E (g_runtime g) = true /\
  g1 = CGroup (match g_clients g with "" => "1" | s => s end) (g_db g) (g_nostats g)
               (g_iter g) (g_iter_c g) (g_iter_x g) (g_group g) (g_qps g) (g_qps_c g) (g_qps_x g)
               (g_runtime g) (g_tps g) (g_tps_c g) (g_tps_x g) (g_trx g).
Proof.
  unfold check_cgroup. intros H.
  match type of H with (if ?b then _ else _) = _ => destruct b eqn:B; [|discriminate] end.
  injection H as <-. rewrite !andb_true_iff in B.
  assert (X : forall s, parse_int_ok s = true -> s = "" \/ exists n, parse_uint32 s = Some n).
  { intros s. unfold parse_int_ok. destruct s; auto.
    destruct (parse_uint32 _); [eauto|discriminate]. }
  cbn [g_group g_trx g_db]. split; [auto|]. split; [auto|]. split; [auto|].
  split; [|split; [tauto|destruct (g_clients g); reflexivity]].
  repeat (apply Forall_cons; [apply X; tauto|]). apply Forall_nil.
Qed.

Lemma check_workload_spec E xs names prev gs gs1 w wo :
  check_workload E xs names prev gs = Some (gs1, (w, wo)) ->
  Forall2 (fun g g1 => check_cgroup E g = Some g1) gs gs1 /\
  Forall (fun g => Forall (fun n => exists x, In x xs /\ x_name x = n) (g_trx g)) gs /\
  (w = false -> Forall (fun g => g_trx g = []) gs) /\
  (wo = false -> Forall (fun g => g_trx g <> []) gs).
Proof.
  revert names prev gs1 w wo; induction gs as [|g gs IH]; intros names prev gs1 w wo H; cbn [check_workload] in H.
  - inv H. repeat split; constructor.
  - destruct (check_cgroup E g) as [g1|] eqn:Eg; [|discriminate].
    dmh H; [discriminate|]. dmh H; [discriminate|].
    match type of H with context [check_workload E xs ?n ?p gs] =>
      destruct (check_workload E xs n p gs) as [[gs2 [w2 wo2]]|] eqn:Ew; [|discriminate] end.
    apply IH in Ew as (A & B & C & D).
    apply negb_false_iff in Heqb0. rewrite forallb_forall in Heqb0.
    assert (T : Forall (fun n => exists x, In x xs /\ x_name x = n) (g_trx g)).
    { apply Forall_forall. intros n Hn. specialize (Heqb0 n Hn). apply existsb_exists in Heqb0 as (x & Hx & Hq).
      apply String.eqb_eq in Hq. eauto. }
    destruct (g_trx g) as [|t ts] eqn:Et; inv H.
    + split; [constructor; auto|]. split; [constructor; [rewrite Et; constructor|auto]|].
      split; intros; [constructor; auto|discriminate].
    + split; [constructor; auto|]. split; [constructor; [rewrite Et; auto|auto]|].
      split; intros; [discriminate|constructor; auto; congruence].
Qed.

Lemma contiguous_aux E xs names prev gs r g k :
  check_workload E xs names prev gs = Some r -> g <> "" -> In g names ->
  nth_error (map g_group gs) k = Some g ->
  prev = g /\ forall j, (j <= k)%nat -> nth_error (map g_group gs) j = Some g.
Proof.
  revert names prev r k; induction gs as [|h gs IH]; intros names prev r k H Hg Hin Hk; [now destruct k|].
  cbn [check_workload] in H.
  destruct (check_cgroup E h) as [g1|] eqn:Eg; [|discriminate].
  match type of H with (if ?b then _ else _) = _ => destruct b eqn:D; [discriminate|] end.
  dmh H; [discriminate|].
  match type of H with context [check_workload E xs ?n ?p gs] =>
      destruct (check_workload E xs n p gs) as [r2|] eqn:Ew; [|discriminate] end.
  assert (H0 : g_group h = g -> prev = g).
  { intros E0. rewrite E0 in D. apply String.eqb_neq in Hg as Hg'. rewrite Hg' in D. cbn in D.
    assert (X : existsb (String.eqb g) names = true).
    { apply existsb_exists. exists g. split; auto. apply String.eqb_refl. }
    rewrite X in D. cbn in D. apply negb_false_iff, String.eqb_eq in D. auto. }
  destruct k as [|k].
  - cbn in Hk. inv Hk. split; auto. intros j Hj. replace j with 0%nat by lia. reflexivity.
  - cbn in Hk. destruct (IH _ _ _ k Ew Hg) as [Hp Hall]; auto.
    { destruct (String.eqb _ _); auto. now right. }
    split; auto. intros [|j] Hj; cbn; [congruence|]. apply Hall. lia.
Qed.

Lemma contiguous E xs names prev gs r : check_workload E xs names prev gs = Some r ->
  forall i j k g, (i < j < k)%nat -> g <> "" ->
  nth_error (map g_group gs) i = Some g -> nth_error (map g_group gs) k = Some g ->
  nth_error (map g_group gs) j = Some g.
Proof.
  revert names prev r; induction gs as [|h gs IH]; intros names prev r H i j k g Hijk Hg Hi Hk; [now destruct i|].
  cbn [check_workload] in H.
  destruct (check_cgroup E h) as [g1|] eqn:Eg; [|discriminate].
  dmh H; [discriminate|]. dmh H; [discriminate|].
  match type of H with context [check_workload E xs ?n ?p gs] =>
      destruct (check_workload E xs n p gs) as [r2|] eqn:Ew; [|discriminate] end.
  destruct k as [|k]; [lia|]. destruct j as [|j]; [lia|]. cbn in Hk |- *.
  destruct i as [|i].
  - cbn in Hi. inv Hi. eapply contiguous_aux with (k := k) in Ew as [_ Hall]; eauto.
    + apply Hall. lia.
    + apply String.eqb_neq in Hg. rewrite Hg. now left.
  - cbn in Hi. eapply IH with (i := i) (k := k); eauto. lia.
Qed.

Lemma check_data_spec seen ds seen' : check_data seen ds = Some seen' ->
  (forall k s, sget k seen = Some s -> sget k seen' = Some s) /\
  (forall k d, In (k, d) ds -> d_gen d <> "" /\ In (d_scope d) valid_scopes /\ sget k seen' = Some (d_scope d)).
Proof.
  revert seen; induction ds as [|[k d] ds IH]; intros seen H; cbn [check_data] in H.
  - inv H. split; [auto|easy].
  - destruct (String.eqb_spec (d_gen d) ""); [discriminate|].
    dmh H; [discriminate|]. apply negb_false_iff, existsb_exists in Heqb as (x & Hx & Hq).
    apply String.eqb_eq in Hq. subst x.
    destruct (sget k seen) as [prev|] eqn:Es.
    + destruct (String.eqb_spec prev (d_scope d)); [|discriminate]. subst prev.
      apply IH in H as [A B]. split; auto. intros k' d' [Heq|Hin]; [inv Heq|auto]. auto.
    + apply IH in H as [A B]. split.
      * intros k' s Hs. apply A. rewrite sget_sset. destruct (String.eqb_spec k' k); [congruence|auto].
      * intros k' d' [Heq|Hin]; [inv Heq|auto]. repeat split; auto. apply A. rewrite sget_sset.
        now rewrite String.eqb_refl.
Qed.

Lemma check_trx_spec E seen xs xs' : check_trx E seen xs = Some xs' ->
  Forall2 (fun x x' => x_file x <> "" /\ e_exists E (x_file x) = true /\
            x_file x' = x_file x /\ x_data x' = x_data x /\
            x_name x' = (match x_name x with "" => e_base E (x_file x) | n => n end)) xs xs' /\
  exists seen', (forall k s, sget k seen = Some s -> sget k seen' = Some s) /\
    Forall (fun x => forall k d, In (k, d) (x_data x) ->
       d_gen d <> "" /\ In (d_scope d) valid_scopes /\ sget k seen' = Some (d_scope d)) xs.
Proof.
  revert seen xs'; induction xs as [|x xs IH]; intros seen xs' H; cbn in H.
  - inv H. split; [constructor|]. exists seen. split; [auto|constructor].
  - destruct (String.eqb_spec (x_file x) ""); [discriminate|].
    destruct (e_exists E (x_file x)) eqn:Ex; [|discriminate]. cbn in H.
    destruct (check_data seen (x_data x)) as [seen1|] eqn:Ed; [|discriminate].
    destruct (check_trx E seen1 xs) as [xs1|] eqn:Et; [|discriminate]. inv H.
    apply check_data_spec in Ed as [A B]. apply IH in Et as [C (seen' & D & F)].
    split.
    + constructor; auto. repeat split; auto. cbn. now destruct (x_name x).
    + exists seen'. split; [auto|]. constructor; auto.
      intros k d Hin. destruct (B k d Hin) as (? & ? & ?). auto.
Qed.

Lemma validate_fields E c c' : stage_validate E c = Some c' ->
  s_mysql c' = s_mysql c /\ s_params c' = s_params c /\ s_disable c' = s_disable c /\
  s_n c' = s_n c /\ s_file c' = s_file c /\ map g_db (s_workload c') = map g_db (s_workload c).
Proof.
  unfold stage_validate. intros H. destruct (s_disable c) eqn:D; [inv H; auto 10|].
  destruct (s_trx c) as [|t ts] eqn:Et; [discriminate|]. rewrite <- Et in H.
  destruct (check_trx E [] (s_trx c)) as [xs|] eqn:Ex; [|discriminate].
  destruct (check_workload E xs [] "" (s_workload c)) as [[gs [w wo]]|] eqn:Ew; [|discriminate].
  repeat (dmh H; [discriminate|]). destruct (check_stats E (s_stats c)); [|discriminate].
  inv H. cbn. repeat split; auto. apply check_workload_spec in Ew as (A & _).
  clear -A. induction A; cbn; auto. apply check_cgroup_fields in H as (_ & _ & -> & _). now f_equal.
Qed.

(** ** Load *)
Definition base_of (bases : string -> option (option base)) params d : option base :=
  match bases d with
  | Some None => None
  | Some (Some nb) => Some (base_params params nb)
  | None => Some (base_params params empty_base)
  end.

Lemma load_files_nth E bases params dsn db fs : forall n cache cs,
  load_files E bases params dsn db n cache fs = Some cs ->
  (forall d b, sget d cache = Some b -> base_of bases params d = Some b) ->
  length cs = length fs /\
  forall i f, nth_error fs i = Some f ->
  exists b c c1 c', base_of bases params (f_dir f) = Some b /\ f_stage f = Some c /\
    stage_vars E (command_line dsn db (stage_with b (set_file_n (f_abs f) (S (n + i)) c))) = Some c1 /\
    stage_validate E c1 = Some c' /\ nth_error cs i = Some c'.
Proof.
  induction fs as [|f fs IH]; intros n cache cs H Hc; cbn [load_files] in H.
  - inv H. split; auto. intros [|i] f Hf; discriminate.
  - match type of H with match ?e with _ => _ end = _ => destruct e as [[b cache']|] eqn:Eb; [|discriminate] end.
    destruct (f_stage f) as [c|] eqn:Ef; [|discriminate]. cbn [fst snd] in H.
    destruct (stage_vars E _) as [c1|] eqn:Ev; [|discriminate].
    destruct (stage_validate E c1) as [c2|] eqn:Ec; [|discriminate].
    destruct (load_files E bases params dsn db (S n) cache' fs) as [rest|] eqn:El; [|discriminate].
    inv H.
    assert (Hb : base_of bases params (f_dir f) = Some b /\
                 forall d b, sget d cache' = Some b -> base_of bases params d = Some b).
    { assert (Y : forall b0, base_of bases params (f_dir f) = Some b0 ->
                  forall d b, sget d (sset (f_dir f) b0 cache) = Some b -> base_of bases params d = Some b).
      { intros b0 H0 d b' Hd. rewrite sget_sset in Hd. destruct (String.eqb_spec d (f_dir f)); [congruence|auto]. }
      destruct (sget (f_dir f) cache) as [b0|] eqn:Es; [inv Eb; auto|].
      destruct (bases (f_dir f)) as [[nb|]|] eqn:Eq; inv Eb;
        (split; [unfold base_of; now rewrite Eq|apply Y; unfold base_of; now rewrite Eq]). }
    destruct Hb as [Hb Hc']. destruct (IH _ _ _ El Hc') as [IL IN].
    split; [cbn; congruence|]. intros [|i] f' Hf; cbn in Hf.
    + inv Hf. exists b, c, c1, c2. rewrite Nat.add_0_r. auto 10.
    + destruct (IN i f' Hf) as (b' & cc & cc1 & cc' & A & B & C & D & F).
      exists b', cc, cc1, cc'. replace (n + S i)%nat with (S n + i)%nat by lia. auto 10.
Qed.

Lemma load_nth E bases fs kvs dsn db cs : load E bases fs kvs dsn db = Some cs ->
  length cs = length fs /\
  forall i f, nth_error fs i = Some f ->
  exists b c c1 c', base_of bases (kv_params kvs []) (f_dir f) = Some b /\ f_stage f = Some c /\
    stage_vars E (command_line dsn db (stage_with b (set_file_n (f_abs f) (S i) c))) = Some c1 /\
    stage_validate E c1 = Some c' /\ nth_error cs i = Some c'.
Proof.
  intros H. apply load_files_nth in H as [A B]; [|easy]. split; auto.
Qed.

Lemma nth_same_length {A B} (l : list A) (m : list B) i x : length l = length m ->
  nth_error m i = Some x -> exists y, nth_error l i = Some y.
Proof.
  intros HL H. destruct (nth_error l i) eqn:E; eauto. apply nth_error_None in E.
  assert (i < length m)%nat by (apply nth_error_Some; congruence). lia.
Qed.

(** ** Interpolating a stage *)
Lemma map_opt_length {A B} (f : A -> option B) l l' : map_opt f l = Some l' -> length l' = length l.
Proof.
  revert l'; induction l as [|a l IH]; intros l' H; cbn in H; [now inv H|].
  destruct (f a); [|discriminate]. destruct (map_opt f l); [|discriminate]. inv H. cbn. f_equal. auto.
Qed.
Lemma map_opt_forall2 {A B} (f : A -> option B) l l' : map_opt f l = Some l' ->
  Forall2 (fun a b => f a = Some b) l l'.
Proof.
  revert l'; induction l as [|a l IH]; intros l' H; cbn in H; [inv H; constructor|].
  destruct (f a) eqn:E; [|discriminate]. destruct (map_opt f l); [|discriminate]. inv H.
  constructor; auto.
Qed.

Lemma stage_vars_fields E c c1 : stage_vars E c = Some c1 ->
  vars_params E (e_order E (s_n c) (skeys (s_params c))) (s_params c) = Some (s_params c1) /\
  vars_mysql E (s_params c1) (s_mysql c) = Some (s_mysql c1) /\
  vars_stats E (s_params c1) (s_stats c) = Some (s_stats c1) /\
  Forall2 (fun g g1 => vars_cgroup E (s_params c1) g = Some g1) (s_workload c) (s_workload c1) /\
  Forall2 (fun x x1 => vars_trx E (s_params c1) x = Some x1) (s_trx c) (s_trx c1) /\
  vars E (s_params c1) false (s_name c) = Some (s_name c1) /\
  vars E (s_params c1) false (s_runtime c) = Some (s_runtime c1) /\
  vars E (s_params c1) true (s_qps c) = Some (s_qps c1) /\
  vars E (s_params c1) true (s_tps c) = Some (s_tps c1) /\
  vars E (s_params c1) true (c_instances (s_compute c)) = Some (c_instances (s_compute c1)) /\
  s_disable c1 = s_disable c /\ s_n c1 = s_n c /\ s_file c1 = s_file c.
Proof.
  unfold stage_vars. intros H.
  destruct (vars_params _ _ _) as [ps|] eqn:E1; [|discriminate].
  destruct (vars E ps false (s_name c)) eqn:E2; [|discriminate].
  destruct (vars E ps false (s_runtime c)) eqn:E3; [|discriminate].
  destruct (vars E ps true (s_qps c)) eqn:E4; [|discriminate].
  destruct (vars E ps true (s_tps c)) eqn:E5; [|discriminate].
  destruct (vars_compute E ps (s_compute c)) eqn:E6; [|discriminate].
  destruct (vars_mysql E ps (s_mysql c)) eqn:E7; [|discriminate].
  destruct (vars_stats E ps (s_stats c)) eqn:E8; [|discriminate].
  destruct (map_opt (vars_trx E ps) (s_trx c)) eqn:E9; [|discriminate].
  destruct (map_opt (vars_cgroup E ps) (s_workload c)) eqn:E10; [|discriminate].
  injection H as <-. cbn. apply map_opt_forall2 in E9. apply map_opt_forall2 in E10.
  repeat split; auto.
  unfold vars_compute in E6. destruct (vars E ps true (c_instances (s_compute c))); [|discriminate]. now inv E6.
Qed.

Lemma vars_mysql_dsn E ps m m1 : vars_mysql E ps m = Some m1 ->
  vars E ps false (m_dsn m) = Some (m_dsn m1) /\ vars E ps false (m_db m) = Some (m_db m1).
Proof.
  unfold vars_mysql. intros H.
  destruct (vars E ps false (m_db m)) eqn:E1; [|discriminate].
  destruct (vars E ps false (m_dsn m)) eqn:E2; [|discriminate].
  repeat (dmh H; [|discriminate]). inv H. auto.
Qed.
Lemma vars_cgroup_fields E ps g g1 : vars_cgroup E ps g = Some g1 ->
  vars E ps false (g_db g) = Some (g_db g1) /\ vars E ps true (g_clients g) = Some (g_clients g1) /\
  vars E ps true (g_qps g) = Some (g_qps g1) /\ vars E ps true (g_qps_c g) = Some (g_qps_c g1) /\
  vars E ps true (g_qps_x g) = Some (g_qps_x g1) /\ vars E ps true (g_tps g) = Some (g_tps g1) /\
  vars E ps true (g_tps_c g) = Some (g_tps_c g1) /\ vars E ps true (g_tps_x g) = Some (g_tps_x g1) /\
  vars E ps false (g_runtime g) = Some (g_runtime g1) /\ vars E ps false (g_group g) = Some (g_group g1) /\
  g_iter g1 = g_iter g /\ g_iter_c g1 = g_iter_c g /\ g_iter_x g1 = g_iter_x g.
Proof.
  unfold vars_cgroup. intros H.
  repeat match type of H with context [match vars E ps ?b ?x with _ => _ end] =>
    destruct (vars E ps b x) eqn:?; [|discriminate] end.
  destruct (map_opt _ _); [|discriminate]. inv H. cbn. auto 15.
Qed.

Lemma vars_params_key E order k v : NoDup order -> no_dollar v -> In k order ->
  forall ps r, vars_params E order ps = Some r -> sget k ps = Some v ->
  sget k r = number_pass E v.
Proof.
  assert (Keep : forall order ps r, ~ In k order -> vars_params E order ps = Some r -> sget k r = sget k ps).
  { clear. induction order as [|k0 ks IH]; intros ps r Hn H; cbn [vars_params] in H; [now inv H|].
    destruct (sget k0 ps); [|apply IH in H; [auto|now intros ?; apply Hn; right]].
    destruct (vars E ps true s); [|discriminate].
    apply IH in H; [|now intros ?; apply Hn; right]. rewrite H, sget_sset.
    destruct (String.eqb_spec k k0); auto. subst. exfalso. apply Hn. now left. }
  induction order as [|k0 ks IH]; intros ND Hv Hin ps r H Hk; [easy|].
  apply NoDup_cons_iff in ND as [N1 N2]. cbn [vars_params] in H.
  destruct (string_dec k0 k) as [->|Hne].
  - rewrite Hk in H. rewrite vars_true, vars_plain in H by auto.
    destruct (number_pass E v) as [v'|] eqn:En; [|discriminate].
    apply Keep in H; auto. rewrite H, sget_sset, String.eqb_refl. auto.
  - destruct Hin as [?|Hin]; [congruence|].
    destruct (sget k0 ps) as [v0|]; [|eapply IH; eauto].
    destruct (vars E ps true v0); [|discriminate]. eapply IH; eauto.
    rewrite sget_sset. destruct (String.eqb_spec k k0); [congruence|auto].
Qed.

Lemma skeys_sset_in {V} k (v : V) m : In k (skeys m) -> skeys (sset k v m) = skeys m.
Proof.
  induction m as [|[a w] m IH]; cbn; [easy|]. destruct (String.eqb_spec k a); cbn.
  - congruence.
  - intros [?|H]; [congruence|]. f_equal. auto.
Qed.
Lemma vars_params_keys E order : forall ps r, vars_params E order ps = Some r -> skeys r = skeys ps.
Proof.
  induction order as [|k ks IH]; intros ps r H; cbn in H; [now inv H|].
  destruct (sget k ps) eqn:Ek; [|auto].
  destruct (vars E ps true s); [|discriminate]. apply IH in H. rewrite H. apply skeys_sset_in.
  apply sget_keys. congruence.
Qed.
Lemma smap_ext {V} (m m' : smap V) : NoDup (skeys m) -> skeys m = skeys m' ->
  (forall k, sget k m = sget k m') -> m = m'.
Proof.
  revert m'; induction m as [|[a w] m IH]; intros [|[a' w'] m'] N K H; cbn in *; try discriminate; auto.
  injection K as -> K. apply NoDup_cons_iff in N as [N1 N2].
  pose proof (H a') as H0. rewrite String.eqb_refl in H0. injection H0 as ->. f_equal.
  apply IH; auto. intros k. specialize (H k). destruct (String.eqb_spec k a'); auto. subst.
  assert (sget a' m = None) as ->.
  { destruct (sget a' m) eqn:X; auto. exfalso. apply N1. apply (sget_keys a' m). congruence. }
  destruct (sget a' m') eqn:X; auto. exfalso. apply N1.
  change (In a' (skeys m)). unfold skeys in *. rewrite K. apply (sget_keys a' m'). congruence.
Qed.

Lemma stage_vars_order E o1 o2 c :
  (forall n ks, Permutation (o1 n ks) ks) -> (forall n ks, Permutation (o2 n ks) ks) ->
  NoDup (skeys (s_params c)) -> (forall k v, sget k (s_params c) = Some v -> no_dollar v) ->
  stage_vars (with_order E o1) c = stage_vars (with_order E o2) c.
Proof.
  intros P1 P2 N H. unfold stage_vars.
  assert (X : vars_params (with_order E o1) (e_order (with_order E o1) (s_n c) (skeys (s_params c))) (s_params c)
            = vars_params (with_order E o2) (e_order (with_order E o2) (s_n c) (skeys (s_params c))) (s_params c)).
  { cbn [e_order with_order].
    change (vars_params (with_order E o1)) with (vars_params E).
    change (vars_params (with_order E o2)) with (vars_params E).
    set (ks := skeys (s_params c)) in *.
    pose proof (P1 (s_n c) ks) as Q1. pose proof (P2 (s_n c) ks) as Q2.
    assert (N1 : NoDup (o1 (s_n c) ks)) by (eapply Permutation_NoDup; [apply Permutation_sym, Q1|auto]).
    assert (N2 : NoDup (o2 (s_n c) ks)) by (eapply Permutation_NoDup; [apply Permutation_sym, Q2|auto]).
    destruct (vars_params_plain E _ N1 (s_params c)) as [A1 B1]; [intros; eauto|].
    destruct (vars_params_plain E _ N2 (s_params c)) as [A2 B2]; [intros; eauto|].
    destruct (vars_params E (o1 (s_n c) ks) (s_params c)) as [r1|] eqn:E1.
    - destruct (vars_params E (o2 (s_n c) ks) (s_params c)) as [r2|] eqn:E2.
      + f_equal. apply vars_params_keys in E1. apply vars_params_keys in E2. apply smap_ext.
        * now rewrite E1.
        * congruence.
        * intros k. rewrite A1, A2.
          replace (existsb (String.eqb k) (o1 (s_n c) ks)) with (existsb (String.eqb k) (o2 (s_n c) ks)); auto.
          symmetry. apply eq_iff_eq_true. rewrite !existsb_exists. split; intros (x & Hx & Hq); exists x; split; auto.
          -- eapply Permutation_in; [apply Permutation_sym, Q2|]. eapply Permutation_in; [apply Q1|auto].
          -- eapply Permutation_in; [apply Permutation_sym, Q1|]. eapply Permutation_in; [apply Q2|auto].
      + exfalso. destruct A2 as (k & v & Hk & Hv & Hn).
        assert (Some r1 = None); [|discriminate]. apply (B1 k v); auto.
        eapply Permutation_in; [apply Permutation_sym, Q1|]. eapply Permutation_in; [apply Q2|auto].
    - destruct A1 as (k & v & Hk & Hv & Hn). symmetry. apply (B2 k v); auto.
      eapply Permutation_in; [apply Permutation_sym, Q2|]. eapply Permutation_in; [apply Q1|auto]. }
  rewrite X. clear X.
  assert (V : forall o, vars (with_order E o) = vars E) by reflexivity.
  destruct (vars_params (with_order E o2) (e_order (with_order E o2) (s_n c) (skeys (s_params c))) (s_params c)) as [ps|]; [|reflexivity].
  unfold vars_compute, vars_mysql, vars_tls, vars_stats, vars_trx, vars_data, vars_cgroup.
  rewrite !V. reflexivity.
Qed.

Lemma digits_value_decimal s : forall acc v p, digits_value acc s = Some v -> decimal p acc -> decimal (p ++ s) v.
Proof.
  induction s as [|c s IH]; intros acc v p H Hp; cbn in H; [inv H; now rewrite sapp_nil|].
  destruct (is_digit c) eqn:D; [|discriminate]. apply is_digit_digit in D.
  apply (IH _ v (p ++ String c "")) in H; [|now constructor].
  rewrite sapp_assoc in H. exact H.
Qed.
Lemma parse_uint32_decimal s n : parse_uint32 s = Some n -> decimal s n /\ (n < 2 ^ 32)%N.
Proof.
  unfold parse_uint32. destruct s as [|c s]; [discriminate|]. cbn [digits_value].
  destruct (is_digit c) eqn:D; [|discriminate]. apply is_digit_digit in D.
  destruct (digits_value _ s) as [v|] eqn:E; [|discriminate].
  destruct (N.ltb_spec v (2 ^ 32)); [|discriminate]. intros [= <-]. split; auto.
  apply digits_value_decimal with (p := String c "") in E; auto. apply (dec_one c D).
Qed.
Lemma decimal_digits s n : decimal s n -> digits s.
Proof.
  unfold digits. induction 1; cbn; auto. apply every_app. cbn. auto.
Qed.

(** Everything Validate guarantees about an accepted stage. *)
Lemma validate_spec E c c' : stage_validate E c = Some c' -> s_disable c = false ->
  exists xs gs w wo, check_trx E [] (s_trx c) = Some xs /\
    check_workload E xs [] "" (s_workload c) = Some (gs, (w, wo)) /\ (w && wo)%bool = false /\
    s_trx c <> [] /\ s_trx c' = xs /\ s_workload c' = gs /\
    valid_freq E (s_runtime c) = true /\ parse_int_ok (s_qps c) = true /\ parse_int_ok (s_tps c) = true /\
    parse_int_ok (c_instances (s_compute c)) = true /\
    s_runtime c' = s_runtime c /\ s_qps c' = s_qps c /\ s_tps c' = s_tps c /\
    c_instances (s_compute c') = or_default (c_instances (s_compute c)) "1" /\
    check_stats E (s_stats c) = Some (s_stats c').
Proof.
  unfold stage_validate. intros H D. rewrite D in H.
  destruct (s_trx c) as [|t ts] eqn:Et; [discriminate|]. rewrite <- Et in *.
  destruct (check_trx E [] (s_trx c)) as [xs|] eqn:Ex; [|discriminate].
  destruct (check_workload E xs [] "" (s_workload c)) as [[gs [w wo]]|] eqn:Ew; [|discriminate].
  destruct (w && wo)%bool eqn:E1; [discriminate|].
  destruct (valid_freq E (s_runtime c)) eqn:E2; [|discriminate].
  destruct (parse_int_ok (s_qps c)) eqn:E3; [|discriminate].
  destruct (parse_int_ok (s_tps c)) eqn:E4; [|discriminate].
  destruct (parse_int_ok (c_instances (s_compute c))) eqn:E5; [|discriminate]. cbn [negb] in H.
  destruct (check_stats E (s_stats c)) as [st|] eqn:E6; [|discriminate]. injection H as <-. cbn.
  exists xs, gs, w, wo. rewrite Et. repeat split; auto. congruence.
Qed.

Lemma valid_freq_spec E s : valid_freq E s = true ->
  s = "" \/ exists d, e_parse_duration E s = Some d /\ (0 < d)%Z.
Proof.
  unfold valid_freq. destruct (String.eqb_spec s ""); auto. destruct (String.eqb_spec s "0"); [discriminate|].
  destruct (e_parse_duration E s) as [d|]; [|discriminate]. intros H. right. exists d. split; auto. lia.
Qed.
Lemma parse_int_ok_spec s : parse_int_ok s = true -> s = "" \/ exists n, decimal s n /\ (n < 2 ^ 32)%N.
Proof.
  unfold parse_int_ok. destruct s; auto. destruct (parse_uint32 _) eqn:X; [|discriminate].
  right. apply parse_uint32_decimal in X. eauto.
Qed.
