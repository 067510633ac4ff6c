(** Proofs about statistics: recording, combining, percentiles. *)
From Verif Require Import Prelude ListAux ClientModel StatsModel StatsSpec.

(* ------------------------------------------------------------------------------------ *)
(** * Least and greatest *)

Definition mx (l : list Z) : Z := fold_right Z.max 0%Z l.
Definition mn (l : list Z) : Z := match l with [] => 0%Z | x :: r => fold_right Z.min x r end.

Lemma mx_app l1 l2 : mx (l1 ++ l2) = Z.max (mx l1) (mx l2).
Proof. unfold mx. induction l1 as [|x l1 IH]; cbn [app fold_right]; [|rewrite IH; lia].
  induction l2; cbn [fold_right]; lia. Qed.
Lemma mx_nonneg l : (0 <= mx l)%Z.
Proof. unfold mx. induction l; cbn [fold_right]; lia. Qed.
Lemma fold_min_acc x y r : fold_right Z.min (Z.min x y) r = Z.min x (fold_right Z.min y r).
Proof. induction r as [|z r IH]; cbn [fold_right]; [reflexivity|rewrite IH; lia]. Qed.
Lemma mn_cons x l : l <> [] -> mn (x :: l) = Z.min x (mn l).
Proof.
  destruct l as [|y r]; [congruence|]. intros _. cbn [mn fold_right].
  revert x y. induction r as [|z r IH]; intros x y; cbn [fold_right]; [lia|].
  specialize (IH x y). cbn [fold_right] in IH. lia.
Qed.
Lemma mn_app l1 l2 : l1 <> [] -> l2 <> [] -> mn (l1 ++ l2) = Z.min (mn l1) (mn l2).
Proof.
  induction l1 as [|x l1 IH]; [congruence|]. intros _ H2. cbn [app].
  destruct l1 as [|y l1]; [cbn [app]; rewrite mn_cons by assumption; reflexivity|].
  rewrite (mn_cons x (_ ++ _)) by (cbn; congruence). rewrite IH by congruence.
  rewrite (mn_cons x (y :: l1)) by congruence. lia.
Qed.
Lemma mn_nonneg l : Forall (fun d => (0 <= d)%Z) l -> (0 <= mn l)%Z.
Proof.
  induction l as [|x l IH]; intros H; [cbn; lia|]. inv H.
  destruct l as [|y l]; [cbn; assumption|]. rewrite mn_cons by congruence. specialize (IH H3). lia.
Qed.
Lemma mn_least l : is_least (mn l) l.
Proof.
  induction l as [|x l IH]; [reflexivity|]. destruct l as [|y l]; [cbn; split; [auto|constructor; [cbn beta; lia|constructor]]|].
  rewrite mn_cons by congruence. destruct IH as [Hin Hall]. cbn [is_least].
  destruct (Z.min_spec x (mn (y :: l))) as [[Hl ->]|[Hl ->]].
  - split; [now left|]. constructor; [cbn beta; lia|]. eapply Forall_impl; [|exact Hall]. intros a Ha; cbn beta in *; lia.
  - split; [now right|]. constructor; [cbn beta; lia|]. assumption.
Qed.
Lemma least_eq z l : is_least z l -> z = mn l.
Proof.
  pose proof (mn_least l) as Hm. destruct l; cbn [is_least] in *; [intros ->; reflexivity|].
  intros [H1 H2]. destruct Hm as [H3 H4]. rewrite Forall_forall in H2, H4.
  specialize (H2 _ H3). specialize (H4 _ H1). cbn in *. lia.
Qed.
Lemma mx_greatest l : Forall (fun d => (0 <= d)%Z) l -> is_greatest (mx l) l.
Proof.
  induction l as [|x l IH]; intros H; [reflexivity|]. inv H. specialize (IH H3). cbn [mx fold_right is_greatest].
  change (fold_right Z.max 0%Z l) with (mx l).
  destruct (Z.max_spec x (mx l)) as [[Hl ->]|[Hl ->]].
  - destruct l as [|y l]; [cbn in *; lia|]. destruct IH as [Hi Ha]. split; [now right|]. constructor; [cbn beta; lia|assumption].
  - split; [now left|]. constructor; [cbn beta; lia|]. destruct l as [|y l]; [constructor|]. destruct IH as [Hi Ha].
    eapply Forall_impl; [|exact Ha]. intros a Ha'; cbn beta in *; lia.
Qed.
Lemma greatest_eq z l : Forall (fun d => (0 <= d)%Z) l -> is_greatest z l -> z = mx l.
Proof.
  intros H0. pose proof (mx_greatest l H0) as Hm. destruct l; cbn [is_greatest] in *; [intros ->; reflexivity|].
  intros [H1 H2]. destruct Hm as [H3 H4]. rewrite Forall_forall in H2, H4.
  specialize (H2 _ H3). specialize (H4 _ H1). cbn in *. lia.
Qed.

(* ------------------------------------------------------------------------------------ *)
(** * Error maps *)

Lemma err_get_set m k v k' : err_get (err_set m k v) k' = if (k' =? k)%N then v else err_get m k'.
Proof.
  induction m as [|[k0 v0] m IH]; cbn [err_set err_get].
  - destruct (k' =? k)%N; reflexivity.
  - destruct (N.eqb_spec k k0); cbn [err_get].
    + subst k0. destruct (N.eqb_spec k' k); reflexivity.
    + rewrite IH. destruct (N.eqb_spec k' k0); [|reflexivity]. subst k'. destruct (N.eqb_spec k0 k); [congruence|reflexivity].
Qed.
Lemma err_set_keys m k v x : In x (map fst (err_set m k v)) -> x = k \/ In x (map fst m).
Proof.
  induction m as [|[k0 v0] m IH]; cbn [err_set map fst In]; [intros [H|[]]; auto|].
  destruct (N.eqb_spec k k0); cbn [map fst In]; [auto|]. intros [H|H]; [auto|]. destruct (IH H); auto.
Qed.
Lemma err_set_nodup m k v : NoDup (map fst m) -> NoDup (map fst (err_set m k v)).
Proof.
  induction m as [|[k0 v0] m IH]; cbn [err_set map fst]; intros H; [repeat constructor; intros []|].
  inv H. destruct (N.eqb_spec k k0); cbn [map fst]; constructor; auto.
  intros Hin. apply err_set_keys in Hin. destruct Hin; congruence.
Qed.
Lemma err_get_notin m k : ~ In k (map fst m) -> err_get m k = 0%N.
Proof.
  induction m as [|[k0 v0] m IH]; cbn [err_get map fst In]; intros H; [reflexivity|].
  destruct (N.eqb_spec k k0); [subst; tauto|]. apply IH. tauto.
Qed.

Lemma fold_add_acc l : forall a, fold_left N.add l a = (a + fold_right N.add 0 l)%N.
Proof. induction l as [|x l IH]; intros a; cbn [fold_left fold_right]; [lia|]. rewrite IH. lia. Qed.

Lemma count_remove_length (l : list N) k : length l = count_occ N.eq_dec l k + length (remove N.eq_dec k l).
Proof.
  induction l as [|x l IH]; [reflexivity|]. cbn [count_occ remove length].
  destruct (N.eq_dec x k), (N.eq_dec k x); subst; try congruence; cbn [length]; lia.
Qed.
Lemma count_remove_other (l : list N) k k' : k <> k' -> count_occ N.eq_dec (remove N.eq_dec k l) k' = count_occ N.eq_dec l k'.
Proof.
  intros Hk. induction l as [|x l IH]; [reflexivity|]. cbn [count_occ remove].
  destruct (N.eq_dec k x).
  - subst x. destruct (N.eq_dec k k'); [congruence|assumption].
  - cbn [count_occ]. rewrite IH. reflexivity.
Qed.
Lemma count_remove_same (l : list N) k : count_occ N.eq_dec (remove N.eq_dec k l) k = 0.
Proof. apply count_occ_not_In. apply remove_In. Qed.

Lemma error_sum m : NoDup (map fst m) -> forall l,
  (forall k, err_get m k = N.of_nat (count_occ N.eq_dec l k)) ->
  fold_right N.add 0%N (map snd m) = N.of_nat (length l).
Proof.
  induction m as [|[k v] m IH]; intros Hnd l Hl.
  - destruct l as [|x l]; [reflexivity|]. specialize (Hl x). cbn [err_get count_occ] in Hl.
    destruct (N.eq_dec x x); [|congruence]. lia.
  - cbn [map fst snd fold_right] in *. inv Hnd. rewrite (count_remove_length l k).
    rewrite (IH H2 (remove N.eq_dec k l)).
    + specialize (Hl k). cbn [err_get] in Hl. rewrite N.eqb_refl in Hl. lia.
    + intros k'. destruct (N.eq_dec k k').
      * subst k'. rewrite count_remove_same. now apply err_get_notin.
      * rewrite count_remove_other by assumption. rewrite <- Hl. cbn [err_get].
        destruct (N.eqb_spec k' k); [congruence|reflexivity].
Qed.

Lemma errors_exact_intro s evs : NoDup (map fst (s_errs s)) ->
  (forall k, err_get (s_errs s) k = N.of_nat (count_occ N.eq_dec (codes evs) k)) -> errors_exact s evs.
Proof.
  intros H1 H2. split; [assumption|]. split; [assumption|]. unfold error_count. rewrite fold_add_acc.
  rewrite (error_sum _ H1 _ H2). lia.
Qed.

Lemma add_errs_spec from : forall m, NoDup (map fst m) -> NoDup (map fst from) ->
  NoDup (map fst (add_errs m from)) /\ forall k, err_get (add_errs m from) k = (err_get m k + err_get from k)%N.
Proof.
  unfold add_errs. induction from as [|[k v] from IH]; intros m Hm Hf; cbn [fold_left map fst snd] in *.
  - split; [assumption|]. intros k. cbn [err_get]. lia.
  - inv Hf. destruct (IH (err_set m k (err_get m k + v)%N)) as [Hn Hg]; auto using err_set_nodup.
    split; [assumption|]. intros k'. rewrite Hg, err_get_set. cbn [err_get].
    destruct (N.eqb_spec k' k); [|reflexivity]. subst k'. rewrite (err_get_notin from k) by assumption. lia.
Qed.
Lemma copy_errs_spec from : forall m, NoDup (map fst m) -> NoDup (map fst from) ->
  NoDup (map fst (copy_errs m from)) /\
  forall k, err_get (copy_errs m from) k = if existsb (N.eqb k) (map fst from) then err_get from k else err_get m k.
Proof.
  unfold copy_errs. induction from as [|[k v] from IH]; intros m Hm Hf; cbn [fold_left map fst snd existsb] in *.
  - split; [assumption|]. reflexivity.
  - inv Hf. destruct (IH (err_set m k v)) as [Hn Hg]; auto using err_set_nodup.
    split; [assumption|]. intros k'. rewrite Hg, err_get_set. cbn [err_get].
    destruct (N.eqb_spec k' k); cbn [orb]; [|reflexivity]. subst k'.
    destruct (existsb (N.eqb k) (map fst from)) eqn:E; [|reflexivity].
    apply existsb_exists in E. destruct E as [x [Hx Ex]]. apply N.eqb_eq in Ex. subst x. contradiction.
Qed.

(* ------------------------------------------------------------------------------------ *)
(** * Cells *)

Section Cells.
Variable flog : Z -> bool * N.
Notation bno := (bucket_no flog).

Lemma bucket_no_lt d : bno d < 450.
Proof. unfold bucket_no, n_buckets. destruct (flog d) as [neg u]. dmg; lia. Qed.

Definition bcount (l : list Z) (i : nat) : N := N.of_nat (length (filter (fun d => bno d =? i) l)).

(** The invariant for one row: buckets, count and maximum (of 0 and the times). *)
Definition rep (c : cell) (l : list Z) : Prop :=
  ce_n c = N.of_nat (length l) /\ ce_buckets c = map (bcount l) (seq 0 450) /\ ce_max c = mx l.

Lemma bcount_app l1 l2 i : bcount (l1 ++ l2) i = (bcount l1 i + bcount l2 i)%N.
Proof. unfold bcount. rewrite filter_app, app_length. lia. Qed.
Lemma bcount_nil i : bcount [] i = 0%N.
Proof. reflexivity. Qed.

Lemma sum_map_add (f g : nat -> N) l :
  fold_right N.add 0%N (map (fun i => f i + g i)%N l) = (fold_right N.add 0 (map f l) + fold_right N.add 0 (map g l))%N.
Proof. induction l as [|x l IH]; cbn [map fold_right]; [reflexivity|]. rewrite IH. lia. Qed.
Lemma sum_indicator k n : forall s, s <= k < s + n ->
  fold_right N.add 0%N (map (fun i => if (k =? i)%nat then 1%N else 0%N) (seq s n)) = 1%N.
Proof.
  assert (Hz : forall n s, k < s -> fold_right N.add 0%N (map (fun i => if (k =? i)%nat then 1%N else 0%N) (seq s n)) = 0%N).
  { clear n. induction n as [|n IH]; intros s Hs; cbn [seq map fold_right]; [reflexivity|].
    rewrite IH by lia. destruct (Nat.eqb_spec k s); lia. }
  induction n as [|n IH]; intros s Hs; [lia|]. cbn [seq map fold_right].
  destruct (Nat.eqb_spec k s); [rewrite Hz; lia|rewrite IH; lia].
Qed.
Lemma bcount_one d i : bcount [d] i = if bno d =? i then 1%N else 0%N.
Proof. unfold bcount. cbn [filter]. destruct (bno d =? i); reflexivity. Qed.
Lemma bcount_sum l : fold_right N.add 0%N (map (bcount l) (seq 0 450)) = N.of_nat (length l).
Proof.
  induction l as [|d l IH].
  - clear. generalize (seq 0 450). induction l as [|x l IH]; [reflexivity|]. cbn [map fold_right]. rewrite IH. reflexivity.
  - change (d :: l) with ([d] ++ l). rewrite (map_ext _ _ (fun i => bcount_app [d] l i)), sum_map_add, IH.
    rewrite (map_ext _ _ (bcount_one d)), sum_indicator by (pose proof (bucket_no_lt d); lia).
    rewrite app_length. cbn [length]. lia.
Qed.

Lemma rep_counts c l : Forall (fun d => (0 <= d)%Z) l -> rep c l -> cell_counts flog c l.
Proof.
  intros Hl [Hn [Hb Hm]]. unfold cell_counts. rewrite Hb, Hm.
  split; [assumption|]. split; [apply bcount_sum|]. split; [now rewrite map_length, seq_length|].
  split; [|now apply mx_greatest]. intros i Hi.
  rewrite (nth_indep _ _ (bcount l 0)) by (rewrite map_length, seq_length; assumption).
  rewrite map_nth, seq_nth by assumption. reflexivity.
Qed.
Lemma counts_rep c l : Forall (fun d => (0 <= d)%Z) l -> cell_counts flog c l -> rep c l.
Proof.
  intros Hl [Hn [_ [Hlen [Hb Hm]]]]. unfold rep. split; [assumption|]. split; [|now apply greatest_eq].
  apply (nth_ext _ _ 0%N 0%N); [now rewrite map_length, seq_length, Hlen|]. rewrite Hlen. intros i Hi.
  rewrite Hb by assumption.
  rewrite (nth_indep _ _ (bcount l 0)) by (rewrite map_length, seq_length; assumption).
  rewrite map_nth, seq_nth by assumption. reflexivity.
Qed.

Lemma seq_split n k s : k < n -> seq s n = seq s k ++ (s + k) :: seq (s + S k) (n - S k).
Proof.
  intros Hk. replace n with (k + S (n - S k)) at 1 by lia. rewrite seq_app. cbn [seq].
  replace (S (s + k)) with (s + S k) by lia. reflexivity.
Qed.

Lemma record_cell_rep c l d : rep c l -> exists c', record_cell c (bno d) d = Some c' /\ rep c' (l ++ [d]).
Proof.
  intros [Hn [Hb Hm]]. unfold record_cell. pose proof (bucket_no_lt d) as Hlt.
  assert (Hs : ce_buckets c = map (bcount l) (seq 0 (bno d)) ++ bcount l (bno d) :: map (bcount l) (seq (S (bno d)) (450 - S (bno d)))).
  { rewrite Hb, (seq_split 450 (bno d) 0) by assumption. rewrite map_app. reflexivity. }
  rewrite Hs. rewrite nth_error_app2 by (rewrite map_length, seq_length; lia).
  rewrite map_length, seq_length, Nat.sub_diag. cbn [nth_error].
  assert (Hset : forall A (x y : N) B, length A = bno d -> set_nth (A ++ x :: B) (bno d) y = Some (A ++ y :: B)).
  { intros A x y B <-. apply set_nth_app. }
  rewrite Hset by (now rewrite map_length, seq_length). eexists. split; [reflexivity|]. unfold rep. cbn [ce_n ce_buckets ce_max].
  split; [rewrite app_length; cbn [length]; lia|]. split; [|rewrite mx_app, Hm; cbn; dmg; pose proof (mx_nonneg l); lia].
  rewrite (seq_split 450 (bno d) 0) by assumption. rewrite map_app. cbn [map Nat.add].
  f_equal; [|f_equal].
  - apply map_ext_in. intros i Hi. apply in_seq in Hi. rewrite bcount_app, bcount_one. destruct (Nat.eqb_spec (bno d) i); lia.
  - rewrite bcount_app, bcount_one, Nat.eqb_refl. reflexivity.
  - apply map_ext_in. intros i Hi. apply in_seq in Hi. rewrite bcount_app, bcount_one. destruct (Nat.eqb_spec (bno d) i); lia.
Qed.
Lemma record_cell_min c l d c' : rep c l -> ce_min c = mn l -> record_cell c (bno d) d = Some c' -> ce_min c' = mn (l ++ [d]).
Proof.
  intros [Hn _] Hm. unfold record_cell. rewrite Hm.
  assert (Ed : mn [d] = d) by reflexivity.
  destruct (nth_error _ _); [|discriminate]. destruct (set_nth _ _ _); [|discriminate]. intros H. inv H. cbn [ce_min].
  destruct l as [|x l]; [|rewrite mn_app, Ed by congruence].
  - rewrite Hn. cbn [length]. change (N.of_nat 0 =? 0)%N with true. rewrite orb_true_r. reflexivity.
  - replace (ce_n c =? 0)%N with false by (cbn [length] in Hn; lia). rewrite orb_false_r. dmg; lia.
Qed.

Lemma add_buckets_map (f g : nat -> N) l : add_buckets (map f l) (map g l) = Some (map (fun i => f i + g i)%N l).
Proof. induction l as [|x l IH]; cbn [map add_buckets]; [reflexivity|]. now rewrite IH. Qed.

Lemma combine_cell_rep c1 c2 l1 l2 : rep c1 l1 -> rep c2 l2 ->
  exists c, combine_cell c1 c2 = Some c /\ rep c (l1 ++ l2) /\
    ce_min c = (if ((ce_min c2 <? ce_min c1)%Z || (length l1 =? 0))%bool then ce_min c2 else ce_min c1).
Proof.
  intros [Hn1 [Hb1 Hm1]] [Hn2 [Hb2 Hm2]]. unfold combine_cell. rewrite Hb1, Hb2, add_buckets_map.
  eexists. split; [reflexivity|]. unfold rep. cbn [ce_n ce_buckets ce_max ce_min]. split; [split; [|split]|].
  - rewrite app_length. lia.
  - apply map_ext. intros i. symmetry. apply bcount_app.
  - rewrite mx_app, Hm1, Hm2. dmg; lia.
  - rewrite Hn1. replace (N.of_nat (length l1) =? 0)%N with (length l1 =? 0); [reflexivity|].
    destruct (Nat.eqb_spec (length l1) 0), (N.eqb_spec (N.of_nat (length l1)) 0); lia.
Qed.

Lemma rep_len c l : rep c l -> length (ce_buckets c) = 450.
Proof. intros [_ [-> _]]. now rewrite map_length, seq_length. Qed.

Lemma map_const_repeat {A B} (l : list A) (b : B) : map (fun _ => b) l = repeat b (length l).
Proof. induction l as [|x l IH]; cbn [map repeat length]; [reflexivity|]. now rewrite IH. Qed.
Lemma reset_cell_rep c : length (ce_buckets c) = 450 -> rep (reset_cell c) [].
Proof.
  intros Hl. unfold rep, reset_cell. cbn [ce_n ce_buckets ce_max length]. split; [reflexivity|]. split; [|reflexivity].
  rewrite map_const_repeat, Hl. rewrite (map_ext _ (fun _ => 0%N) bcount_nil), map_const_repeat, seq_length. reflexivity.
Qed.
Lemma cell_zero_rep : rep cell_zero [].
Proof.
  unfold rep, cell_zero. cbn [ce_n ce_buckets ce_max length]. split; [reflexivity|]. split; [|reflexivity].
  rewrite (map_ext _ (fun _ => 0%N) bcount_nil), map_const_repeat, seq_length. reflexivity.
Qed.
Lemma copy_cell_same s c : length (ce_buckets s) = 450 -> length (ce_buckets c) = 450 -> copy_cell s c = c.
Proof.
  intros Hs Hc. unfold copy_cell. rewrite Hs, Hc. rewrite firstn_all2 by lia. rewrite skipn_all2 by lia. rewrite app_nil_r.
  now destruct c.
Qed.

(* ------------------------------------------------------------------------------------ *)
(** * Statistics *)

(** Everything but the least times. *)
Definition srep (s : stats) (evs : list sev) : Prop :=
  (forall q, rep (cell_of s q) (times q evs)) /\ NoDup (map fst (s_errs s)) /\
  (forall k, err_get (s_errs s) k = N.of_nat (count_occ N.eq_dec (codes evs) k)).

Lemma times_app q e1 e2 : times q (e1 ++ e2) = times q e1 ++ times q e2.
Proof. apply flat_map_app. Qed.
Lemma codes_app e1 e2 : codes (e1 ++ e2) = codes e1 ++ codes e2.
Proof. apply flat_map_app. Qed.
Lemma times_concat_app q p ps : times q (concat (ps ++ [p])) = times q (concat ps) ++ times q p.
Proof. rewrite concat_app. cbn [concat]. rewrite app_nil_r. apply times_app. Qed.

Lemma times_ok_class q evs : times_ok evs -> Forall (fun d => (0 <= d)%Z) (times q evs).
Proof.
  unfold times_ok, times. rewrite !Forall_forall. intros H d Hd. apply H. apply in_flat_map in Hd. apply in_flat_map.
  destruct Hd as [e [He Hd]]. exists e. split; [assumption|]. destruct e as [q' d'|]; [|destruct Hd].
  destruct (covers q q') eqn:E; [|destruct Hd]. destruct Hd as [->|[]]. destruct q'; cbn; auto.
Qed.
Lemma times_ok_app e1 e2 : times_ok (e1 ++ e2) <-> times_ok e1 /\ times_ok e2.
Proof. unfold times_ok. rewrite times_app. apply Forall_app. Qed.
Lemma times_ok_concat ps : times_ok (concat ps) <-> Forall times_ok ps.
Proof.
  induction ps as [|p ps IH]; cbn [concat]; [split; constructor|]. rewrite times_ok_app, IH. split; intros H.
  - constructor; tauto. - inv H. auto.
Qed.

Lemma srep_exact s evs : times_ok evs -> srep s evs -> exact_but_least flog s evs.
Proof.
  intros Hok [Hc [Hn He]]. split; [|now apply errors_exact_intro].
  intros q. apply rep_counts; [now apply times_ok_class|apply Hc].
Qed.
Lemma exact_srep s evs : times_ok evs -> exact_but_least flog s evs -> srep s evs.
Proof.
  intros Hok [Hc [Hn [He _]]]. split; [|split; assumption].
  intros q. apply counts_rep; [now apply times_ok_class|apply Hc].
Qed.

Lemma with_cell_of s q c q' : cell_of (with_cell s q c) q' = if covers q q' then (if covers q' q then c else cell_of s q') else cell_of s q'.
Proof. destruct q, q'; reflexivity. Qed.
Lemma with_cell_errs s q c : s_errs (with_cell s q c) = s_errs s.
Proof. destruct q; reflexivity. Qed.

Lemma record_spec s evs q d : srep s evs ->
  exists s', record flog s q d = Some s' /\ srep s' (evs ++ [SRec q d]) /\
    ((forall q, ce_min (cell_of s q) = mn (times q evs)) -> forall q', ce_min (cell_of s' q') = mn (times q' (evs ++ [SRec q d]))).
Proof.
  intros [Hc [Hn He]]. unfold record. destruct (record_cell_rep _ _ d (Hc q)) as [c [Ec Rc]]. rewrite Ec.
  assert (Hcodes : codes (evs ++ [SRec q d]) = codes evs) by (rewrite codes_app; apply app_nil_r).
  assert (Ht : forall q', times q' (evs ++ [SRec q d]) = times q' evs ++ if covers q' q then [d] else []).
  { intros q'. rewrite times_app. cbn [times flat_map]. now rewrite app_nil_r. }
  destruct (is_total q) eqn:Eq.
  - destruct q; try discriminate. eexists. split; [reflexivity|]. split; [split; [|split]|].
    + intros q'. rewrite with_cell_of, Ht. destruct q'; cbn [covers]; rewrite ?app_nil_r; auto.
    + rewrite with_cell_errs. assumption.
    + rewrite with_cell_errs, Hcodes. assumption.
    + intros Hm q'. rewrite with_cell_of, Ht. destruct q'; cbn [covers]; rewrite ?app_nil_r; auto.
      eapply record_cell_min; [apply (Hc TOTAL)|apply (Hm TOTAL)|exact Ec].
  - assert (Et : s_total (with_cell s q c) = cell_of s TOTAL) by (destruct q; try discriminate; reflexivity). rewrite Et.
    destruct (record_cell_rep _ _ d (Hc TOTAL)) as [t [Et' Rt]]. rewrite Et'.
    eexists. split; [reflexivity|]. split; [split; [|split]|].
    + intros q'. rewrite !with_cell_of, Ht.
      destruct q, q'; try discriminate; cbn [covers]; rewrite ?app_nil_r; auto.
    + rewrite !with_cell_errs. assumption.
    + rewrite !with_cell_errs, Hcodes. assumption.
    + intros Hm q'. pose proof (record_cell_min _ _ _ _ (Hc q) (Hm q) Ec) as M1.
      pose proof (record_cell_min _ _ _ _ (Hc TOTAL) (Hm TOTAL) Et') as M2.
      rewrite !with_cell_of, Ht.
      destruct q, q'; try discriminate; cbn [covers]; rewrite ?app_nil_r; auto.
Qed.

Lemma error_spec s evs k : srep s evs -> srep (error s k) (evs ++ [SErr k]) /\
  ((forall q, ce_min (cell_of s q) = mn (times q evs)) -> forall q, ce_min (cell_of (error s k) q) = mn (times q (evs ++ [SErr k]))).
Proof.
  intros [Hc [Hn He]].
  assert (Ht : forall q, times q (evs ++ [SErr k]) = times q evs) by (intros q; rewrite times_app; apply app_nil_r).
  assert (Hcl : forall q, cell_of (error s k) q = cell_of s q) by (intros []; reflexivity).
  split; [split; [|split]|].
  - intros q. now rewrite Hcl, Ht.
  - cbn. now apply err_set_nodup.
  - intros k'. cbn [error with_errs s_errs]. rewrite err_get_set, codes_app, count_occ_app. cbn [codes flat_map app count_occ].
    rewrite !He. destruct (N.eqb_spec k' k), (N.eq_dec k k'); subst; try congruence; lia.
  - intros Hm q. now rewrite Hcl, Ht.
Qed.

Lemma apply_all_spec evs : forall s pre, srep s pre ->
  exists s', apply_all flog s evs = Some s' /\ srep s' (pre ++ evs) /\
    ((forall q, ce_min (cell_of s q) = mn (times q pre)) -> forall q, ce_min (cell_of s' q) = mn (times q (pre ++ evs))).
Proof.
  induction evs as [|e evs IH]; intros s pre H; cbn [apply_all].
  - exists s. rewrite app_nil_r. auto.
  - replace (pre ++ e :: evs) with ((pre ++ [e]) ++ evs) by (now rewrite <- app_assoc). destruct e as [q d|k].
    + destruct (record_spec s pre q d H) as [s1 [E1 [R1 M1]]]. rewrite E1.
      destruct (IH s1 _ R1) as [s' [E' [R' M']]]. exists s'. auto.
    + destruct (error_spec s pre k H) as [R1 M1]. destruct (IH _ _ R1) as [s' [E' [R' M']]]. exists s'. auto.
Qed.

Lemma new_srep : srep stats_new [] /\ (forall q, ce_min (cell_of stats_new q) = mn (times q [])).
Proof.
  split; [split; [|split]|].
  - intros []; apply cell_zero_rep.
  - constructor.
  - reflexivity.
  - intros []; reflexivity.
Qed.

Lemma reset_keys m : map fst (map (fun kv : N * N => (fst kv, 0%N)) m) = map fst m.
Proof. rewrite map_map. reflexivity. Qed.
Lemma reset_get m k : err_get (map (fun kv : N * N => (fst kv, 0%N)) m) k = 0%N.
Proof. induction m as [|[k0 v0] m IH]; cbn [map fst err_get]; [reflexivity|]. destruct (k =? k0)%N; auto. Qed.
Lemma reset_srep s : valid s -> srep (reset s) [] /\ (forall q, ce_min (cell_of (reset s) q) = mn (times q [])).
Proof.
  intros [Hl Hn]. split; [split; [|split]|].
  - intros []; [apply (reset_cell_rep _ (Hl READ))|apply (reset_cell_rep _ (Hl WRITE))|apply (reset_cell_rep _ (Hl COMMIT))|apply (reset_cell_rep _ (Hl TOTAL))].
  - cbn. now rewrite reset_keys.
  - intros k. cbn [reset s_errs]. now rewrite reset_get.
  - intros []; reflexivity.
Qed.

Lemma srep_valid s evs : srep s evs -> valid s.
Proof. intros [Hc [Hn _]]. split; [|assumption]. intros q. eapply rep_len, Hc. Qed.

Lemma combine_spec s c e1 e2 : srep s e1 -> srep c e2 ->
  exists s', combine s c = Some s' /\ srep s' (e1 ++ e2) /\
    forall q, ce_min (cell_of s' q) =
      if ((ce_min (cell_of c q) <? ce_min (cell_of s q))%Z || (length (times q e1) =? 0))%bool
      then ce_min (cell_of c q) else ce_min (cell_of s q).
Proof.
  intros [Hc1 [Hn1 He1]] [Hc2 [Hn2 He2]]. unfold combine.
  destruct (combine_cell_rep _ _ _ _ (Hc1 READ) (Hc2 READ)) as [r [Er [Rr Mr]]].
  destruct (combine_cell_rep _ _ _ _ (Hc1 WRITE) (Hc2 WRITE)) as [w [Ew [Rw Mw]]].
  destruct (combine_cell_rep _ _ _ _ (Hc1 COMMIT) (Hc2 COMMIT)) as [k [Ek [Rk Mk]]].
  destruct (combine_cell_rep _ _ _ _ (Hc1 TOTAL) (Hc2 TOTAL)) as [t [Et [Rt Mt]]].
  cbn [cell_of] in Er, Ew, Ek, Et. rewrite Er, Ew, Ek, Et. eexists. split; [reflexivity|].
  destruct (add_errs_spec (s_errs c) (s_errs s) Hn1 Hn2) as [Hn He].
  split; [split; [|split]|].
  - intros q. rewrite times_app. destruct q; assumption.
  - exact Hn.
  - intros x. cbn [s_errs]. rewrite He, He1, He2, codes_app, count_occ_app. lia.
  - intros []; assumption.
Qed.

(** The least time after combining the parts so far. *)
Definition min_state (s : stats) (parts : list (list sev)) : Prop :=
  forall q, (gap q parts -> ce_min (cell_of s q) = 0%Z) /\
            (~ gap q parts -> ce_min (cell_of s q) = mn (times q (concat parts))).

Lemma gap_snoc q p ps : gap q (ps ++ [p]) <-> gap q ps \/ (times q (concat ps) <> [] /\ times q p = []).
Proof.
  induction ps as [|a ps IH]; cbn [app gap concat].
  - split; [intros [[_ [p' [[] _]]]|[]]|intros [[]|[H _]]; cbn in H; congruence].
  - rewrite IH, times_app. split.
    + intros [[Ha [p' [Hp' Ep']]]|[H|[H1 H2]]]; auto.
      * apply in_app_or in Hp'. destruct Hp' as [Hp'|[<-|[]]]; [left; left; eauto|]. right. split; [|assumption].
        intros E. apply app_eq_nil in E. tauto.
      * right. split; [|assumption]. intros E. apply app_eq_nil in E. tauto.
    + intros [[[Ha [p' [Hp' Ep']]]|H]|[H1 H2]]; auto.
      * left. split; [assumption|]. exists p'. split; [apply in_or_app; auto|assumption].
      * destruct (times q a) as [|x l] eqn:Ea; [right; right; auto|]. left. split; [congruence|]. exists p. split; [apply in_or_app; cbn; auto|assumption].
Qed.
Lemma gap_nonempty q ps : gap q ps -> times q (concat ps) <> [].
Proof.
  induction ps as [|a ps IH]; cbn [gap concat]; [intros []|]. rewrite times_app. intros H E.
  apply app_eq_nil in E. destruct H as [[H _]|H]; tauto.
Qed.
Lemma gap_dec q ps : gap q ps \/ ~ gap q ps.
Proof.
  induction ps as [|p ps IH] using rev_ind; [right; intros []|]. rewrite gap_snoc.
  destruct IH as [H|H]; [auto|]. destruct (times q (concat ps)) eqn:E1, (times q p) eqn:E2; intuition congruence.
Qed.

Definition minexact (s : stats) (evs : list sev) : Prop := forall q, ce_min (cell_of s q) = mn (times q evs).

Lemma min_step s c s' parts p :
  Forall times_ok parts -> times_ok p -> min_state s parts -> minexact c p ->
  (forall q, ce_min (cell_of s' q) =
      if ((ce_min (cell_of c q) <? ce_min (cell_of s q))%Z || (length (times q (concat parts)) =? 0))%bool
      then ce_min (cell_of c q) else ce_min (cell_of s q)) ->
  min_state s' (parts ++ [p]).
Proof.
  intros Hok Hp Hs Hc He q. specialize (Hs q). specialize (Hc q). specialize (He q). rewrite gap_snoc, times_concat_app.
  pose proof (mn_nonneg _ (times_ok_class q _ Hp)) as Np.
  pose proof (mn_nonneg _ (times_ok_class q _ (proj2 (times_ok_concat parts) Hok))) as Nl.
  rewrite Hc in He. set (l := times q (concat parts)) in *.
  assert (Hlen : (length l =? 0) = match l with [] => true | _ => false end) by (destruct l; reflexivity). rewrite Hlen in He.
  destruct Hs as [Hs1 Hs2]. split.
  - intros [H|[H1 H2]].
    + specialize (Hs1 H). destruct l as [|x l'] eqn:El.
      * exfalso. apply (gap_nonempty q parts H El).
      * rewrite He. cbn [orb]. rewrite orb_false_r. dmg; lia.
    + rewrite H2 in He. cbn [mn] in He. destruct l as [|x l'] eqn:El; [congruence|]. rewrite orb_false_r in He.
      destruct (gap_dec q parts) as [G|G]; [specialize (Hs1 G)|specialize (Hs2 G)]; rewrite He; dmg; lia.
  - intros H. assert (G : ~ gap q parts) by tauto. specialize (Hs2 G). rewrite He, Hs2.
    destruct l as [|x l'] eqn:El.
    + cbn [app]. rewrite orb_true_r. reflexivity.
    + rewrite orb_false_r. destruct (times q p) as [|y r] eqn:Ep; [exfalso; apply H; right; split; congruence|].
      rewrite (mn_app (x :: l')) by congruence. dmg; lia.
Qed.

Lemma combine_all_spec ss : forall s parts0 parts,
  Forall times_ok parts0 -> Forall times_ok parts ->
  srep s (concat parts0) -> min_state s parts0 ->
  Forall2 (fun c p => srep c p /\ minexact c p) ss parts ->
  exists s', combine_all s ss = Some s' /\ srep s' (concat (parts0 ++ parts)) /\ min_state s' (parts0 ++ parts).
Proof.
  induction ss as [|c ss IH]; intros s parts0 parts Hok0 Hok Hs Hm HF; inv HF; cbn [combine_all].
  - exists s. rewrite app_nil_r. auto.
  - destruct H1 as [Hc Mc]. inv Hok.
    destruct (combine_spec _ _ _ _ Hs Hc) as [s1 [E1 [R1 M1]]]. rewrite E1.
    replace (parts0 ++ y :: l') with ((parts0 ++ [y]) ++ l') by (now rewrite <- app_assoc).
    apply IH; auto.
    + apply Forall_app. split; [assumption|]. constructor; [assumption|constructor].
    + rewrite concat_app. cbn [concat]. rewrite app_nil_r. assumption.
    + eapply min_step; eauto.
Qed.

Lemma min_state_exact_one s p : minexact s p -> min_state s [p].
Proof.
  intros H q. split.
  - cbn. intros [[_ [p' [[] _]]]|[]].
  - intros _. cbn [concat]. rewrite app_nil_r. apply H.
Qed.
Lemma min_state_nil s : minexact s [] -> min_state s [].
Proof. intros H q. split; [intros []|]. intros _. apply H. Qed.

Lemma copy_srep t s evs : valid t -> srep s evs ->
  (forall k, In k (map fst (s_errs s)) \/ err_get (s_errs t) k = 0%N) ->
  srep (copy_stats t s) evs.
Proof.
  intros [Hl Hn] Hs Hk. pose proof (srep_valid _ _ Hs) as [Hl' Hn']. destruct Hs as [Hc [_ He]].
  destruct (copy_errs_spec (s_errs s) (s_errs t) Hn Hn') as [H1 H2]. split; [|split].
  - intros q. replace (cell_of (copy_stats t s) q) with (cell_of s q); [apply Hc|].
    symmetry. destruct q; cbn [cell_of copy_stats s_read s_write s_commit s_total]; [apply (copy_cell_same _ _ (Hl READ) (Hl' READ))|apply (copy_cell_same _ _ (Hl WRITE) (Hl' WRITE))|apply (copy_cell_same _ _ (Hl COMMIT) (Hl' COMMIT))|apply (copy_cell_same _ _ (Hl TOTAL) (Hl' TOTAL))].
  - exact H1.
  - intros k. cbn [copy_stats s_errs]. rewrite H2. destruct (existsb (N.eqb k) (map fst (s_errs s))) eqn:E; [apply He|].
    rewrite <- He. destruct (Hk k) as [H|H].
    + exfalso. rewrite <- not_true_iff_false in E. apply E. apply existsb_exists. exists k. split; [assumption|apply N.eqb_refl].
    + rewrite H. symmetry. apply err_get_notin. intros Hin. rewrite <- not_true_iff_false in E. apply E. apply existsb_exists. exists k. split; [assumption|apply N.eqb_refl].
Qed.
Lemma copy_cells t s q : valid t -> valid s -> cell_of (copy_stats t s) q = cell_of s q.
Proof.
  intros [Hl _] [Hl' _]. destruct q; cbn [cell_of copy_stats s_read s_write s_commit s_total]; [apply (copy_cell_same _ _ (Hl READ) (Hl' READ))|apply (copy_cell_same _ _ (Hl WRITE) (Hl' WRITE))|apply (copy_cell_same _ _ (Hl COMMIT) (Hl' COMMIT))|apply (copy_cell_same _ _ (Hl TOTAL) (Hl' TOTAL))].
Qed.

Lemma exact_parts s evs : times_ok evs -> exact flog s evs -> srep s evs /\ minexact s evs.
Proof.
  intros Hok [Hc He]. split.
  - apply exact_srep; [assumption|]. split; [|assumption]. intros q. apply Hc.
  - intros q. apply least_eq, Hc.
Qed.
Lemma parts_exact s evs : times_ok evs -> srep s evs -> minexact s evs -> exact flog s evs.
Proof.
  intros Hok Hs Hm. destruct (srep_exact _ _ Hok Hs) as [Hc He]. split; [|assumption].
  intros q. split; [apply Hc|]. rewrite Hm. apply mn_least.
Qed.
End Cells.
