(** Properties C36-C42 and C63: statistics, percentiles, collecting and reporting. *)
From Verif Require Import Prelude ListAux ClientModel StatsModel StatsSpec StatsProofs StatsReportProofs.
From Verif Require Import CollectorModel CollectorSpec CollectorProofs.
From Coq Require Import Permutation.
#[local] Open Scope string_scope.
#[local] Open Scope list_scope.

(** A bucket function for the examples: 1 microsecond per bucket. *)
Definition ex_flog (d : Z) : bool * N := ((d <? 1)%Z, Z.to_N (d - 1)).
Definition ex_apply (evs : list sev) : stats := match apply_all ex_flog stats_new evs with Some s => s | None => stats_new end.

(* ------------------------------------------------------------------------------------ *)
(** * C36 Recorded statistics are exact *)

(** Whatever is recorded after [NewStats] or [Reset], nothing crashes; and if the times are not
    negative all statistics are exactly those of the events. *)
Theorem C36_recorded_exact : forall flog s0 evs,
  (s0 = stats_new \/ exists v, valid v /\ s0 = reset v) ->
  exists s, apply_all flog s0 evs = Some s /\ valid s /\ (times_ok evs -> exact flog s evs).
Proof.
  intros flog s0 evs H0.
  assert (H : srep flog s0 [] /\ minexact s0 []).
  { destruct H0 as [->|[v [Hv ->]]]; [apply new_srep|now apply reset_srep]. }
  destruct H as [R M]. destruct (apply_all_spec flog evs s0 [] R) as [s [E [R' M']]]. exists s. split; [assumption|].
  split; [eapply srep_valid, R'|]. intros Hok. apply parts_exact; auto.
  exact (M' M).
Qed.

Example C36_example :
  exists s, apply_all ex_flog stats_new [SRec READ 7; SRec COMMIT 3; SErr 1213; SRec READ 5; SErr 1213] = Some s /\
    ce_n (s_read s) = 2%N /\ ce_min (s_read s) = 5%Z /\ ce_max (s_read s) = 7%Z /\
    ce_n (s_total s) = 3%N /\ ce_min (s_total s) = 3%Z /\ ce_max (s_total s) = 7%Z /\
    nth 7 (ce_buckets (s_total s)) 0%N = 1%N /\ err_get (s_errs s) 1213 = 2%N.
Proof. eexists. split; [vm_compute; reflexivity|]. vm_compute. repeat split; reflexivity. Qed.
Example C36_extreme : exists s, apply_all (fun _ => (false, (2^64 - 1)%N)) stats_new [SRec READ (-5); SRec WRITE (2^63 - 1)] = Some s /\
  ce_n (s_total s) = 2%N.
Proof. eexists. split; [vm_compute; reflexivity|]. reflexivity. Qed.

(* ------------------------------------------------------------------------------------ *)
(** * C37 Combining statistics equals recording everything together *)

(** Combining the statistics of any parts gives the statistics of all their events, but for the
    least time of a class: it is right exactly if no part with events of the class is followed by
    a part without (else it becomes 0). *)
Theorem C37_combined_partial : forall flog s0 ss parts,
  (s0 = stats_new \/ exists v, valid v /\ s0 = reset v) ->
  Forall times_ok parts -> Forall2 (fun s p => exact flog s p) ss parts ->
  exists s, combine_all s0 ss = Some s /\ exact_but_least flog s (concat parts) /\
    forall q, (~ gap q parts -> is_least (ce_min (cell_of s q)) (times q (concat parts))) /\
              (gap q parts -> ce_min (cell_of s q) = 0%Z).
Proof.
  intros flog s0 ss parts H0 Hok HF.
  assert (H : srep flog s0 [] /\ minexact s0 []).
  { destruct H0 as [->|[v [Hv ->]]]; [apply new_srep|now apply reset_srep]. }
  destruct H as [R M]. destruct (combine_all_spec flog ss s0 [] parts) as [s [E [R' M']]]; auto.
  - now apply min_state_nil.
  - clear -HF Hok. induction HF as [|s p ss ps H HF IH]; constructor; inv Hok; auto. now apply exact_parts.
  - cbn [app] in *. exists s. split; [assumption|]. split; [apply srep_exact; [now apply times_ok_concat|assumption]|].
    intros q. destruct (M' q) as [M1 M2]. split; [|assumption]. intros G. rewrite (M2 G). apply mn_least.
Qed.

(** In whatever order they are combined, everything but the least time is the same. *)
Theorem C37_any_order : forall flog s0 ss parts ss' parts' s s',
  (s0 = stats_new \/ exists v, valid v /\ s0 = reset v) ->
  Forall times_ok parts -> Forall2 (fun s p => exact flog s p) ss parts -> Forall2 (fun s p => exact flog s p) ss' parts' ->
  Permutation parts parts' -> combine_all s0 ss = Some s -> combine_all s0 ss' = Some s' ->
  (forall q, ce_n (cell_of s q) = ce_n (cell_of s' q) /\ ce_buckets (cell_of s q) = ce_buckets (cell_of s' q) /\
             ce_max (cell_of s q) = ce_max (cell_of s' q)) /\
  forall k, err_get (s_errs s) k = err_get (s_errs s') k.
Proof.
  intros flog s0 ss parts ss' parts' s s' H0 Hok HF HF' HP E E'.
  assert (Hok' : Forall times_ok parts').
  { rewrite Forall_forall in *. intros p Hp. apply Hok. eapply Permutation_in; [symmetry; exact HP|assumption]. }
  assert (H : srep flog s0 [] /\ minexact s0 []).
  { destruct H0 as [->|[v [Hv ->]]]; [apply new_srep|now apply reset_srep]. }
  destruct H as [R M].
  assert (Hgo : forall ss parts s, Forall times_ok parts -> Forall2 (fun s p => exact flog s p) ss parts -> combine_all s0 ss = Some s -> srep flog s (concat parts)).
  { clear -R M. intros ss parts s Hok HF E. destruct (combine_all_spec flog ss s0 [] parts) as [s1 [E1 [R1 _]]]; auto.
    - now apply min_state_nil.
    - clear -HF Hok. induction HF as [|s p ss ps H HF IH]; constructor; inv Hok; auto. now apply exact_parts.
    - rewrite E in E1. inv E1. exact R1. }
  pose proof (Hgo _ _ _ Hok HF E) as [C1 [_ K1]]. pose proof (Hgo _ _ _ Hok' HF' E') as [C2 [_ K2]].
  assert (HPc : Permutation (concat parts) (concat parts')).
  { clear -HP. induction HP; cbn [concat]; auto using Permutation_app_head.
    - rewrite !app_assoc. apply Permutation_app_tail, Permutation_app_comm.
    - eapply perm_trans; eauto. }
  assert (HPt : forall q, Permutation (times q (concat parts)) (times q (concat parts'))) by (intros q; apply Permutation_flat_map; exact HPc).
  assert (HPk : Permutation (codes (concat parts)) (codes (concat parts'))) by (apply Permutation_flat_map; exact HPc).
  split.
  - intros q. destruct (C1 q) as [N1 [B1 X1]]. destruct (C2 q) as [N2 [B2 X2]]. rewrite N1, N2, B1, B2, X1, X2.
    split; [now rewrite (Permutation_length (HPt q))|]. split.
    + apply map_ext. intros i. unfold bcount. f_equal. apply Permutation_length.
      generalize (HPt q). generalize (times q (concat parts)) (times q (concat parts')). clear. intros l l' HP.
      induction HP; cbn [filter]; repeat dmg; auto; try constructor; auto. eapply perm_trans; eauto.
    + generalize (HPt q). generalize (times q (concat parts)) (times q (concat parts')). clear. intros l l' HP.
      unfold mx. induction HP; cbn [fold_right]; lia.
  - intros k. rewrite K1, K2. f_equal. generalize HPk. generalize (codes (concat parts)) (codes (concat parts')). clear. intros l l' HP.
    induction HP; cbn [count_occ]; repeat dmg; lia.
Qed.

Definition ex_p1 : list sev := [SRec READ 7; SErr 1213].
Definition ex_p2 : list sev := [SRec READ 4; SRec WRITE 9].
Example C37_example : exists s, combine_all stats_new [ex_apply ex_p1; ex_apply ex_p2] = Some s /\
  ce_n (s_read s) = 2%N /\ ce_min (s_read s) = 4%Z /\ ce_max (s_total s) = 9%Z /\ err_get (s_errs s) 1213 = 1%N.
Proof. eexists. split; [vm_compute; reflexivity|]. vm_compute. repeat split; reflexivity. Qed.

(** REFUTED: a client without any event makes the least time 0. *)
Theorem C37_refuted : exists parts s,
  Forall times_ok parts /\ combine_all stats_new (map ex_apply parts) = Some s /\
  Forall (fun p => exact ex_flog (ex_apply p) p) parts /\
  times READ (concat parts) = [7%Z] /\ ce_min (s_read s) = 0%Z /\ ce_min (s_total s) = 0%Z.
Proof.
  exists [ex_p1; []]. eexists. split; [repeat constructor; cbn; lia|]. split; [vm_compute; reflexivity|].
  split; [|vm_compute; repeat split; reflexivity].
  assert (H : forall p, times_ok p -> exact ex_flog (ex_apply p) p).
  { intros p Hp. unfold ex_apply. destruct (C36_recorded_exact ex_flog stats_new p (or_introl eq_refl)) as [s [-> [_ H]]]. auto. }
  apply Forall_cons; [|apply Forall_cons; [|constructor]]; apply H; unfold times_ok, times; cbn; repeat apply Forall_cons; try apply Forall_nil; lia.
Qed.

(* ------------------------------------------------------------------------------------ *)
(** * C38 Percentiles *)

(** The value for bucket [i]: its upper bound, or (if the integer parts of the requested and the
    reached percentile differ) the middle between the bounds of the previous bucket and this one. *)
Definition pct_at {F P} (same_int : P -> F -> bool) (bound : nat -> N) (p : P) (f : F) (i : nat) (v : N) : Prop :=
  (same_int p f = true -> v = bound i) /\
  (same_int p f = false -> i <> 0 -> v = ((bound i + bound (i - 1)%nat) / 2)%N) /\
  (i = 0 -> v = bound 0).

(** If the buckets where the requested percentiles are first reached are strictly increasing (for
    one percentile: always), each value is that of its bucket. *)
Theorem C38_distinct_buckets_partial : forall (F P : Type) (freq : N -> N -> F) (ge : F -> P -> bool) same_int bound c ps firsts,
  Forall2 (fun p i => first_bucket freq ge (ce_buckets c) (ce_n c) p i) ps firsts ->
  (forall a b i i', firsts = a ++ i :: b -> In i' b -> i < i') ->
  length (percentiles freq ge same_int bound c ps) = length ps /\
  forall j p i, nth_error ps j = Some p -> nth_error firsts j = Some i ->
    exists v, nth_error (percentiles freq ge same_int bound c ps) j = Some v /\
      pct_at same_int bound p (freq (upto (ce_buckets c) i) (ce_n c)) i v.
Proof.
  intros F P freq ge same_int bound c ps firsts HF Hinc.
  rewrite (percentiles_found freq ge same_int bound c ps firsts HF Hinc). pose proof (F2_length _ _ _ HF) as HL. split.
  - rewrite map_length, combine_length. lia.
  - intros j p i Hp Hi. rewrite nth_error_map.
    assert (Hc : nth_error (List.combine ps firsts) j = Some (p, i)).
    { clear -Hp Hi. revert firsts j Hp Hi. induction ps as [|x ps IH]; intros [|y fs] [|j] Hp Hi; cbn in *; try discriminate; [congruence|auto]. }
    rewrite Hc. cbn [option_map fst snd]. eexists. split; [reflexivity|]. unfold pct_value, pct_at.
    split; [|split].
    + intros ->. cbn [negb andb]. destruct (Nat.eqb_spec i 0); [now subst|reflexivity].
    + intros -> H0. cbn [negb andb]. replace (0 <? i)%nat with true by lia. reflexivity.
    + intros ->. destruct (same_int _ _); reflexivity.
Qed.

(** Values lie between the bounds of the bucket. *)
Theorem C38_between : forall (F P : Type) (freq : N -> N -> F) (ge : F -> P -> bool) same_int bound c ps firsts,
  (forall a b, a <= b -> (bound a <= bound b)%N) ->
  Forall2 (fun p i => first_bucket freq ge (ce_buckets c) (ce_n c) p i) ps firsts ->
  (forall a b i i', firsts = a ++ i :: b -> In i' b -> i < i') ->
  forall j i v, nth_error firsts j = Some i -> nth_error (percentiles freq ge same_int bound c ps) j = Some v ->
    (bound (i - 1)%nat <= v <= bound i)%N.
Proof.
  intros F P freq ge same_int bound c ps firsts Hb HF Hinc j i v Hi. rewrite (percentiles_found freq ge same_int bound c ps firsts HF Hinc).
  rewrite nth_error_map. destruct (nth_error (List.combine ps firsts) j) as [[p i']|] eqn:E; [|discriminate].
  assert (i' = i).
  { clear -E Hi. revert firsts j E Hi. induction ps as [|x ps IH]; intros [|y fs] [|j] E Hi; cbn in *; try discriminate; [congruence|eauto]. }
  subst i'. cbn [option_map fst snd]. intros H. inv H. now apply pct_between.
Qed.

(** No events (a fraction of 0 events is not a number and reaches nothing): all are 0. *)
Theorem C38_no_events : forall (F P : Type) (freq : N -> N -> F) (ge : F -> P -> bool) same_int bound c ps,
  ce_n c = 0%N -> (forall m p, ge (freq m 0%N) p = false) ->
  percentiles freq ge same_int bound c ps = repeat 0%N (length ps).
Proof.
  intros F P freq ge same_int bound c ps Hn Hg. unfold percentiles. rewrite Hn, loop_none by auto. cbn [app length].
  now rewrite Nat.sub_0_r.
Qed.

(** A percentile that is never reached, and those after it, are 0. *)
Theorem C38_unreached : forall (F P : Type) (freq : N -> N -> F) (ge : F -> P -> bool) same_int bound c p ps,
  (forall i, i < length (ce_buckets c) -> ge (freq (upto (ce_buckets c) i) (ce_n c)) p = false) ->
  percentiles freq ge same_int bound c (p :: ps) = repeat 0%N (S (length ps)).
Proof.
  intros F P freq ge same_int bound c p ps H. unfold percentiles.
  pose proof (loop_not_reached freq ge same_int bound (ce_n c) (ce_buckets c) p H (ce_buckets c) [] ps eq_refl) as E.
  cbn [length fold_right] in E. rewrite E. reflexivity.
Qed.

(** Exact fractions: [n] of [total] events in percent reach [p] percent. *)
Definition ex_freq (n total : N) : N * N := ((n * 100)%N, total).
Definition ex_ge (f : N * N) (p : N) : bool := (negb (snd f =? 0) && (p * snd f <=? fst f))%N%bool.
Definition ex_same (p : N) (f : N * N) : bool := (fst f / snd f =? p)%N.
Definition ex_bound (i : nat) : N := (10 * N.of_nat i + 10)%N.
Definition ex_cell : cell := Cell [0; 50; 0; 45; 5]%N 0 0 100.
Example C38_example : percentiles ex_freq ex_ge ex_same ex_bound ex_cell [50; 95; 99]%N = [20; 40; 45]%N.
Proof. reflexivity. Qed.
Example C38_example_first : Forall2 (fun p i => first_bucket ex_freq ex_ge (ce_buckets ex_cell) (ce_n ex_cell) p i) [50; 95; 99]%N [1; 3; 4].
Proof.
  apply Forall2_cons; [|apply Forall2_cons; [|apply Forall2_cons; [|apply Forall2_nil]]]; unfold first_bucket; cbn [ex_cell ce_buckets ce_n length];
    (split; [lia|split; [reflexivity|]]); intros i' Hi; do 4 (destruct i' as [|i']; [reflexivity || lia|]); lia.
Qed.

(** REFUTED: with all events in the last bucket, every percentile after the first one requested is
    reported as 0 (whatever the floating point functions, as long as 0 events do not reach the
    percentiles and all events reach the first one). *)
Theorem C38_refuted : forall (F P : Type) (freq : N -> N -> F) (ge : F -> P -> bool) same_int bound n p1 ps,
  (forall p, In p (p1 :: ps) -> ge (freq 0%N n) p = false) -> ge (freq n n) p1 = true ->
  exists v, percentiles freq ge same_int bound (Cell (repeat 0%N 449 ++ [n]) 0 0 n) (p1 :: ps) = v :: repeat 0%N (length ps).
Proof.
  intros F P freq ge same_int bound n p1 ps H0 H1. unfold percentiles. cbn [ce_n ce_buckets].
  rewrite (loop_last freq ge same_int bound n n 449 0 ps p1 H0 H1). eexists. cbn [app length]. rewrite Nat.sub_succ, Nat.sub_0_r. reflexivity.
Qed.
(** REFUTED: the value of a percentile depends on which others are requested, and is not the
    bucket's upper bound. *)
Theorem C38_refuted_dependent :
  percentiles ex_freq ex_ge ex_same ex_bound (Cell [0; 100; 0; 0]%N 0 0 100) [99]%N = [15]%N /\
  percentiles ex_freq ex_ge ex_same ex_bound (Cell [0; 100; 0; 0]%N 0 0 100) [95; 99]%N = [15; 25]%N /\
  first_bucket ex_freq ex_ge [0; 100; 0; 0]%N 100 99%N 1 /\ ex_bound 1 = 20%N.
Proof.
  split; [reflexivity|]. split; [reflexivity|]. split; [|reflexivity]. split; [cbn; lia|]. split; [reflexivity|].
  intros i' Hi. replace i' with 0 by lia. reflexivity.
Qed.

(* ------------------------------------------------------------------------------------ *)
(** * C39 No recorded query is lost or counted twice across intervals *)

(** If the collector never reads a buffer between the client's loading of its pointer and writing
    to it, what is reported, then what is still to be read, is exactly what was recorded. *)
Theorem C39_exactly_once_partial : forall (E : Type) (l : list (swact E)) s,
  quiet sw_init l -> sw_run sw_init l = Some s -> concat (sw_reported s) ++ unread s = sw_recorded s.
Proof. intros E l s Hq Hr. exact (proj1 (sw_run_exact l _ _ sw_init_inv Hq Hr)). Qed.

(** In every interleaving nothing is reported more often than it was recorded. *)
Theorem C39_at_most_once : forall (E : Type) (E_dec : forall x y : E, {x = y} + {x <> y}) (l : list (swact E)) s e,
  sw_run sw_init l = Some s -> count_occ E_dec (concat (sw_reported s)) e <= count_occ E_dec (sw_recorded s) e.
Proof.
  intros E E_dec l s e Hr. destruct (sw_run_once E_dec l _ _ (sw_init_once E_dec) Hr) as [_ [_ H]]. specialize (H e). lia.
Qed.

Example C39_example : exists s,
  quiet sw_init [ALoad 1; AWrite; AReset; ALoad 2; AStore; AWrite; ARead; ALoad 3; AWrite] /\
  sw_run sw_init [ALoad 1; AWrite; AReset; ALoad 2; AStore; AWrite; ARead; ALoad 3; AWrite] = Some s /\
  sw_reported s = [[1; 2]] /\ unread s = [3].
Proof. eexists. split; [|split; [vm_compute; reflexivity|split; reflexivity]]. vm_compute. tauto. Qed.

(** REFUTED: the client loads the pointer, the collector swaps and reads, the client writes: the
    event is in no report, and is erased at the next swap. *)
Theorem C39_refuted : exists l s, sw_run sw_init l = Some s /\
  sw_recorded s = [1; 2] /\ sw_reported s = [[]; [2]] /\ unread s = [] /\ ~ In 1 (sw_a s ++ sw_b s).
Proof.
  exists [ALoad 1; AReset; AStore; ARead; AWrite; ALoad 2; AWrite; AReset; AStore; ARead]. eexists.
  split; [vm_compute; reflexivity|]. cbn. split; [reflexivity|]. split; [reflexivity|]. split; [reflexivity|].
  intros [H|[]]; discriminate.
Qed.

(* ------------------------------------------------------------------------------------ *)
(** * C40 Interval reports contain only that interval's events and errors *)

(** What a list of swapped statistics is the statistics of. *)
Definition swapped_ok (flog : Z -> bool * N) (ss : list (string * stats)) (parts : list (string * list sev)) : Prop :=
  Forall2 (fun c p => fst c = fst p /\ times_ok (snd p) /\ exact flog (snd c) (snd p)) ss parts.
(** The report of one interval: total and each trx. *)
Definition interval_ok (flog : Z -> bool * N) (parts : list (string * list sev)) (r : stats * list (string * stats)) : Prop :=
  exact_but_least flog (fst r) (concat (map snd parts)) /\
  (forall q, ~ gap q (map snd parts) -> is_least (ce_min (cell_of (fst r) q)) (times q (concat (map snd parts)))) /\
  forall name, In name (map fst parts) ->
    exists t, trx_get (snd r) name = Some t /\ exact_but_least flog t (concat (named name parts)) /\
      forall q, ~ gap q (named name parts) -> is_least (ce_min (cell_of t q)) (times q (concat (named name parts))).

(** Local statistics: over any number of intervals, with statistics reused, each interval's total
    and statistics of each trx are those of that interval's events only. *)
Theorem C40_local : forall flog intervals partss local,
  valid (fst local) -> (forall name t, trx_get (snd local) name = Some t -> valid t) ->
  Forall (fun parts => forall p, In p parts -> trx_get (snd local) (fst p) <> None) partss ->
  Forall2 (swapped_ok flog) intervals partss ->
  exists reports, collects local intervals = Some reports /\ Forall2 (interval_ok flog) partss reports.
Proof.
  intros flog intervals. induction intervals as [|ss rest IH]; intros partss local Hv Ht Hk HF.
  - inv HF. exists []. split; [reflexivity|constructor].
  - destruct partss as [|parts partss]; [inversion HF|].
    assert (H1 : swapped_ok flog ss parts) by (now inversion HF).
    assert (H2 : Forall2 (swapped_ok flog) rest partss) by (now inversion HF). clear HF.
    inversion Hk as [|x y Hk1 Hk2]; subst.
    assert (HF : Forall2 (okpart flog) ss parts).
    { clear -H1. induction H1 as [|c p ss ps [Ha [Hb Hc]] _ IH]; constructor; auto.
      destruct (exact_parts flog _ _ Hb Hc). split; auto. }
    destruct (collect_spec flog local ss parts Hv Ht Hk1 HF) as [total' [trx' [E [R [M [V [K T]]]]]]].
    assert (Hok : times_ok (concat (map snd parts))).
    { apply times_ok_concat. clear -H1. induction H1 as [|c p ss ps [Ha [Hb Hc]] _ IH]; cbn [map]; constructor; auto. }
    destruct (IH partss (total', trx')) as [reports [E' H']].
    + eapply srep_valid, R.
    + exact V.
    + clear -Hk2 K. induction Hk2 as [|ps pss Hps _ IH]; constructor; [intros p Hp; apply K, Hps, Hp|assumption].
    + assumption.
    + cbn [collects]. rewrite E, E'. exists ((total', trx') :: reports). split; [reflexivity|]. constructor; [|assumption].
      split; [|split].
      * now apply srep_exact.
      * intros q G. destruct (M q) as [_ M2]. specialize (M2 G). cbn [fst]. rewrite M2. apply mn_least.
      * intros name Hn. destruct (T name Hn) as [t [Et [Rt Mt]]]. exists t. split; [assumption|]. split.
        -- apply srep_exact; [|assumption].
           apply times_ok_concat. apply Forall_named. clear -H1. induction H1 as [|c p ss ps [Ha [Hb Hc]] _ IH]; constructor; auto.
        -- intros q G. destruct (Mt q) as [_ M2]. rewrite (M2 G). apply mn_least.
Qed.

(** CSV reports: all instances' statistics of this interval, nothing else. *)
Theorem C40_csv : forall flog from parts, from <> [] ->
  Forall2 (fun f p => times_ok p /\ exact flog (in_total f) p) from parts ->
  exists f t, nth_error from 0 = Some f /\
    csv_report from = Some (fold_right N.add 0%N (map in_clients from), in_interval f, t) /\
    exact_but_least flog t (concat parts).
Proof.
  intros flog from parts Hne HF.
  assert (HF' : Forall2 (fun f p => times_ok p /\ srep flog (in_total f) p /\ minexact (in_total f) p) from parts).
  { eapply Forall2_weaken'; [|exact HF]. intros f p [Ha Hb]. destruct (exact_parts flog _ _ Ha Hb). auto. }
  destruct (inst_combine_spec flog stats_new from parts Hne (srep_valid flog _ _ (proj1 (new_srep flog))) (fun _ _ _ => or_intror eq_refl) HF') as [f [t [Ef [E [R _]]]]].
  exists f, t. split; [assumption|]. split; [exact E|]. apply srep_exact; [|assumption].
  apply times_ok_concat. clear -HF. induction HF as [|f p fs ps [Ha Hb] _ IH]; constructor; auto.
Qed.

(** The combined line on stdout, whatever was printed before: counts and times are those of the
    interval; so are the errors, if every error code counted before is among those of the first
    instance. *)
Theorem C40_stdout_partial : forall flog all from parts, valid all -> (1 < length from)%nat ->
  Forall2 (fun f p => times_ok p /\ exact flog (in_total f) p) from parts ->
  exists f all' out, nth_error from 0 = Some f /\
    stdout_report all from = Some (all', Some (fold_right N.add 0%N (map in_clients from), in_interval f, out)) /\ valid all' /\
    (forall q, cell_counts flog (cell_of out q) (times q (concat parts))) /\
    ((forall k, In k (map fst (s_errs (in_total f))) \/ err_get (s_errs all) k = 0%N) -> errors_exact out (concat parts)).
Proof.
  intros flog all from parts Hv Hlen HF. unfold stdout_report. replace (1 <? length from)%nat with true by lia.
  assert (Hne : from <> []) by (intros ->; cbn in Hlen; lia).
  assert (HF' : Forall2 (fun f p => times_ok p /\ srep flog (in_total f) p /\ minexact (in_total f) p) from parts).
  { eapply Forall2_weaken'; [|exact HF]. intros f p [Ha Hb]. destruct (exact_parts flog _ _ Ha Hb). auto. }
  destruct (inst_combine_cells flog all from parts Hne Hv HF') as [f [t [Ef [E [V [C _]]]]]].
  exists f, t, t. rewrite E. split; [assumption|]. split; [reflexivity|]. split; [assumption|]. split; [assumption|].
  intros Hk. destruct (inst_combine_spec flog all from parts Hne Hv) as [f' [t' [Ef' [E' [R' _]]]]]; auto.
  - intros f0 k Ef0. rewrite Ef in Ef0. inv Ef0. apply Hk.
  - rewrite E in E'. inv E'. apply srep_exact in R'; [apply R'|].
    apply times_ok_concat. clear -HF. induction HF as [|f p fs ps [Ha Hb] _ IH]; constructor; auto.
Qed.

Definition ex_inst (host : string) (iv : N) (evs : list sev) : inst := Inst host 2 iv (ex_apply evs).
Example C40_example_csv : exists t, csv_report [ex_inst "a" 3 ex_p1; ex_inst "b" 3 ex_p2] = Some (4%N, 3%N, t) /\ ce_n (s_total t) = 3%N /\ error_count t = 1%N.
Proof. eexists. split; [vm_compute; reflexivity|]. split; reflexivity. Qed.
Example C40_example_local : exists t,
  collects (ex_apply ex_p2, [("x", ex_apply ex_p1)]) [[("x", ex_apply ex_p1)]; [("x", ex_apply [SRec READ 2])]] = Some [fst t; snd t] /\
  error_count (fst (fst t)) = 1%N /\ error_count (fst (snd t)) = 0%N /\ ce_n (s_total (fst (snd t))) = 1%N.
Proof. eexists (_, _). split; [vm_compute; reflexivity|]. repeat split; reflexivity. Qed.

(** REFUTED: an error counted by the second instance in the first interval is still in the
    combined line of the second interval, which has no error. *)
Theorem C40_refuted : exists out1 out2 c1 i1 c2 i2,
  stdout_reports stats_new [[ex_inst "a" 1 []; ex_inst "b" 1 [SErr 1213]]; [ex_inst "a" 2 []; ex_inst "b" 2 []]]
    = Some [Some (c1, i1, out1); Some (c2, i2, out2)] /\
  error_count out1 = 1%N /\ error_count out2 = 1%N.
Proof. do 6 eexists. split; [vm_compute; reflexivity|]. split; reflexivity. Qed.

(* ------------------------------------------------------------------------------------ *)
(** * C41 Each interval is reported once with at most one set of statistics per instance *)

(** If every instance delivers each interval before any delivers the next, in whatever order, then
    every interval is reported once, complete, with each instance's own statistics. *)
Theorem C41_complete_partial : forall (D : Type) n reps (d0 : D) rounds,
  (forall r, In r reps -> reporter_ok r n = true) -> rounds_from n 1 rounds ->
  exists c, c_run (coll_new n reps d0) (concat rounds) = Some (c, all_delivered 1 rounds) /\ c_buf c = [].
Proof. intros D n reps d0 rounds Hr HR. unfold coll_new. apply rounds_run; auto. Qed.

(** Statistics of an interval already reported are discarded: nothing changes, nothing is reported. *)
Theorem C41_past_discarded : forall (D : Type) n reps (d0 : D) ops c out h ival d,
  c_run (coll_new n reps d0) ops = Some (c, out) -> (ival <= N.of_nat (length out))%N ->
  c_step c (ORecv h ival d) = Some (c, []).
Proof.
  intros D n reps d0 ops c out h ival d HR Hi. cbn [c_step]. apply past_discarded.
  enough (H : forall (ops : list (cop D)) c0 c out, c_run c0 ops = Some (c, out) -> c_no c = (c_no c0 + N.of_nat (length out))%N).
  { apply H in HR. cbn [coll_new c_no] in HR. lia. }
  clear. induction ops as [|o ops IH]; intros c0 c out H; cbn [c_run] in H.
  - inv H. cbn [length]. lia.
  - destruct (c_step c0 o) as [[c1 o1]|] eqn:E1; [|discriminate]. destruct (c_run c1 ops) as [[c2 o2]|] eqn:E2; [|discriminate]. inv H.
    rewrite (IH _ _ _ E2), app_length. clear IH E2. enough (c_no c1 = c_no c0 + N.of_nat (length o1))%N by lia.
    destruct o as [d|h i d]; cbn [c_step] in E1.
    + unfold c_collect in E1. destruct (c_push _ _) as [c3|] eqn:E3; [|discriminate]. unfold c_push in E3. dmh E3; [|discriminate]. inv E3.
      destruct (c_report _ _) as [[[c4 o4] b4]|] eqn:E4; [|discriminate]. inv E1. apply report_counts in E4. cbn [c_no] in E4. tauto.
    + unfold c_recv in E1. dmh E1; [inv E1; cbn [length]; lia|]. dmh E1.
      * destruct (c_report c0 true) as [[[c4 o4] b4]|] eqn:E4; [|discriminate]. dmh E1; [|discriminate]. inv E1. apply report_counts in E4. cbn [c_no]. tauto.
      * destruct (c_push _ _) as [c3|] eqn:E3; [|discriminate]. unfold c_push in E3. dmh E3; [|discriminate]. inv E3.
        destruct (c_report _ _) as [[[c4 o4] b4]|] eqn:E4; [|discriminate]. inv E1. apply report_counts in E4. cbn [c_no] in E4. tauto.
Qed.

Example C41_example : exists c,
  c_run (coll_new 3 [RStdout; RCsv] 0) [ORecv 2 1 12; OCollect 10; ORecv 1 1 11; OCollect 20; ORecv 1 2 21; ORecv 2 1 99; ORecv 2 2 22]
  = Some (c, [[(2, 1%N, 12); (0, 1%N, 10); (1, 1%N, 11)]; [(0, 2%N, 20); (1, 2%N, 21); (2, 2%N, 22)]]).
Proof. eexists. vm_compute. reflexivity. Qed.
Example C41_example_rounds : rounds_from 3 1 [[ORecv 2 1%N 12; OCollect 10; ORecv 1 1%N 11]; [OCollect 20; ORecv 1 2%N 21; ORecv 2 2%N 22]].
Proof.
  split; [|split; [|exact I]].
  - exists 10, [11; 12]. cbn. split; [reflexivity|]. split; [lia|].
    eapply perm_trans; [apply perm_swap|]. constructor. apply perm_swap.
  - exists 20, [21; 22]. cbn. split; [reflexivity|]. split; [lia|]. apply Permutation_refl.
Qed.

(** REFUTED: if a remote instance is late by one interval, one report contains two sets of the
    local instance, the first one labelled interval 1 but with the statistics of interval 2 ... *)
Theorem C41_refuted_twice : exists c,
  c_run (coll_new 2 [RStdout] 0) [OCollect 10; OCollect 20; ORecv 1 1 11; ORecv 1 2 21; OCollect 30] =
  Some (c, [[(0, 1%N, 20); (0, 2%N, 20)]; [(1, 2%N, 21); (0, 3%N, 30)]]).
Proof. eexists. vm_compute. reflexivity. Qed.
(** ... and after a jump of interval numbers they mix and decrease. *)
Theorem C41_refuted_order : exists c,
  c_run (coll_new 2 [RStdout] 0) [OCollect 10; ORecv 1 5 51; OCollect 20; OCollect 30; OCollect 40] =
  Some (c, [[(0, 1%N, 10)]; [(1, 5%N, 51); (0, 2%N, 20)]; [(0, 3%N, 40); (0, 4%N, 40)]]).
Proof. eexists. vm_compute. reflexivity. Qed.

(* ------------------------------------------------------------------------------------ *)
(** * C42 Stopping statistics reports the final interval once, without crashing *)

(** [before]: what arrived from the remote instances for the current interval so far. *)
Definition waiting {D} (n : nat) (reps : list reporter) (no : N) (before : list (nat * N * D)) (li : N) (ld : D) : coll D :=
  Coll n reps no (map (fun x => CEntry (fst (fst x)) (snd (fst x)) (Some (snd x))) before) li ld.

(** All other instances delivered before the local one: one complete report, immediately. *)
Theorem C42_all_before : forall (D : Type) n reps no (before : list (nat * N * D)) li ld periodic recent d l,
  (periodic = false \/ recent = false) -> (forall r, In r reps -> reporter_ok r n = true) -> length before + 1 = n ->
  exists c, c_stop (waiting n reps no before li ld) periodic recent d l = Some (c, [before ++ [(0, (li + 1)%N, d)]], true).
Proof.
  intros D n reps no before li ld periodic recent d l Hp Hr Hn. eexists. apply stop_complete; auto.
  - destruct Hp as [->| ->]; [reflexivity|apply andb_false_r].
  - lia.
Qed.

(** Some instances do not deliver until the timeout: one incomplete report with what arrived. *)
Theorem C42_timeout_partial : forall (D : Type) n reps no (before : list (nat * N * D)) li ld periodic recent d l rest,
  (periodic = false \/ recent = false) -> ~ In RServer reps ->
  ~ In WTimeout l -> (forall h i x, In (WRecv h i x) l -> i = no) ->
  length before + 1 + length (arrivals l) < n ->
  exists c, c_stop (waiting n reps no before li ld) periodic recent d (l ++ WTimeout :: rest) =
    Some (c, [before ++ (0, (li + 1)%N, d) :: arrivals l], true).
Proof.
  intros D n reps no before li ld periodic recent d l rest Hp Hr Ht Hi Hn. eexists. apply stop_timeout; auto.
  - destruct Hp as [->| ->]; [reflexivity|apply andb_false_r].
  - intros r Hin. destruct r; cbn [reporter_ok]; [reflexivity|lia|contradiction].
  - intros r Hin. destruct r; cbn [reporter_ok]; [reflexivity|lia|contradiction].
  - rewrite Forall_forall. intros [[h i] x] Hin. unfold arrivals in Hin. apply in_flat_map in Hin. destruct Hin as [w [Hw Hin]].
    destruct w; cbn in Hin; try contradiction. destruct Hin as [E|[]]. inv E. cbn. eapply Hi, Hw.
Qed.

Example C42_example_all : exists c, c_stop (waiting 2 [RStdout; RCsv] 1 [(1, 1%N, 11)] 0 0) false false 10 [] =
  Some (c, [[(1, 1%N, 11); (0, 1%N, 10)]], true).
Proof. eexists. vm_compute. reflexivity. Qed.
Example C42_example_timeout : exists c, c_stop (waiting 3 [RStdout; RCsv] 1 [] 0 0) false false 10 [WPoll; WRecv 1 1 11; WPoll; WTimeout] =
  Some (c, [[(0, 1%N, 10); (1, 1%N, 11)]], true).
Proof. eexists. vm_compute. reflexivity. Qed.

(** REFUTED: whenever the last instance's statistics arrive while waiting, the wait goes on until
    the timeout; then a second, empty report is made, on which the CSV reporter crashes. *)
Theorem C42_refuted : forall (D : Type) n reps no (before : list (nat * N * D)) li ld periodic recent d l h x polls rest,
  (periodic = false \/ recent = false) -> ~ In RServer reps ->
  ~ In WTimeout l -> (forall h i x, In (WRecv h i x) l -> i = no) ->
  length before + 2 + length (arrivals l) = n -> (forall w, In w polls -> w = WPoll) ->
  (In RCsv reps -> c_stop (waiting n reps no before li ld) periodic recent d (l ++ WRecv h no x :: polls ++ WTimeout :: rest) = None) /\
  (~ In RCsv reps -> exists c,
     c_stop (waiting n reps no before li ld) periodic recent d (l ++ WRecv h no x :: polls ++ WTimeout :: rest) =
     Some (c, [before ++ (0, (li + 1)%N, d) :: arrivals l ++ [(h, no, x)]; []], true)).
Proof.
  intros D n reps no before li ld periodic recent d l h x polls rest Hp Hr Ht Hi Hn Hpo.
  assert (E := stop_during n reps no before li ld periodic recent d l h x polls rest).
  change (map rent before) with (map (fun x : nat * N * D => CEntry (fst (fst x)) (snd (fst x)) (Some (snd x))) before) in E.
  fold (waiting n reps no before li ld) in E. rewrite E; clear E; auto.
  - split.
    + intros Hc. replace (forallb _ reps) with false; [reflexivity|]. symmetry. apply not_true_iff_false. rewrite forallb_forall.
      intros H. specialize (H _ Hc). discriminate.
    + intros Hc. eexists. replace (forallb _ reps) with true; [reflexivity|]. symmetry. apply forallb_forall.
      intros r Hin. destruct r; [reflexivity|contradiction|contradiction].
  - destruct Hp as [->| ->]; [reflexivity|apply andb_false_r].
  - intros r Hin. destruct r; cbn [reporter_ok]; [reflexivity|lia|contradiction].
  - rewrite Forall_forall. intros [[h' i] y] Hin. unfold arrivals in Hin. apply in_flat_map in Hin. destruct Hin as [w [Hw Hin]].
    destruct w; cbn in Hin; try contradiction. destruct Hin as [E|[]]. inv E. cbn. eapply Hi, Hw.
  - rewrite Forall_forall. auto.
Qed.
Example C42_refuted_csv : c_stop (waiting 2 [RStdout; RCsv] 1 [] 0 0) false false 10 [WRecv 1 1 11; WPoll; WPoll; WTimeout] = None.
Proof. vm_compute. reflexivity. Qed.

(** REFUTED: with periodic statistics, what was recorded since a report less than half the
    frequency ago is never reported. *)
Theorem C42_refuted_tail : exists c c' out,
  c_run (coll_new 1 [RStdout] 0) [OCollect 10] = Some (c, [[(0, 1%N, 10)]]) /\
  c_stop c true true 7 [WPoll; WTimeout] = Some (c', out, true) /\ out = [].
Proof. do 3 eexists. split; [vm_compute; reflexivity|]. split; [vm_compute; reflexivity|]. reflexivity. Qed.

(* ------------------------------------------------------------------------------------ *)
(** * C63 Statistics of a remote instance reach the server unchanged *)

(** If each interval's statistics are sent before the next interval ends: all, once, unchanged. *)
Theorem C63_sent_partial : forall (D : Type) (ds : list D) d0,
  snd (rm_run (Remote 0 d0 []) (concat (map (fun d => [RTick d; RSend]) ds))) = number 1 ds.
Proof. intros D ds d0. apply (remote_lockstep ds (Remote 0 d0 [])). reflexivity. Qed.
Example C63_example : snd (rm_run (Remote 0 0 []) [RTick 10; RSend; RTick 20; RSend]) = [(1%N, 10); (2%N, 20)].
Proof. reflexivity. Qed.

(** REFUTED: sending is asynchronous but what is queued are pointers; a delayed interval is sent
    with the statistics of a later one (whose own are then sent twice), and after five waiting
    intervals they are dropped. *)
Theorem C63_refuted :
  snd (rm_run (Remote 0 0 []) [RTick 10; RTick 20; RSend; RSend]) = [(1%N, 20); (2%N, 20)] /\
  map fst (snd (rm_run (Remote 0 0 []) (repeat (RTick 1) 6 ++ repeat RSend 6))) = [1; 2; 3; 4; 5]%N.
Proof. split; reflexivity. Qed.

Print Assumptions C36_recorded_exact.
Print Assumptions C37_combined_partial.
Print Assumptions C37_any_order.
Print Assumptions C38_distinct_buckets_partial.
Print Assumptions C38_refuted.
Print Assumptions C39_exactly_once_partial.
Print Assumptions C39_at_most_once.
Print Assumptions C40_local.
Print Assumptions C40_csv.
Print Assumptions C40_stdout_partial.
Print Assumptions C41_complete_partial.
Print Assumptions C41_past_discarded.
Print Assumptions C42_timeout_partial.
Print Assumptions C42_refuted.
Print Assumptions C63_sent_partial.
