(** C139: the times in reports. *)
From Verif Require Import Prelude ClockModel.
#[local] Open Scope Z_scope.

(** What the columns are: the rows are numbered from 1, no interval is negative and the runtime is the total of the intervals so far. *)
Fixpoint total (l : list Z) : Z := match l with [] => 0 | x :: l' => x + total l' end.
Definition well_timed (rows : list row) : Prop :=
  forall a r b, rows = (a ++ r :: b)%list ->
    w_interval r = N.of_nat (S (length a)) /\ 0 <= w_duration r /\ w_runtime r = total (map w_duration (a ++ [r])%list).

(** Time does not go back. *)
Fixpoint in_time (t : Z) (l : list moment) : Prop :=
  match l with [] => True | (now, later) :: l' => t <= now <= later /\ in_time later l' end.
Definition last_time (t : Z) (l : list moment) : Z := fold_left (fun _ m => snd m) l t.

(** The runtime that reports account for. *)
Definition accounted (rows : list row) : Z := total (map w_duration rows).

Lemma total_app a b : total (a ++ b)%list = total a + total b.
Proof. induction a as [|x a IH]; cbn in *; lia. Qed.

(** Invariant of a clock that was started at [t0]. *)
Definition fine (t0 : Z) (c : clock) : Prop :=
  k_start c = t0 /\ k_interval c = N.of_nat (length (k_rows c)) /\ accounted (k_rows c) = k_last c - t0 /\ well_timed (k_rows c).

Lemma fine_start freq t0 : fine t0 (clock_start freq t0).
Proof. repeat split; cbn; try lia; destruct a; discriminate. Qed.

Lemma fine_collect t0 c m : fine t0 c -> k_last c <= fst m -> fine t0 (clock_collect c m).
Proof.
  destruct m as [now later]. intros (F1 & F2 & F3 & F4) L. cbn in L. unfold clock_collect, fine, accounted in *. cbn.
  rewrite app_length, map_app, total_app. cbn. split; [exact F1|]. split; [lia|]. split; [lia|].
  intros a r b E. destruct b as [|y b] using rev_ind.
  - apply app_inj_tail in E as [<- <-]. cbn. rewrite map_app, total_app. cbn. repeat split; lia.
  - clear IHb. rewrite app_comm_cons, app_assoc in E. apply app_inj_tail in E as [E _]. exact (F4 a r b E).
Qed.

Lemma fine_ticks t0 l : forall c, fine t0 c -> in_time (k_last c) l -> fine t0 (fold_left clock_collect l c).
Proof.
  induction l as [|[now later] l IH]; intros c F T; [exact F|]. cbn [fold_left]. cbn [in_time] in T. destruct T as [T1 T2].
  apply IH; [apply fine_collect; [exact F|cbn; lia]|]. cbn. destruct l as [|[n2 l2] l]; [exact I|]. cbn in *. destruct T2 as [T2 T3]. split; [lia|exact T3].
Qed.

Lemma ticks_freq l : forall c, k_freq (fold_left clock_collect l c) = k_freq c.
Proof. induction l as [|[now later] l IH]; intros c; [reflexivity|]. cbn. now rewrite IH. Qed.
Lemma ticks_last l : forall c t, in_time t l -> k_last c <= t -> (forall r, k_reported c = Some r -> k_last c <= r <= t) ->
  let c' := fold_left clock_collect l c in
  k_last c' <= last_time t l /\ (forall r, k_reported c' = Some r -> k_last c' <= r <= last_time t l).
Proof.
  induction l as [|[now later] l IH]; intros c t T L R; [split; assumption|]. cbn in *. destruct T as [T1 T2]. apply IH; [exact T2|cbn; lia|].
  cbn. intros r E. injection E as <-. lia.
Qed.

Lemma in_time_last l : forall t, in_time t l -> t <= last_time t l.
Proof. induction l as [|[n l2] l IH]; intros t T; cbn in *; [lia|]. destruct T as [T1 T2]. specialize (IH l2 T2). unfold last_time in IH. lia. Qed.

(** The clock when [Stop] is called. *)
Lemma before_stop freq t0 ticks : freq <> 0 -> in_time t0 ticks ->
  let c := clock_ticks (clock_start freq t0) ticks in
  fine t0 c /\ k_freq c = freq /\ k_last c <= last_time t0 ticks /\ (forall r, k_reported c = Some r -> k_last c <= r <= last_time t0 ticks).
Proof.
  intros NZ T. unfold clock_ticks. cbn [k_freq clock_start]. apply Z.eqb_neq in NZ. rewrite NZ.
  split; [exact (fine_ticks t0 ticks (clock_start freq t0) (fine_start freq t0) T)|]. split; [now rewrite ticks_freq|].
  apply (ticks_last ticks (clock_start freq t0) t0 T); cbn; [lia|discriminate].
Qed.

(** Whatever the times of the ticks are: the rows are numbered from 1, intervals follow each other without gap, and the runtime of a row is
    the sum of the intervals up to it. *)
Theorem C139_rows freq t0 ticks stop m :
  in_time t0 ticks -> last_time t0 ticks <= stop <= fst m -> well_timed (clock_run freq t0 ticks stop m).
Proof.
  intros T [S1 S2]. unfold clock_run, clock_stop. destruct (Z.eq_dec freq 0) as [->|NZ].
  - cbn. apply (fine_collect t0 (clock_start 0 t0) m); [apply fine_start|]. cbn. apply in_time_last in T. lia.
  - destruct (before_stop freq t0 ticks NZ T) as (F & FQ & L & _). rewrite FQ. apply Z.eqb_neq in NZ. rewrite NZ.
    destruct (match k_reported _ with Some _ => _ | None => _ end); [exact (proj2 (proj2 (proj2 F)))|].
    apply (fine_collect t0); [exact F|]. lia.
Qed.
Print Assumptions C139_rows.

(** Without frequency there is exactly one row: its interval is the whole runtime. *)
Theorem C139_once t0 ticks stop m : clock_run 0 t0 ticks stop m = [Row 1 (fst m - t0) (fst m - t0)].
Proof. destruct m. reflexivity. Qed.
Print Assumptions C139_once.

(** With frequency the rows account for the time until the ticks and, if [Stop] collects, until then.  It does so unless there was a report
    less than half the frequency ago; so less than that, and the time the last report took, is missing.  Partial: C139_refuted. *)
Theorem C139_end_partial freq t0 ticks stop m :
  0 < freq -> in_time t0 ticks -> last_time t0 ticks <= stop <= fst m ->
  let rows := clock_run freq t0 ticks stop m in
  rows <> [] /\
  (accounted rows = fst m - t0 \/
   exists tick before, ticks = (before ++ [tick])%list /\ accounted rows = fst tick - t0 /\ 2 * (stop - snd tick) < freq).
Proof.
  intros FP T [S1 S2]. unfold clock_run, clock_stop. destruct (before_stop freq t0 ticks ltac:(lia) T) as (F & FQ & L & R). rewrite FQ.
  destruct (Z.eqb_spec freq 0) as [|_]; [lia|].
  destruct (match k_reported _ with Some _ => _ | None => _ end) eqn:Q.
  - destruct ticks as [|tick before] using rev_ind; [unfold clock_ticks in Q; cbn in Q; destruct (freq =? 0); discriminate Q|]. clear IHbefore.
    unfold clock_ticks in *. cbn [k_freq clock_start] in *. destruct (Z.eqb_spec freq 0) as [|_]; [lia|].
    destruct F as (_ & _ & F & _). rewrite fold_left_app in *. cbn [fold_left] in *. destruct tick as [now later]. cbn in Q, F |- *.
    split; [now destruct (k_rows _)|]. right. exists (now, later), before. split; [reflexivity|]. split; [exact F|]. cbn.
    apply Z.ltb_lt in Q. rewrite Z.quot_div_nonneg in Q by lia. pose proof (Z.mul_div_le freq 2 ltac:(lia)). lia.
  - destruct (fine_collect t0 _ m F) as (_ & _ & X & _); [lia|]. destruct m as [now later]. cbn in *. split; [now destruct (k_rows _)|]. left. exact X.
Qed.
Print Assumptions C139_end_partial.

(** If the ticks are on time then every interval but the last has the configured length. *)
Theorem C139_frequency freq t0 ticks stop m n :
  0 < freq -> map fst ticks = map (fun k => t0 + Z.of_nat k * freq) (seq 1 n) ->
  firstn n (clock_run freq t0 ticks stop m) = map (fun k => Row (N.of_nat k) freq (Z.of_nat k * freq)) (seq 1 n).
Proof.
  intros FP E. assert (LN : length ticks = n) by (rewrite <- (map_length fst), E, map_length, seq_length; reflexivity).
  assert (G : forall (ticks : list moment) n c, map fst ticks = map (fun k => t0 + Z.of_nat k * freq) (seq 1 n) -> c = clock_start freq t0 ->
    k_rows (fold_left clock_collect ticks c) = map (fun k => Row (N.of_nat k) freq (Z.of_nat k * freq)) (seq 1 n) /\
    k_last (fold_left clock_collect ticks c) = t0 + Z.of_nat n * freq /\ k_interval (fold_left clock_collect ticks c) = N.of_nat n /\
    k_start (fold_left clock_collect ticks c) = t0).
  { clear. intros ticks. induction ticks as [|[now later] ticks IH] using rev_ind; intros n c E ->.
    - destruct n; [|discriminate E]. cbn. repeat split; lia.
    - destruct n as [|n]; [destruct ticks; discriminate E|]. rewrite seq_S, !map_app in E. apply app_inj_tail in E as [E1 E2].
      destruct (IH n _ E1 eq_refl) as (A & B & C & D). rewrite fold_left_app. revert A B C D.
      match goal with |- k_rows ?c = _ -> _ => generalize c end. intros [f st la iv rp rows] A B C D. cbn in A, B, C, D, E2. subst.
      rewrite seq_S, map_app. cbn. replace (N.of_nat n + 1)%N with (N.pos (Pos.of_succ_nat n)) by lia.
      replace (Z.pos (Pos.of_succ_nat n)) with (Z.of_nat n + 1) by lia.
      split; [f_equal; f_equal; f_equal; rewrite ?Nat2Z.inj_succ; nia|]. repeat split; rewrite ?Nat2Z.inj_succ; nia. }
  destruct (G ticks n _ E eq_refl) as (A & _). unfold clock_run, clock_stop, clock_ticks. change (k_freq (clock_start freq t0)) with freq.
  destruct (Z.eqb_spec freq 0) as [|_]; [lia|]. rewrite ticks_freq. change (k_freq (clock_start freq t0)) with freq. destruct (Z.eqb_spec freq 0) as [|_]; [lia|].
  assert (LR : length (map (fun k => Row (N.of_nat k) freq (Z.of_nat k * freq)) (seq 1 n)) = n) by now rewrite map_length, seq_length.
  destruct (match k_reported _ with Some _ => _ | None => _ end).
  - rewrite A. rewrite <- LR at 1. apply firstn_all.
  - destruct m. cbn [clock_collect k_rows]. rewrite A, firstn_app. rewrite LR, Nat.sub_diag. cbn [firstn]. rewrite app_nil_r. rewrite <- LR at 1. apply firstn_all.
Qed.
Print Assumptions C139_frequency.

(** Two ticks every five seconds, then the stage ends after 14 seconds. *)
Example C139_example :
  clock_run 5000 0 [(5000, 5001); (10000, 10002)] 14000 (14001, 14002)
  = [Row 1 5000 5000; Row 2 5000 10000; Row 3 4001 14001].
Proof. reflexivity. Qed.
Example C139_example_holds : in_time 0 [(5000, 5001); (10000, 10002)] /\ last_time 0 [(5000, 5001); (10000, 10002)] <= 14000 <= 14001.
Proof. cbn. lia. Qed.

(** C139 is false: with a runtime of 10 seconds and a report every 3 the last second is in no report. *)
Theorem C139_refuted : exists ticks m,
  in_time 0 ticks /\ last_time 0 ticks <= 10000000000 <= fst m /\
  accounted (clock_run 3000000000 0 ticks 10000000000 m) = 9000000000.
Proof.
  exists [(3000000000, 3000100000); (6000000000, 6000100000); (9000000000, 9000100000)], (10000000100, 10000000200).
  split; [cbn; lia|]. split; [cbn; lia|]. vm_compute. reflexivity.
Qed.
Print Assumptions C139_refuted.
