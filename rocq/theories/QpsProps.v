(** C140: QPS and TPS in reports. *)
From Coq Require Import Permutation.
From Verif Require Import Prelude ConfigModel ClientModel StatsModel ReportModel ReportSpec ReportProofs ReportProps GapsModel QpsModel QpsProofs.
#[local] Open Scope list_scope.
#[local] Open Scope string_scope.

(** [q] is the number of whole queries per second if [n] are executed in [d] nanoseconds: at most the exact rate and less than one below
    it, up to a 2^51st of the rate. *)
Definition per_second (q : Z) (n : N) (d : Z) : Prop :=
  let x := (Z.of_N n * 1000000000)%Z in
  (0 <= q /\ q * d * 2 ^ 51 <= x * (2 ^ 51 + 1) /\ x * (2 ^ 51 - 1) < (q + 1) * d * 2 ^ 51)%Z.
(** Fewer than 2^51 queries, less than 2^48 of them per second, in at most 2^62 nanoseconds. *)
Definition feasible (n : N) (d : Z) : Prop := (0 < d <= 2 ^ 62 /\ Z.of_N n <= 2 ^ 51 /\ Z.of_N n * 1000000000 <= 2 ^ 48 * d)%Z.

(** The printed rate is the number of queries by the length of the interval. *)
Theorem C140_rate n d : feasible n d -> per_second (rate n (seconds d)) n d.
Proof. intros (H & N1 & N2). exact (rate_bounds n d H N1 N2). Qed.
Print Assumptions C140_rate.

(** For intervals of whole seconds it is exact. *)
Theorem C140_whole n s : (0 < s <= 2 ^ 32)%Z -> (Z.of_N n <= 2 ^ 50)%Z -> rate n (seconds (s * 1000000000)) = (Z.of_N n / s)%Z.
Proof. exact (rate_whole n s). Qed.
Print Assumptions C140_whole.

(** The columns of the four kinds of queries and their positions, with [k] percentiles. *)
Definition rates (t : stats) (k : nat) : list (nat * string * cell) :=
  [(4, "QPS", s_total t); (7 + k, "r_QPS", s_read t); (10 + 2 * k, "w_QPS", s_write t); (13 + 3 * k, "TPS", s_commit t)]%nat.

Lemma skip {A} (l : list A) i j : (List.length l = i)%nat -> forall m, nth_error (l ++ m) (i + j) = nth_error m j.
Proof. intros <- m. rewrite nth_error_app2 by lia. f_equal. lia. Qed.

(** In a csv report the columns QPS, r_QPS, w_QPS and TPS are the rates of all queries, reads, writes and commits.  [t] is what C40_csv is
    about: the statistics of all instances.  Partial: the interval is that of the first instance; see C140_refuted. *)
Theorem C140_csv_partial (R : Type) f1 (freq : N -> N -> R) ge same_int bound s names ps (from : list (instance (F := f64))) f clients interval t d :
  (forall x, lacks "," (f1 x) /\ lacks "P" (f1 x)) -> parse_percentiles s = Some (names, ps) ->
  nth_error from 0 = Some f -> (List.length from = 1%nat -> lacks "," (i_host f)) ->
  csv_report (map seen from) = Some (clients, interval, t) ->
  i_seconds f = seconds d -> (forall c, In c [s_total t; s_read t; s_write t; s_commit t] -> feasible (ce_n c) d) ->
  exists line, csv_line f1 rate freq ge same_int bound ps from = Some line /\
    forall i name c, In (i, name, c) (rates t (List.length ps)) ->
      nth_error (split_on "," (header names)) i = Some name /\
      exists q, nth_error (split_on "," line) i = Some (format_int q) /\ per_second q (ce_n c) d.
Proof.
  intros Hf Hs Hn Hh Hr Hd Hc. destruct (names_facts _ _ _ Hs) as (_ & _ & LE & _).
  destruct (C80_csv_partial _ R f1 rate freq ge same_int bound s names ps from f clients interval t Hf Hs Hn Hh Hr) as (line & L & S & H & _).
  exists line. split; [exact L|]. cbv zeta in S. rewrite S, H, Hd. clear S H L. intros i name c I.
  assert (P : forall c, In c [s_total t; s_read t; s_write t; s_commit t] -> per_second (rate (ce_n c) (seconds d)) (ce_n c) d).
  { intros x X. apply C140_rate. exact (Hc x X). }
  assert (LP : forall c, List.length (percentiles freq ge same_int bound c ps) = List.length ps) by (intros; apply percentiles_length).
  revert I. unfold rates. rewrite <- !app_assoc. cbn [app].
  intros [I|[I|[I|[I|[]]]]]; injection I as <- <- <-.
  - split; [reflexivity|]. exists (rate (ce_n (s_total t)) (seconds d)). split; [reflexivity|apply P; cbn; tauto].
  - match goal with |- nth_error _ ?i = _ /\ _ => replace i with (S (S (S (S (S (S (List.length ps + 1))))))) by (cbn; lia) end. cbn [nth_error]. split.
    + rewrite skip by (now rewrite LE). reflexivity.
    + exists (rate (ce_n (s_read t)) (seconds d)). split; [|apply P; cbn; tauto]. rewrite skip by (now rewrite map_length, LP). reflexivity.
  - match goal with |- nth_error _ ?i = _ /\ _ => replace i with (S (S (S (S (S (S (List.length ps + S (S (S (List.length ps + 1)))))))))) by (cbn; lia) end. cbn [nth_error]. split.
    + rewrite skip by (now rewrite LE). cbn [nth_error]. rewrite skip by (now rewrite map_length, LE). reflexivity.
    + exists (rate (ce_n (s_write t)) (seconds d)). split; [|apply P; cbn; tauto].
      rewrite skip by (now rewrite map_length, LP). cbn [nth_error]. rewrite skip by (now rewrite map_length, LP). reflexivity.
  - match goal with |- nth_error _ ?i = _ /\ _ => replace i with (S (S (S (S (S (S (List.length ps + S (S (S (List.length ps + S (S (S (List.length ps + 1))))))))))))) by (cbn; lia) end. cbn [nth_error]. split.
    + rewrite skip by (now rewrite LE). cbn [nth_error]. rewrite skip by (now rewrite map_length, LE). cbn [nth_error]. rewrite skip by (now rewrite map_length, LE). reflexivity.
    + exists (rate (ce_n (s_commit t)) (seconds d)). split; [|apply P; cbn; tauto].
      rewrite skip by (now rewrite map_length, LP). cbn [nth_error]. rewrite skip by (now rewrite map_length, LP). cbn [nth_error]. rewrite skip by (now rewrite map_length, LP). reflexivity.
Qed.
Print Assumptions C140_csv_partial.

(** On standard output, for each instance and all together, as C82_combined_partial says which. *)
Theorem C140_stdout_partial (R : Type) f1 comma (freq : N -> N -> R) ge same_int bound s names ps (x : instance (F := f64)) d :
  (forall y, lacks tab (f1 y) /\ lacks "P" (f1 y) /\ lacks "%" (f1 y)) ->
  (forall z, lacks tab (comma z) /\ lacks "P" (comma z) /\ lacks "%" (comma z)) ->
  parse_percentiles s = Some (names, ps) -> lacks tab (i_host x) -> lacks "%" (i_host x) ->
  i_seconds x = seconds d ->
  let t := i_total x in (forall c, In c [s_total t; s_read t; s_write t; s_commit t] -> feasible (ce_n c) d) ->
  forall i name c, In (i, name, c) (rates t (List.length ps)) ->
    nth_error (split_on tab (tabs (header names))) i = Some name /\
    exists q, nth_error (split_on tab (stdout_line f1 rate comma freq ge same_int bound ps x)) i = Some (comma q) /\ per_second q (ce_n c) d.
Proof.
  intros Hf Hm Hs H1 H2 Hd t Hc i name c I. destruct (names_facts _ _ _ Hs) as (_ & _ & LE & _).
  destruct (C80_stdout_partial _ R f1 rate comma freq ge same_int bound s names ps x Hf Hm Hs H1 H2) as [S H].
  cbv zeta in S. rewrite S, H, Hd. fold t. clear S H.
  assert (P : forall c, In c [s_total t; s_read t; s_write t; s_commit t] -> per_second (rate (ce_n c) (seconds d)) (ce_n c) d).
  { intros y X. apply C140_rate. exact (Hc y X). }
  assert (LP : forall c, List.length (percentiles freq ge same_int bound c ps) = List.length ps) by (intros; apply percentiles_length).
  revert I. unfold rates. rewrite <- !app_assoc. cbn [app].
  intros [I|[I|[I|[I|[]]]]]; injection I as <- <- <-.
  - split; [reflexivity|]. exists (rate (ce_n (s_total t)) (seconds d)). split; [reflexivity|apply P; cbn; tauto].
  - match goal with |- nth_error _ ?i = _ /\ _ => replace i with (S (S (S (S (S (S (List.length ps + 1))))))) by (cbn; lia) end. cbn [nth_error]. split.
    + rewrite skip by (now rewrite LE). reflexivity.
    + exists (rate (ce_n (s_read t)) (seconds d)). split; [|apply P; cbn; tauto]. rewrite skip by (now rewrite map_length, LP). reflexivity.
  - match goal with |- nth_error _ ?i = _ /\ _ => replace i with (S (S (S (S (S (S (List.length ps + S (S (S (List.length ps + 1)))))))))) by (cbn; lia) end. cbn [nth_error]. split.
    + rewrite skip by (now rewrite LE). cbn [nth_error]. rewrite skip by (now rewrite map_length, LE). reflexivity.
    + exists (rate (ce_n (s_write t)) (seconds d)). split; [|apply P; cbn; tauto].
      rewrite skip by (now rewrite map_length, LP). cbn [nth_error]. rewrite skip by (now rewrite map_length, LP). reflexivity.
  - match goal with |- nth_error _ ?i = _ /\ _ => replace i with (S (S (S (S (S (S (List.length ps + S (S (S (List.length ps + S (S (S (List.length ps + 1))))))))))))) by (cbn; lia) end. cbn [nth_error]. split.
    + rewrite skip by (now rewrite LE). cbn [nth_error]. rewrite skip by (now rewrite map_length, LE). cbn [nth_error]. rewrite skip by (now rewrite map_length, LE). reflexivity.
    + exists (rate (ce_n (s_commit t)) (seconds d)). split; [|apply P; cbn; tauto].
      rewrite skip by (now rewrite map_length, LP). cbn [nth_error]. rewrite skip by (now rewrite map_length, LP). cbn [nth_error]. rewrite skip by (now rewrite map_length, LP). reflexivity.
Qed.
Print Assumptions C140_stdout_partial.

(** ** Examples *)
Definition ex_f1 (x : f64) : string := format_int (to_int x) ++ ".0".
Definition ex_reads (n : N) : StatsModel.stats := StatsModel.Stats (ex_cell 5 9 n) cell_zero cell_zero (ex_cell 5 9 n) [].
(** An instance that executed [n] reads in [d] nanoseconds. *)
Definition ex_rate (host : string) (n : N) (d : Z) : instance (F := f64) := Instance host 1%N 1%N (seconds d) (seconds d) (ex_reads n).
Definition ex_line (from : list (instance (F := f64))) : option string :=
  csv_line ex_f1 rate (fun n total => (n * 100 / total)%N)
    (fun f p => match p with NaN => false | Pct m k => (m <=? f * 10 ^ N.of_nat k)%N end) (fun _ _ => true) (fun i => N.of_nat (i + 10))
    [Pct 95 0] from.
(** 4999 reads in 5.0001 seconds. *)
Example C140_example : ex_line [ex_rate "a" 4999 5000100000] = Some "1,5.0,5.0,1,999,5,10,9,999,5,10,9,0,0,0,0,0,0,0,0,0,a".
Proof. vm_compute. reflexivity. Qed.
Example C140_example_feasible : feasible 4999 5000100000 /\ per_second 999 4999 5000100000.
Proof. vm_compute. intuition discriminate. Qed.
Example C140_example_csv :
  (forall x, lacks "," (ex_f1 x) /\ lacks "P" (ex_f1 x)) /\ parse_percentiles "95" = Some (["P95"], [Pct 95 0]) /\
  csv_report (map seen [ex_rate "a" 4999 5000100000]) = Some (1%N, 1%N, ex_reads 4999) /\
  Forall (fun c => feasible (ce_n c) 5000100000) [s_total (ex_reads 4999); s_read (ex_reads 4999); s_write (ex_reads 4999); s_commit (ex_reads 4999)].
Proof.
  split; [|split; [vm_compute; reflexivity|split; [vm_compute; reflexivity|]]].
  - intros x. unfold ex_f1. split; (apply lacks_app; [apply int_lacks; cbn; lia|vm_compute; intuition discriminate]).
  - repeat constructor; vm_compute; discriminate.
Qed.
Example C140_example_whole : rate 4999 (seconds (5 * 1000000000)) = 999%Z.
Proof. vm_compute. reflexivity. Qed.

(** C140 is false for several instances whose intervals have different lengths: 100 queries in one second and 1000 queries in ten, so 100
    per second on each, are reported as 1100 or as 110 per second, depending on whose statistics came first. *)
Theorem C140_refuted :
  let a := ex_rate "a" 100 1000000000 in let b := ex_rate "b" 1000 10000000000 in
  rate 100 (i_seconds a) = 100%Z /\ rate 1000 (i_seconds b) = 100%Z /\
  option_map (fun l => nth_error (split_on "," l) 4) (ex_line [a; b]) = Some (Some "1100") /\
  option_map (fun l => nth_error (split_on "," l) 4) (ex_line [b; a]) = Some (Some "110").
Proof. vm_compute. repeat split. Qed.
Print Assumptions C140_refuted.
