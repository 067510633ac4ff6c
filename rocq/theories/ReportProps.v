(** Properties C80-C82: reports. *)
From Verif Require Import Prelude ConfigModel ConfigSpec GenModel ClientModel StatsModel ReportModel ReportSpec ReportProofs.
#[local] Open Scope list_scope.
#[local] Open Scope string_scope.

Lemma clients_sum {F} (rest : list (instance (F := F))) : forall n,
  fold_left N.add (map in_clients (map seen rest)) n = add_clients n rest.
Proof. induction rest as [|i rest IH]; intros n; cbn; auto. Qed.
Lemma totals_seen {F} (rest : list (instance (F := F))) : map in_total (map seen rest) = map i_total rest.
Proof. rewrite map_map. reflexivity. Qed.

Lemma names_facts s names ps : parse_percentiles s = Some (names, ps) ->
  names <> [] /\ ps <> [] /\ List.length names = List.length ps /\ Forall (lacks ",") names /\ Forall (lacks tab) names.
Proof.
  unfold parse_percentiles. destruct (String.eqb _ _).
  - intros [= <- <-]. split; [discriminate|]. split; [discriminate|]. split; [reflexivity|].
    split; repeat constructor; intros X; vm_compute in X; intuition discriminate.
  - rewrite split_comma_on. intros H. apply parse_all_some in H as [L H].
    assert (N : names <> []) by (destruct names; [|discriminate]; cbn in L; pose proof (split_on_nonempty "," s); destruct (split_on "," s); [congruence|discriminate]).
    assert (EL : List.length names = List.length ps) by (clear -H; induction H; cbn; auto).
    split; [auto|]. split; [destruct ps, names; try discriminate; congruence|]. split; [auto|].
    clear -H. split; induction H as [|n p ns ps [t [-> [R _]]] _ IH]; constructor; auto;
      apply reads_chars in R as [_ R]; (apply lacks_cons; [discriminate|]); apply (every_lacks _ _ _ R); intros X; apply pct_char_not in X;
      destruct X as [X1 [X2 [X3 X4]]]; [congruence|]; apply X1; vm_compute; auto.
Qed.

(* ------------------------------------------------------------------------------------ *)
(** * C80 A report line has exactly the header's columns, each value under its name *)

(** CSV, for every setting of percentiles, any number of instances and all statistics: a line is
    written with the interval, the duration, the runtime, the clients of all instances; for all
    queries, reads, writes and commits: the rate, the least time, one column per percentile, the
    greatest time; then the errors and the name of the compute; and the header has the same number
    of columns, named accordingly.  [t], [clients] and [interval] are what C40_csv is about.
    Partial: the name of a single compute must not contain a comma. *)
Theorem C80_csv_partial : forall (F R : Type) f1 rate (freq : N -> N -> R) ge same_int bound s names ps
    (from : list (instance (F := F))) f clients interval t,
  (forall x : F, lacks "," (f1 x) /\ lacks "P" (f1 x)) ->
  parse_percentiles s = Some (names, ps) ->
  nth_error from 0 = Some f -> (List.length from = 1%nat -> lacks "," (i_host f)) ->
  csv_report (map seen from) = Some (clients, interval, t) ->
  exists line, csv_line f1 rate freq ge same_int bound ps from = Some line /\
  let per c := ([format_int (rate (ce_n c) (i_seconds f)); format_int (ce_min c)] ++
                map format_uint (percentiles freq ge same_int bound c ps) ++ [format_int (ce_max c)])%list in
  split_on "," line =
    ([format_uint interval; f1 (i_seconds f); f1 (i_runtime f); format_uint clients] ++
     per (s_total t) ++ per (s_read t) ++ per (s_write t) ++ per (s_commit t) ++
     [format_uint (fold_left N.add (map snd (s_errs t)) 0%N);
      (if (1 <? List.length from)%nat then format_uint (N.of_nat (List.length from)) ++ " combined" else i_host f)%string])%list /\
  split_on "," (header names) =
    (["interval"; "duration"; "runtime"; "clients"] ++
     ["QPS"; "min"] ++ names ++ ["max"] ++
     ["r_QPS"; "r_min"] ++ map (fun n => "r_" ++ n)%string names ++ ["r_max"] ++
     ["w_QPS"; "w_min"] ++ map (fun n => "w_" ++ n)%string names ++ ["w_max"] ++
     ["TPS"; "c_min"] ++ map (fun n => "c_" ++ n)%string names ++ ["c_max"] ++
     ["errors"; "compute"])%list /\
  List.length (split_on "," line) = List.length (split_on "," (header names)).
Proof.
  intros F R f1 rate freq ge same_int bound s names ps from f clients interval t Hf Hs Hn Hh Hr.
  destruct (names_facts _ _ _ Hs) as [NE [PE [LE [NC _]]]].
  destruct from as [|f' rest]; [discriminate|]. injection Hn as ->.
  unfold csv_report in Hr. cbn [map inst_combine] in Hr. rewrite totals_seen, clients_sum in Hr. cbn [seen in_total in_clients in_interval] in Hr.
  destruct (combine_all (copy_stats stats_new (i_total f)) (map i_total rest)) as [t'|] eqn:Et; [|discriminate].
  injection Hr as <- <- <-.
  assert (L : exists line, csv_line f1 rate freq ge same_int bound ps (f :: rest) = Some line) by (unfold csv_line; rewrite Et; eauto).
  destruct L as [line L]. exists line. split; [exact L|]. cbv zeta.
  assert (X : split_on "," line = _) by (refine (csv_columns f1 rate freq ge same_int bound ps f rest line t' Hf PE _ Et L); intros ->; now apply Hh).
  rewrite (header_columns _ NE NC). rewrite X. split; [|split; [reflexivity|]].
  - cbn [app]. do 4 f_equal. rewrite <- !app_assoc. cbn [app cell_of]. destruct rest; reflexivity.
  - rewrite !app_length, !map_length, !percentiles_length. cbn [List.length]. lia.
Qed.

(** Standard output, for an instance (or the combination of several): the same columns. *)
Theorem C80_stdout_partial : forall (F R : Type) f1 rate comma (freq : N -> N -> R) ge same_int bound s names ps
    (i : instance (F := F)),
  (forall x : F, lacks tab (f1 x) /\ lacks "P" (f1 x) /\ lacks "%" (f1 x)) ->
  (forall z, lacks tab (comma z) /\ lacks "P" (comma z) /\ lacks "%" (comma z)) ->
  parse_percentiles s = Some (names, ps) -> lacks tab (i_host i) -> lacks "%" (i_host i) ->
  let t := i_total i in
  let per c := ([comma (rate (ce_n c) (i_seconds i)); comma (ce_min c)] ++
                map (fun n => comma (i64 (Z.of_N n))) (percentiles freq ge same_int bound c ps) ++ [comma (ce_max c)])%list in
  split_on tab (stdout_line f1 rate comma freq ge same_int bound ps i) =
    ([format_uint (i_interval i); f1 (i_seconds i); f1 (i_runtime i); format_uint (i_clients i)] ++
     per (s_total t) ++ per (s_read t) ++ per (s_write t) ++ per (s_commit t) ++
     [comma (i64 (Z.of_N (fold_left N.add (map snd (s_errs t)) 0%N))); i_host i])%list /\
  split_on tab (tabs (header names)) =
    (["interval"; "duration"; "runtime"; "clients"] ++
     ["QPS"; "min"] ++ names ++ ["max"] ++
     ["r_QPS"; "r_min"] ++ map (fun n => "r_" ++ n)%string names ++ ["r_max"] ++
     ["w_QPS"; "w_min"] ++ map (fun n => "w_" ++ n)%string names ++ ["w_max"] ++
     ["TPS"; "c_min"] ++ map (fun n => "c_" ++ n)%string names ++ ["c_max"] ++
     ["errors"; "compute"])%list.
Proof.
  intros F R f1 rate comma freq ge same_int bound s names ps i Hf Hc Hs H1 H2. cbv zeta.
  destruct (names_facts _ _ _ Hs) as [NE [PE [LE [NC NT]]]]. split.
  - rewrite (stdout_columns f1 rate comma freq ge same_int bound ps i Hf Hc PE H1 H2). cbv zeta.
    cbn [app]. do 4 f_equal. rewrite <- !app_assoc. reflexivity.
  - rewrite tabs_split by now apply header_lacks. rewrite (header_columns _ NE NC). reflexivity.
Qed.

(** The four breakdowns of an example: two reads of 5 and 7 and a write of 9. *)
Definition ex_cell (mn mx : Z) (n : N) : cell := Cell (n :: repeat 0%N 449) mn mx n.
Definition ex_stats : StatsModel.stats := StatsModel.Stats (ex_cell 5 7 2) (ex_cell 9 9 1) cell_zero (ex_cell 5 9 3) [(1062, 4)]%N.
Definition ex_inst (host : string) : instance := Instance host 8%N 1%N 2%N 60%N ex_stats.
Definition ex_csv (from : list (instance (F := N))) : option string :=
  csv_line (fun x => format_uint x ++ ".0") (fun n s => Z.of_N (n / s)) (fun n total => (n * 100 / total)%N)
    (fun f p => match p with NaN => false | Pct m k => (m <=? f * 10 ^ N.of_nat k)%N end) (fun _ _ => true) (fun i => N.of_nat (i + 10))
    [Pct 95 0; Pct 999 1] from.

Example C80_example :
  parse_percentiles "P95,P99.9" = Some (["P95"; "P99.9"], [Pct 95 0; Pct 999 1]) /\
  header ["P95"; "P99.9"] = "interval,duration,runtime,clients,QPS,min,P95,P99.9,max,r_QPS,r_min,r_P95,r_P99.9,r_max,w_QPS,w_min,w_P95,w_P99.9,w_max,TPS,c_min,c_P95,c_P99.9,c_max,errors,compute" /\
  ex_csv [ex_inst "PaP"] = Some "1,2.0,60.0,8,1,5,10,11,9,1,5,10,11,7,0,9,10,11,9,0,0,0,0,0,4,PaP" /\
  ex_csv [ex_inst "a"; ex_inst "b"] = Some "1,2.0,60.0,16,3,5,10,11,9,2,5,10,11,7,1,9,10,11,9,0,0,0,0,0,8,2 combined".
Proof. repeat split; vm_compute; reflexivity. Qed.

(** REFUTED: the name of a compute is not quoted.  With a comma in it the line has one column more
    than the header; on standard output a percent sign in it is taken for a verb. *)
Theorem C80_refuted :
  (exists line names ps, parse_percentiles "P95,P99.9" = Some (names, ps) /\ ex_csv [ex_inst "db1, east"] = Some line /\
    List.length (split_on "," line) = S (List.length (split_on "," (header names)))) /\
  (forall (F R : Type) f1 rate comma (freq : N -> N -> R) ge same_int bound ps (i : instance (F := F)), ps <> [] ->
    (forall x : F, lacks tab (f1 x) /\ lacks "P" (f1 x) /\ lacks "%" (f1 x)) ->
    (forall z, lacks tab (comma z) /\ lacks "P" (comma z) /\ lacks "%" (comma z)) ->
    i_host i = "cpu50%a" ->
    exists front, stdout_line f1 rate comma freq ge same_int bound ps i = front ++ String tab "cpu50%!a(MISSING)").
Proof.
  split.
  - do 3 eexists. split; [vm_compute; reflexivity|]. split; vm_compute; reflexivity.
  - intros F R f1 rate comma freq ge same_int bound ps i Hps Hf Hc Hh.
    exact (stdout_percent f1 rate comma freq ge same_int bound ps i Hf Hc Hps Hh).
Qed.

(* ------------------------------------------------------------------------------------ *)
(** * C81 The percentiles asked for are those reported *)

(** Whatever is accepted has as many names as values, at least one; each name is "P" and the text
    of its value, which is between 0 and 100 (or NaN). *)
Theorem C81_accepted : forall s names ps, parse_percentiles s = Some (names, ps) ->
  names <> [] /\
  (Forall2 (fun n p => exists t, n = "P" ++ t /\ reads t p /\ in_range p) names ps \/
   (TrxModel.trim_space s = "" /\ names = ["P999"] /\ ps = [Pct 999 1])).
Proof.
  intros s names ps H. split; [apply (names_facts _ _ _ H)|]. unfold parse_percentiles in H.
  destruct (String.eqb_spec (TrxModel.trim_space s) ""); [injection H as <- <-; auto|].
  left. now apply parse_all_some in H.
Qed.

(** Every list of percentiles between 0 and 100 is accepted as written. *)
Theorem C81_accepts_partial : forall ts ps, ts <> [] -> Forall2 reads ts ps -> Forall in_range ps ->
  parse_percentiles (join "," (map (fun t => "P" ++ t) ts)) = Some (map (fun t => "P" ++ t) ts, ps).
Proof. exact percentiles_accepted. Qed.

(** No list with a percentile above 100 is accepted. *)
Theorem C81_refuses : forall ts ps, Forall2 reads ts ps -> ~ Forall in_range ps ->
  parse_percentiles (join "," (map (fun t => "P" ++ t) ts)) = None.
Proof. exact percentiles_refused. Qed.

(** Exactly the texts are accepted that are, between commas, percentiles between 0 and 100 (or NaN), each after any
    number of letters P or p and with white space around; their names are "P" and the text.  A blank text is P99.9. *)
Theorem C81_exactly : forall s,
  (every TrxSpec.ws s -> parse_percentiles s = Some (["P999"], [Pct 999 1])) /\
  (~ every TrxSpec.ws s -> forall names ps, parse_percentiles s = Some (names, ps) <->
     exists ts, Forall2 written (split_on "," s) ts /\ Forall2 reads ts ps /\ Forall in_range ps /\
       names = map (fun t => "P" ++ t) ts).
Proof. intros s. split; [apply percentiles_default|]. intros N names ps. now apply percentiles_exactly. Qed.

Example C81_example :
  Forall2 reads ["95"; "99.9"] [Pct 95 0; Pct 999 1] /\
  Forall2 written (split_on "," " p95, P99.9 ") ["95"; "99.9"] /\
  parse_percentiles " p95, P99.9 " = Some (["P95"; "P99.9"], [Pct 95 0; Pct 999 1]) /\
  parse_percentiles "" = Some (["P999"], [Pct 999 1]) /\ parse_percentiles "PNaN" = Some (["PNaN"], [NaN]) /\
  parse_percentiles "P95,fast" = None.
Proof.
  split; [|split; [|repeat split; vm_compute; reflexivity]].
  2: { cbn. constructor; [exists " ", "p", ""|constructor; [exists " ", "P", " "|constructor]]; cbn; unfold TrxSpec.ws; cbn; intuition. }
  constructor; [apply (reads_int "95")|constructor; [apply (reads_point "99" "9")|constructor]]; try discriminate; vm_compute; repeat split; lia.
Qed.

(** REFUTED: the values documented for the option, among them its documented default, are refused. *)
Theorem C81_refuted : parse_percentiles "P999" = None /\ parse_percentiles "P95,P99,P999" = None.
Proof. split; vm_compute; reflexivity. Qed.

(* ------------------------------------------------------------------------------------ *)
(** * C82 With several instances the combined statistics are printed *)

(** With the option combined set to true, yes, on or aye in any case the last line is that of all
    instances: their number, the sum of their clients, their combined statistics [t] (see
    C40_stdout_partial); before it the lines of the instances if the option each-instance is set
    likewise. *)
Theorem C82_combined_partial : forall (F R : Type) f1 rate comma (freq : N -> N -> R) ge same_int bound opts names ps all
    (from : list (instance (F := F))) v each f clients interval t,
  sget "combined" opts = Some v -> In (to_lower v) ["true"; "yes"; "on"; "aye"] ->
  (each = true <-> exists w, sget "each-instance" opts = Some w /\ In (to_lower w) ["true"; "yes"; "on"; "aye"]) ->
  (1 < List.length from)%nat -> nth_error from 0 = Some f ->
  inst_combine all (map seen from) = Some (clients, interval, t) ->
  let line := stdout_line f1 rate comma freq ge same_int bound ps in
  stdout_lines f1 rate comma freq ge same_int bound opts names ps all from =
    Some ([tabs (header names)] ++ (if each then map line from else []) ++
          [line (Instance ("(" ++ format_uint (N.of_nat (List.length from)) ++ " combined)")%string clients interval (i_seconds f) (i_runtime f) t)], t)%list.
Proof.
  intros F R f1 rate comma freq ge same_int bound opts names ps all from v each f clients interval t Hv Hw He Hn Hf Hi. cbv zeta.
  assert (B : forall w, bool_of w = true <-> In (to_lower w) ["true"; "yes"; "on"; "aye"]).
  { intros w. unfold bool_of. rewrite !orb_true_iff, !String.eqb_eq. cbn [In]. intuition auto. }
  unfold stdout_lines, stdout_options, opt. rewrite Hv. apply B in Hw. rewrite Hw.
  assert (E : (match sget "each-instance" opts with Some w => bool_of w | None => bool_of "" end) = each).
  { destruct each.
    - destruct He as [He _]. destruct (He eq_refl) as [w [-> Hw']]. now apply B.
    - destruct (sget "each-instance" opts) as [w|] eqn:E; [|reflexivity].
      destruct (bool_of w) eqn:Bw; auto. apply B in Bw. symmetry. apply He. eauto. }
  assert (E' : (match sget "each-instance" opts with Some _ | _ => (bool_of match sget "each-instance" opts with Some w => w | None => "" end, true) end) = (each, true)).
  { rewrite <- E. destruct (sget "each-instance" opts); reflexivity. }
  replace (match sget "each-instance" opts with Some _ => (bool_of match sget "each-instance" opts with Some w => w | None => "" end, true) | None => (bool_of match sget "each-instance" opts with Some w => w | None => "" end, true) end) with (each, true) by (symmetry; exact E').
  assert (T : (1 <? List.length from)%nat = true) by now apply Nat.ltb_lt. rewrite T. cbn [andb].
  destruct from as [|f' rest]; [discriminate|]. injection Hf as ->.
  cbn [map inst_combine] in Hi. rewrite totals_seen, clients_sum in Hi. cbn [seen in_total in_clients in_interval] in Hi.
  unfold combined_instance. destruct (combine_all (copy_stats all (i_total f)) (map i_total rest)) as [t'|]; [|discriminate].
  injection Hi as <- <- <-. destruct each; reflexivity.
Qed.

(** Without both options all instances are printed, then their combination. *)
Theorem C82_neither_partial : forall (F R : Type) f1 rate comma (freq : N -> N -> R) ge same_int bound opts names ps all
    (from : list (instance (F := F))) f clients interval t,
  sget "combined" opts = None -> sget "each-instance" opts = None ->
  (1 < List.length from)%nat -> nth_error from 0 = Some f ->
  inst_combine all (map seen from) = Some (clients, interval, t) ->
  let line := stdout_line f1 rate comma freq ge same_int bound ps in
  stdout_lines f1 rate comma freq ge same_int bound opts names ps all from =
    Some ([tabs (header names)] ++ map line from ++
          [line (Instance ("(" ++ format_uint (N.of_nat (List.length from)) ++ " combined)")%string clients interval (i_seconds f) (i_runtime f) t)], t)%list.
Proof.
  intros F R f1 rate comma freq ge same_int bound opts names ps all from f clients interval t H1 H2 Hn Hf Hi. cbv zeta.
  unfold stdout_lines, stdout_options. rewrite H1, H2.
  assert (T : (1 <? List.length from)%nat = true) by now apply Nat.ltb_lt. rewrite T. cbn [andb].
  destruct from as [|f' rest]; [discriminate|]. injection Hf as ->.
  cbn [map inst_combine] in Hi. rewrite totals_seen, clients_sum in Hi. cbn [seen in_total in_clients in_interval] in Hi.
  unfold combined_instance. destruct (combine_all (copy_stats all (i_total f)) (map i_total rest)) as [t'|]; [|discriminate].
  injection Hi as <- <- <-. reflexivity.
Qed.

Definition ex_stdout (opts : smap string) (from : list (instance (F := N))) : option (list string) :=
  option_map (fun r => map (fun l => last (split_on tab l) "") (fst r)) (stdout_lines (fun x => format_uint x ++ ".0") (fun n s => Z.of_N (n / s)) format_int (fun n total => (n * 100 / total)%N)
    (fun f p => match p with NaN => false | Pct m k => (m <=? f * 10 ^ N.of_nat k)%N end) (fun _ _ => true) (fun i => N.of_nat (i + 10)) opts ["P99.9"]
    [Pct 999 1] stats_new from).

Example C82_example :
  ex_stdout [("combined", "Yes")] [ex_inst "a"; ex_inst "b"] = Some ["compute"; "(2 combined)"] /\
  ex_stdout [("combined", "on"); ("each-instance", "TRUE")] [ex_inst "a"; ex_inst "b"] = Some ["compute"; "a"; "b"; "(2 combined)"] /\
  ex_stdout [("percentiles", "P99.9")] [ex_inst "a"; ex_inst "b"] = Some ["compute"; "a"; "b"; "(2 combined)"].
Proof. repeat split; vm_compute; reflexivity. Qed.

(** REFUTED: without a configuration of reports, validation sets one option of the report to standard
    output, each-instance, which switches the other off: for any number of instances only their own
    lines are printed. *)
Theorem C82_refuted : forall (F R : Type) f1 rate comma (freq : N -> N -> R) ge same_int bound names ps all
    (from : list (instance (F := F))) E c c', st_report c = [] -> check_stats E c = Some c' ->
  exists opts, st_report c' = [("stdout", opts)] /\
    stdout_lines f1 rate comma freq ge same_int bound opts names ps all from =
      Some (tabs (header names) :: map (stdout_line f1 rate comma freq ge same_int bound ps) from, all).
Proof.
  intros F R f1 rate comma freq ge same_int bound names ps all from E c c' Hr Hc. exists [("each-instance", "true")].
  split; [|reflexivity]. unfold check_stats in Hc. rewrite Hr in Hc.
  destruct (st_freq c); [injection Hc as <-; reflexivity|]. destruct (valid_freq _ _); [injection Hc as <-; reflexivity|discriminate].
Qed.

Example C82_refuted_example : forall E,
  check_stats E (ConfigModel.Stats None "" []) = Some (ConfigModel.Stats None "0s" [("stdout", [("each-instance", "true")])]) /\
  ex_stdout [("each-instance", "true")] [ex_inst "a"; ex_inst "b"] = Some ["compute"; "a"; "b"].
Proof. intros E. split; [reflexivity|vm_compute; reflexivity]. Qed.

Print Assumptions C80_csv_partial.
Print Assumptions C80_stdout_partial.
Print Assumptions C80_refuted.
Print Assumptions C81_accepted.
Print Assumptions C81_accepts_partial.
Print Assumptions C81_refuses.
Print Assumptions C81_exactly.
Print Assumptions C81_refuted.
Print Assumptions C82_combined_partial.
Print Assumptions C82_neither_partial.
Print Assumptions C82_refuted.
