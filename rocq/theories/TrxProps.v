(** C06, C46, C54-C56, C70-C72: trx files. *)
From Coq Require Import Permutation.
From Verif Require Import Prelude ConfigModel ConfigSpec ConfigVarsProofs TrxModel TrxSpec TrxRowProofs TrxProofs TrxStmtProofs
  TrxCsvProofs TrxCopyProofs TrxLineProofs TrxSentProofs.
#[local] Open Scope list_scope.
#[local] Open Scope string_scope.

(** ** An environment for the examples *)
Definition E1 : env :=
  Env (fun _ => None) (fun _ => None)
      (fun s => if String.eqb s "1m" then Some 1000000%N
                else if (String.eqb s "1GB" || String.eqb s "1000000000")%bool then Some 1000000000%N else None)
      (fun s => if String.eqb s "5s" then Some 5000000000%Z else None)
      (fun _ => true) (fun f => f) (fun _ ks => ks).
(** Generators "int" are written as %d, all others as quoted strings. *)
Definition make1 (gen name : string) (ps : smap string) : option string :=
  Some (if String.eqb gen "int" then "%d" else "'%s'").
Definition T1 : tenv := TEnv E1 [("rows", "3")] make1 (fun ks => ks) (fun ks => rev ks).
Definition data1 : smap data :=
  [("d", Data "d" "int" "" []); ("d2", Data "d2" "str" "" []); ("id", Data "id" "int" "row" []);
   ("name", Data "name" "str" "" []); ("c", Data "c" "int" "client" [])].
Definition f1 : fstate := FState [] [] data1 false.
Lemma order1 ks : Permutation (te_order T1 ks) ks. Proof. reflexivity. Qed.
Lemma row_order1 ks : Permutation (te_row_order T1 ks) ks. Proof. apply Permutation_sym, Permutation_rev. Qed.

(** ** C56: placeholders *)

(** Every text is a sequence of data keys and other text: [clear] below is no restriction. *)
Theorem C56_every_text : forall s, exists l, sql l = s /\ clear l.
Proof. intros s. destruct (TrxKeyProofs.tokens_exist s) as (l & A & B). eauto. Qed.
Print Assumptions C56_every_text.

(** The part that holds: if no data key of a query is the beginning of another one, and the keys
    that several @PREV refer to have the same format, then in the query of each statement every
    data key is replaced by its own placeholder and nothing else changes; the inputs are the keys
    in order, and the explicit calls are those written.  (The statement has no CSV template or copy
    number, see C06 and C55; no data key is named @PREV.) *)
Theorem C56_placeholders_partial : forall T name w l mods f ss f' s,
  (forall ks, Permutation (te_order T ks) ks) ->
  clear l -> keys_prefix_free (key_names l) -> no_margin (sql l) -> every ws w -> ~ occurs "/*!" (sql l) ->
  statements T name (sql l ++ w) mods f = Some (ss, f') -> In s ss ->
  sget "@PREV" (f_keys f') = None ->
  (forall a b, In a (prevs "" l) -> In b (prevs "" l) -> placeholder (p_prepare s) f' a = placeholder (p_prepare s) f' b) ->
  p_query s = filled (placeholder (p_prepare s) f') "" l /\ p_inputs s = key_names l /\ p_calls s = key_calls l.
Proof. intros T name w l mods f ss f' s O. now apply plain_placeholders. Qed.
Print Assumptions C56_placeholders_partial.

(** What is sent: each key's own value, in order, written as its format says, and the other text
    unchanged, if that text has no per cent sign. *)
Theorem C56_sent_partial : forall pre post T name w l mods f ss f' s vals,
  (forall ks, Permutation (te_order T ks) ks) ->
  clear l -> keys_prefix_free (key_names l) -> no_margin (sql l) -> every ws w -> ~ occurs "/*!" (sql l) ->
  statements T name (sql l ++ w) mods f = Some (ss, f') -> In s ss -> p_prepare s = false ->
  sget "@PREV" (f_keys f') = None ->
  (forall a b, In a (prevs "" l) -> In b (prevs "" l) -> placeholder false f' a = placeholder false f' b) ->
  (forall t, In (TLit t) l -> no_percent t) ->
  (forall k, In k (key_names l) /\ k <> "@PREV" \/ In k (prevs "" l) -> prints (placeholder false f' k) (pre k) (post k)) ->
  List.length vals = List.length (p_inputs s) ->
  sprintf (p_query s) vals = Some (sent pre post "" l vals).
Proof.
  intros pre post T name w l mods f ss f' s vals O C PF M W N H I P NP AG L PR LEN.
  destruct (plain_placeholders T name O w l mods f ss f' s C PF M W N H I NP) as (Q & IN & _); [now rewrite P|].
  rewrite P in Q. rewrite Q. rewrite IN in LEN. now apply sprintf_sent.
Qed.
Print Assumptions C56_sent_partial.

Definition l1 : list tok :=
  [TLit "SELECT a FROM t WHERE id BETWEEN "; TKey "id" false; TLit " AND "; TKey "PREV" false; TLit " AND n="; TKey "name" true].
Example C56_example :
  clear l1 /\ keys_prefix_free (key_names l1) /\ no_margin (sql l1) /\ ~ occurs "/*!" (sql l1) /\
  (forall t, In (TLit t) l1 -> no_percent t) /\
  exists s f', statements T1 "t" (sql l1 ++ " ") [] f1 = Some ([s], f') /\ p_prepare s = false /\
    sget "@PREV" (f_keys f') = None /\ prevs "" l1 = ["@id"] /\
    prints (placeholder false f' "@id") "" "" /\ prints (placeholder false f' "@name") "'" "'" /\
    p_query s = "SELECT a FROM t WHERE id BETWEEN %d AND %d AND n='%s'" /\ p_inputs s = ["@id"; "@PREV"; "@name"] /\
    sprintf (p_query s) ["5"; "9"; "x"] = Some "SELECT a FROM t WHERE id BETWEEN 5 AND 9 AND n='x'".
Proof.
  split; [now apply clearb_spec|]. split; [now apply prefix_freeb_spec|]. split; [now apply no_margin_check|].
  split; [now apply no_occurs_check|].
  split; [intros t H; apply no_percent_check; cbn in H;
    repeat (destruct H as [H|H]; [first [discriminate|now injection H as <-]|]); destruct H|].
  do 2 eexists. split; [vm_compute; reflexivity|]. split; [reflexivity|]. split; [reflexivity|]. split; [reflexivity|].
  split; [exists "d"%char; cbn; auto|]. split.
  - exists "s"%char. split; [cbn; auto|]. split; [reflexivity|]. split; now apply no_percent_check.
  - repeat split; reflexivity.
Qed.

(** C56 is false if a key is the beginning of another one and comes first in map order: @d2 becomes
    the placeholder of @d and a 2. *)
Theorem C56_refuted : exists T l f s f',
  (forall ks, Permutation (te_order T ks) ks) /\ clear l /\ no_margin (sql l) /\ ~ occurs "/*!" (sql l) /\
  statements T "t" (sql l) [] f = Some ([s], f') /\
  filled (placeholder false f') "" l = "SELECT %d, '%s'" /\ p_query s = "SELECT %d, %d2".
Proof.
  exists T1, [TLit "SELECT "; TKey "d" false; TLit ", "; TKey "d2" false], f1. do 2 eexists.
  split; [apply order1|]. split; [now apply clearb_spec|]. split; [now apply no_margin_check|].
  split; [now apply no_occurs_check|]. split; [vm_compute; reflexivity|]. split; reflexivity.
Qed.
Print Assumptions C56_refuted.

(** C56 is false for two @PREV that refer to keys with different formats: the last one counts. *)
Theorem C56_refuted_prev : exists T l f s f',
  (forall ks, Permutation (te_order T ks) ks) /\ clear l /\ keys_prefix_free (key_names l) /\ no_margin (sql l) /\
  ~ occurs "/*!" (sql l) /\ statements T "t" (sql l) [] f = Some ([s], f') /\
  filled (placeholder false f') "" l = "SELECT %d, %d, '%s', '%s'" /\ p_query s = "SELECT %d, '%s', '%s', '%s'".
Proof.
  exists T1, [TLit "SELECT "; TKey "id" false; TLit ", "; TKey "PREV" false; TLit ", "; TKey "name" false; TLit ", "; TKey "PREV" false], f1.
  do 2 eexists.
  split; [apply order1|]. split; [now apply clearb_spec|]. split; [now apply prefix_freeb_spec|]. split; [now apply no_margin_check|].
  split; [now apply no_occurs_check|]. split; [vm_compute; reflexivity|]. split; reflexivity.
Qed.
Print Assumptions C56_refuted_prev.

(** C56 is false for text with a per cent sign in a query that is not prepared: the sign takes the
    value of the next key. *)
Theorem C56_refuted_percent : exists T l f s f',
  clear l /\ keys_prefix_free (key_names l) /\ statements T "t" (sql l) [] f = Some ([s], f') /\
  sql l = "SELECT a%d FROM t WHERE id=@id" /\ p_inputs s = ["@id"] /\
  sprintf (p_query s) ["7"] = Some "SELECT a7 FROM t WHERE id=%!d(MISSING)".
Proof.
  exists T1, [TLit "SELECT a%d FROM t WHERE id="; TKey "id" false], f1. do 2 eexists.
  split; [now apply clearb_spec|]. split; [now apply prefix_freeb_spec|]. split; [vm_compute; reflexivity|].
  repeat split; reflexivity.
Qed.
Print Assumptions C56_refuted_percent.

(** ** C06: CSV rows *)

(** The part that holds: if no data key is the beginning of another one, /*!csv N (COLS)*/ becomes N
    rows which are all the written row with the first occurrence of each key that has row scope or
    no scope made an explicit call and nothing else changed; the keys are then replaced by their
    placeholders. *)
Theorem C06_rows_partial : forall T name w ds n lb r0 la mods f ss f' s,
  (forall ks, Permutation (te_order T ks) ks) -> (forall ks, Permutation (te_row_order T ks) ks) ->
  let row := (TLit "(" :: r0 ++ [TLit ")"])%list in
  let text := sql lb ++ "/*!csv " ++ ds ++ " " ++ sql row ++ "*/" ++ sql la in
  decimal ds n -> (1 <= n)%N ->
  clear (lb ++ row ++ la)%list -> keys_prefix_free (key_names (lb ++ row ++ la)%list) ->
  no_margin text -> every ws w -> ~ occurs "/*!csv" (sql lb) -> ~ occurs "*/" (sql la) -> ~ occurs "/*!copy-number*/" text ->
  statements T name (text ++ w) mods f = Some (ss, f') -> In s ss ->
  sget "@PREV" (f_keys f') = None ->
  (forall a b, In a (prevs "" (lb ++ rows (N.to_nat n) row ++ la)%list) -> In b (prevs "" (lb ++ rows (N.to_nat n) row ++ la)%list) ->
     placeholder (p_prepare s) f' a = placeholder (p_prepare s) f' b) ->
  exists row', row_called (row_scoped f) row row' /\
    let l := (lb ++ rows (N.to_nat n) row' ++ la)%list in
    p_query s = filled (placeholder (p_prepare s) f') "" l /\ p_inputs s = key_names l /\ p_calls s = key_calls l.
Proof. intros T name w ds n lb r0 la mods f ss f' s O RO. now apply csv_statement. Qed.
Print Assumptions C06_rows_partial.

(** A row scoped key called once per row keeps calls and keys in step: in such a row every row
    scoped key is called exactly at its first occurrence, unless written as a call elsewhere. *)
Theorem C06_one_call : forall scoped row row' n,
  row_called scoped row row' -> scoped n -> (exists i c, nth_error row i = Some (TKey n c)) ->
  (forall i, nth_error row i <> Some (TKey n true)) ->
  exists i, nth_error row' i = Some (TKey n true) /\ forall j, nth_error row' j = Some (TKey n true) -> j = i.
Proof.
  intros scoped row row' n (L & A & B & C) S (i & c & Hi) NC.
  assert (F : exists i, first_key row i n).
  { clear -Hi. revert row c Hi. induction i as [i IH] using lt_wf_ind. intros row c Hi.
    destruct (existsb (fun j => match nth_error row j with Some (TKey m _) => String.eqb m n | _ => false end) (seq 0 i)) eqn:E.
    - apply existsb_exists in E as (j & Hj & E). apply in_seq in Hj. destruct (nth_error row j) as [[|m c']|] eqn:Ej; try discriminate.
      apply String.eqb_eq in E. subst m. apply (IH j) with (c := c'); [lia|auto].
    - exists i. split; [eauto|]. intros j c' Hj X. assert (Y : existsb (fun j => match nth_error row j with Some (TKey m _) => String.eqb m n | _ => false end) (seq 0 i) = true).
      { apply existsb_exists. exists j. split; [apply in_seq; lia|]. rewrite X. apply String.eqb_refl. }
      congruence. }
  destruct F as (k & F). pose proof F as ((ck & Hk) & Fk). exists k. split; [eapply B; eauto|].
  intros j Hj. destruct (nth_error row j) as [[t|m d]|] eqn:E.
  - apply A in E. congruence.
  - destruct (String.eqb_spec m n) as [->|NE].
    + destruct (Nat.lt_trichotomy j k) as [X|[X|X]]; auto.
      * exfalso. eapply Fk; eauto.
      * exfalso. assert (Y : ~ (first_key row j n /\ scoped n)) by (intros [[_ Y] _]; eapply Y; eauto).
        rewrite (C j n d E Y) in Hj. injection Hj as ->. now apply (NC j).
    + exfalso. assert (NS : ~ (first_key row j m /\ scoped m)).
      { intros [X Y]. rewrite (B j m d E X Y) in Hj. congruence. }
      rewrite (C j m d E NS) in Hj. congruence.
  - apply nth_error_None in E. rewrite <- L in E. apply nth_error_None in E. congruence.
Qed.
Print Assumptions C06_one_call.

Definition lb1 : list tok := [TLit "INSERT INTO t VALUES "].
Definition r1 : list tok := [TKey "id" false; TLit ", "; TKey "c" false; TLit ", "; TKey "name" false; TLit ", "; TKey "id" false].
Example C06_example :
  let row := (TLit "(" :: r1 ++ [TLit ")"])%list in
  let text := sql lb1 ++ "/*!csv " ++ "2" ++ " " ++ sql row ++ "*/" ++ sql [] in
  decimal "2" 2 /\ clear (lb1 ++ row)%list /\ keys_prefix_free (key_names (lb1 ++ row)%list) /\ no_margin text /\
  ~ occurs "/*!csv" (sql lb1) /\ ~ occurs "/*!copy-number*/" text /\
  exists s f', statements T1 "t" text [] f1 = Some ([s], f') /\ sget "@PREV" (f_keys f') = None /\
    row_scoped f1 "id" /\ row_scoped f1 "name" /\ ~ row_scoped f1 "c" /\
    p_query s = "INSERT INTO t VALUES (%d, %d, '%s', %d), (%d, %d, '%s', %d)" /\
    p_inputs s = ["@id"; "@c"; "@name"; "@id"; "@id"; "@c"; "@name"; "@id"] /\
    p_calls s = [true; false; true; false; true; false; true; false].
Proof.
  split; [apply (dec_one "2"); unfold digit, nat_of_ascii; cbn; lia|].
  split; [now apply clearb_spec|]. split; [now apply prefix_freeb_spec|]. split; [now apply no_margin_check|].
  split; [now apply no_occurs_check|]. split; [now apply no_occurs_check|].
  do 2 eexists. split; [vm_compute; reflexivity|]. split; [reflexivity|].
  split; [eexists; split; [reflexivity|cbn; auto]|]. split; [eexists; split; [reflexivity|cbn; auto]|].
  split; [intros (d & D & X); injection D as <-; cbn in X; destruct X; discriminate|].
  repeat split; reflexivity.
Qed.

(** C06 is false if a key is the beginning of another one, in whichever order the keys are visited:
    of the two row scoped keys of this template one is called in each row, the other one never, and
    the first one keeps a pair of parentheses. *)
Theorem C06_refuted : exists T f, (forall ks, Permutation (te_order T ks) ks) /\ row_scoped f "d" /\ row_scoped f "d2" /\
  forall row_order, (forall ks, Permutation (row_order ks) ks) ->
  exists s f', statements (TEnv (te_env T) (te_params T) (te_make T) (te_order T) row_order) "t"
                 "INSERT INTO t VALUES /*!csv 2 (@d2, @d)*/" [] f = Some ([s], f') /\
    p_inputs s = ["@d2"; "@d"; "@d2"; "@d"] /\ p_calls s = [true; false; true; false] /\ occurs "'%s'()" (p_query s).
Proof.
  exists (TEnv E1 [] make1 (fun ks => ks) (fun ks => ks)), f1.
  split; [reflexivity|].
  split; [eexists; split; [reflexivity|cbn; auto]|]. split; [eexists; split; [reflexivity|cbn; auto]|].
  intros ro P. specialize (P ["@d2"; "@d"]). apply Permutation_sym in P.
  assert (C : ro ["@d2"; "@d"] = ["@d2"; "@d"] \/ ro ["@d2"; "@d"] = ["@d"; "@d2"]).
  { revert P. generalize (ro ["@d2"; "@d"]). intros l P. pose proof (Permutation_length P) as L. destruct l as [|a [|b [|]]]; try discriminate L.
    apply Permutation_length_2_inv in P. destruct P as [E|E]; [left|right]; congruence. }
  set (q := "INSERT INTO t VALUES /*!csv 2 (@d2, @d)*/"). cbn [te_env te_params te_make te_order].
  set (T := TEnv E1 [] make1 (fun ks => ks) ro).
  assert (R : row_scope (ro ["@d2"; "@d"]) "(@d2, @d)" = "(@d2()(), @d)") by (destruct C as [-> | ->]; reflexivity).
  assert (X : exists f2, csv_keys (find_keys "(@d2, @d)") data1 [] = Some (["@d2"; "@d"], f2) /\
    expand_csv T q f1 = Some ("INSERT INTO t VALUES (@d2()(), @d), (@d2()(), @d)", FState [] [] f2 false)).
  { eexists. split; [reflexivity|]. unfold expand_csv.
    replace (find_csv q) with (Some ("INSERT INTO t VALUES ", "2", "(@d2, @d)", "")) by reflexivity.
    cbn [digits_value]. replace (digits_value 0 "2") with (Some 2%N) by reflexivity.
    replace (2 <? 2 ^ 31)%N with true by reflexivity. replace (trim_space "(@d2, @d)") with "(@d2, @d)" by reflexivity.
    cbn [f1 f_data]. replace (csv_keys (find_keys "(@d2, @d)") data1 []) with
      (Some (["@d2"; "@d"], snd (match csv_keys (find_keys "(@d2, @d)") data1 [] with Some x => x | None => ([], []) end))) by reflexivity.
    cbn [fst snd te_row_order T]. rewrite R. reflexivity. }
  destruct X as (f2 & F & X). vm_compute in F. injection F as <-.
  assert (Y : statements T "t" q [] f1 =
    match expand_csv T q f1 with
    | Some r => match inputs T "t" false (find_keys (fst r)) [] (snd r) [] with
                | Some (ins, g, fmts) => Some ([set_query (new_stmt "t" q) (replace_keys T fmts (strip_calls (String.length (fst r)) (fst r))) ins
                                                 (calls (find_keys (fst r)))], g)
                | None => None
                end
    | None => None end).
  { unfold statements. replace (trim_space q) with q by reflexivity. cbn [modifiers]. unfold finish.
    replace (replace_copy q 0) with q by reflexivity. replace (see_ddl (new_stmt "t" q) f1) with f1 by reflexivity.
    rewrite X. cbn [fst snd]. reflexivity. }
  rewrite X in Y. do 2 eexists. split; [rewrite Y; vm_compute; reflexivity|]. split; [reflexivity|]. split; [reflexivity|].
  exists "INSERT INTO t VALUES (", ", %d), ('%s'(), %d)". reflexivity.
Qed.
Print Assumptions C06_refuted.

(** ** C54: lines and statements *)

(** A file is accepted exactly if its modifiers can be interpolated, every statement can be parsed
    (one after another), there is a statement, and every saved column is used; its statements are
    those of the maximal runs of non-blank lines before "-- EOF", joined by spaces, with their
    modifier lines; a run of modifiers only belongs to the statement that follows. *)
Theorem C54_statements : forall T name ls keys cfg ss f',
  load_file T name ls keys cfg = Some (ss, f') <->
  Forall (fun x => exists m, modifier_of T x m) (filter modifier_line (before_eof (map trim_space ls))) /\
  parsed T name (units [] (runs [] (before_eof (map trim_space ls)))) (FState keys [] cfg false) ss f' /\
  ss <> [] /\ (forall k c, In (k, c) (f_refs f') -> c <> 0%nat).
Proof. exact load_file_units. Qed.
Print Assumptions C54_statements.

(** In particular, a file without modifiers, data keys and substitutions is its runs of lines. *)
Theorem C54_plain_file : forall T name ls keys cfg ss f',
  let us := units [] (runs [] (before_eof (map trim_space ls))) in
  Forall (fun u => snd u = [] /\ clear [TLit (fst u)] /\ ~ occurs "/*!" (fst u)) us ->
  load_file T name ls keys cfg = Some (ss, f') -> map p_query ss = map fst us.
Proof. exact plain_file. Qed.
Print Assumptions C54_plain_file.

Definition file1 : list string :=
  ["BEGIN"; ""; ""; "  SELECT a"; "    FROM t "; "  "; "COMMIT"; "-- EOF"; ""; "never"].
Example C54_example : exists ss f',
  units [] (runs [] (before_eof (map trim_space file1))) = [("BEGIN", []); ("SELECT a FROM t", []); ("COMMIT", [])] /\
  load_file T1 "t" file1 [] data1 = Some (ss, f') /\
  Forall (fun u => snd u = [] /\ clear [TLit (fst u)] /\ ~ occurs "/*!" (fst u))
         (units [] (runs [] (before_eof (map trim_space file1)))) /\
  map p_query ss = ["BEGIN"; "SELECT a FROM t"; "COMMIT"].
Proof.
  do 2 eexists. split; [reflexivity|]. split; [vm_compute; reflexivity|]. split; [|reflexivity].
  replace (units [] (runs [] (before_eof (map trim_space file1)))) with
    [("BEGIN", [] : list string); ("SELECT a FROM t", []); ("COMMIT", [])] by reflexivity.
  repeat (constructor; [split; [reflexivity|]; split; [now apply clearb_spec|now apply no_occurs_check]|]). constructor.
Qed.
Example C54_example_modifiers : exists s f',
  units [] (runs [] (map trim_space ["-- prepare"; ""; "-- rows: 5 "; "INSERT INTO t"; "-- idle: 5s"; "VALUES (@id)"])) =
    [("INSERT INTO t VALUES (@id)", ["-- prepare"; "-- rows: 5"; "-- idle: 5s"])] /\
  load_file T1 "t" ["-- prepare"; ""; "-- rows: 5 "; "INSERT INTO t"; "-- idle: 5s"; "VALUES (@id)"] [] data1 = Some ([s], f') /\
  p_query s = "INSERT INTO t VALUES (?)" /\ p_prepare s = true /\ p_limits s = [LRows 5 0] /\ p_idle s = 5000000000%Z.
Proof. do 2 eexists. split; [reflexivity|]. split; [vm_compute; reflexivity|]. repeat split; reflexivity. Qed.

(** ** C55: copies *)

(** N >= 2: the statements are those of the text written N times with the copy numbers 1 to N, with
    the other modifiers; if there is a prepare modifier and no copy number, the first one is a
    single prepared statement for all N. *)
Theorem C55_copies_partial : forall T name p ps ds n pre post w f,
  decimal ds n -> (2 <= n < 2 ^ 63)%N ->
  Forall (fun m => ~ occurs "copies" m) (pre ++ post) -> Forall (fun m => ~ occurs "save-" m) pre ->
  Forall (fun q => ~ occurs "/*!copy-number*" q) (p :: ps) -> word_ends p ->
  no_margin (between "/*!copy-number*/" (p :: ps)) -> every ws w ->
  statements T name (between "/*!copy-number*/" (p :: ps) ++ w) (pre ++ ("copies: " ++ ds)%string :: post) f =
  match written T name (fun i => between (format_uint i) (p :: ps)) (pre ++ post) 1 (N.to_nat n) f with
  | Some (s :: ss, f1) =>
      Some ((if (existsb (String.prefix "prepare") (pre ++ post) && match ps with [] => true | _ => false end)%bool
             then PStmt (p_trx s) (p_query s) (p_resultset s) (p_prepare s) n (p_begin s) (p_commit s)
                        (p_write s) (p_ddl s) (p_idle s) (p_inputs s) (p_outputs s) (p_insert s) (p_limits s) (p_calls s)
             else s) :: ss, f1)
  | _ => None
  end.
Proof.
  intros T name p ps ds n pre post w f D N NC NS P WE M W.
  etransitivity; [exact (statements_copies T name p ps ds n pre post w f D N NC NS P WE M W)|].
  assert (E : existsb (String.prefix "prepare") (pre ++ post) = existsb (has_prefix "prepare") (pre ++ post)).
  { generalize (pre ++ post)%list. induction l as [|x l IH]; [reflexivity|].
    change (String.prefix "prepare" x || existsb (String.prefix "prepare") l = has_prefix "prepare" x || existsb (has_prefix "prepare") l)%bool.
    now rewrite IH, prefix_has. }
  rewrite E. destruct (written T name _ _ _ _ _) as [[[|s ss] f2]|]; reflexivity.
Qed.
Print Assumptions C55_copies_partial.

(** N = 0: no statement (if the modifiers before "copies" are valid). *)
Theorem C55_none : forall T name q pre post f ss f',
  Forall (fun m => ~ occurs "copies" m) pre -> Forall (fun m => ~ occurs "save-" m) pre ->
  statements T name q (pre ++ "copies: 0" :: post) f = Some (ss, f') ->
  ss = [] /\ f_keys f' = f_keys f /\ f_refs f' = f_refs f.
Proof.
  intros T name q pre post f ss f' A B H. pose proof (statements_no_copies T name q pre post f "" A B) as E.
  rewrite sapp_nil in E. rewrite E in H. destruct (modifiers T name pre _ _) as [[]|]; try discriminate. injection H as <- <-. auto.
Qed.
Print Assumptions C55_none.

(** N < 0: an error. *)
Theorem C55_negative : forall T name q pre post f ds n, decimal ds n -> (1 <= n)%N ->
  Forall (fun m => ~ occurs "copies" m) pre ->
  statements T name q (pre ++ ("copies: -" ++ ds)%string :: post)%list f = None.
Proof. exact neg_copies. Qed.
Print Assumptions C55_negative.

Example C55_example : exists ss f',
  statements T1 "t" "SELECT a FROM t/*!copy-number*/ " ["rows: 5"; "copies: 3"; "prepare"] f1 = Some (ss, f') /\
  map p_query ss = ["SELECT a FROM t1"; "SELECT a FROM t2"; "SELECT a FROM t3"] /\ map p_multi ss = [0; 0; 0]%N /\
  word_ends "SELECT a FROM t" /\ no_margin (between "/*!copy-number*/" ["SELECT a FROM t"; ""]) /\
  Forall (fun q => ~ occurs "/*!copy-number*" q) ["SELECT a FROM t"; ""].
Proof.
  do 2 eexists. split; [vm_compute; reflexivity|]. split; [reflexivity|]. split; [reflexivity|]. split; [|split].
  - exists "SELECT", " "%char, "a FROM t". split; [reflexivity|]. split.
    + cbn [every]. unfold word_char, digit, letter, nat_of_ascii. cbn. repeat split; lia.
    + unfold word_char, digit, letter, nat_of_ascii. cbn. intros [?|[?|?]]; [lia|lia|discriminate].
  - now apply no_margin_check.
  - repeat (constructor; [now apply no_occurs_check|]). constructor.
Qed.
Example C55_example_multi : exists ss f',
  statements T1 "t" "SELECT a FROM t WHERE id=@id " ["copies: 3"; "prepare"] f1 = Some (ss, f') /\
  map p_query ss = ["SELECT a FROM t WHERE id=?"; "SELECT a FROM t WHERE id=?"; "SELECT a FROM t WHERE id=?"] /\
  map p_multi ss = [3; 0; 0]%N.
Proof. do 2 eexists. split; [vm_compute; reflexivity|]. split; reflexivity. Qed.
Example C55_example_none : exists f',
  statements T1 "t" "SELECT a" ["prepare"; "copies: 0"; "rows: x"] f1 = Some ([], f').
Proof. eexists. vm_compute. reflexivity. Qed.
Example C55_example_negative : statements T1 "t" "SELECT a" ["prepare"; "copies: -12"] f1 = None.
Proof. vm_compute. reflexivity. Qed.

(** C55 is false for N = 1: the copy number of the only statement is 0, not 1. *)
Theorem C55_refuted : forall T name f, exists s f',
  statements T name "SELECT a FROM t/*!copy-number*/" ["copies: 1"] f = Some ([s], f') /\ p_query s = "SELECT a FROM t0".
Proof. intros. do 2 eexists. split; [unfold statements; cbn; reflexivity|]. reflexivity. Qed.
Print Assumptions C55_refuted.

(** ** C46: listed files *)

(** The part that holds: if the names of the files are distinct, the statements under a file's name
    are those of the file; the order of the names is that of the list, and each file's generators
    are kept. *)
Theorem C46_files_partial : forall T read xs set,
  load_trx T read xs (TSet [] [] [] []) = Some set -> NoDup (map x_name xs) ->
  t_order set = map x_name xs /\
  (forall n, sget n (t_stmts set) <> None <-> In n (map x_name xs)) /\
  forall x, In x xs -> exists ls keys ss f, read (x_file x) = Some ls /\
    load_file T (x_name x) ls keys (x_data x) = Some (ss, f) /\
    sget (x_name x) (t_stmts set) = Some ss /\ sget (x_name x) (t_ddl set) = Some (f_ddl f) /\
    (forall k v, sget k (f_keys f) = Some v -> sget k (t_keys set) = Some v).
Proof.
  intros T read xs set H ND. apply load_trx_spec in H as (A & B & C & _); auto.
  split; [exact A|]. split; [|exact C]. intros n. split.
  - intros X. destruct (in_dec string_dec n (map x_name xs)) as [|Y]; auto. apply B in Y. cbn in Y. congruence.
  - intros X. apply in_map_iff in X as (x & <- & Hx). destruct (C x Hx) as (? & ? & ? & ? & _ & _ & E & _). congruence.
Qed.
Print Assumptions C46_files_partial.

Definition read1 (f : string) : option (list string) :=
  if String.eqb f "a.sql" then Some ["SELECT 1"] else if String.eqb f "b.sql" then Some ["DROP TABLE t"; ""; "SELECT @id"] else None.
Example C46_example : exists set, load_trx T1 read1 [Trx "a" "a.sql" []; Trx "b" "b.sql" data1] (TSet [] [] [] []) = Some set /\
  t_order set = ["a"; "b"] /\ option_map (map p_query) (sget "a" (t_stmts set)) = Some ["SELECT 1"] /\
  option_map (map p_query) (sget "b" (t_stmts set)) = Some ["DROP TABLE t"; "SELECT %d"] /\ sget "b" (t_ddl set) = Some true.
Proof. eexists. split; [vm_compute; reflexivity|]. repeat split; reflexivity. Qed.

(** C46 is false for two files with the same name: only the statements of the last one are left. *)
Theorem C46_refuted : exists T read xs set,
  load_trx T read xs (TSet [] [] [] []) = Some set /\ In (Trx "x" "a.sql" []) xs /\ read "a.sql" = Some ["SELECT 1"] /\
  t_order set = ["x"; "x"] /\ forall n ss s, sget n (t_stmts set) = Some ss -> In s ss -> p_query s = "SELECT 2".
Proof.
  exists T1, (fun f => if String.eqb f "a.sql" then Some ["SELECT 1"] else Some ["SELECT 2"]), [Trx "x" "a.sql" []; Trx "x" "b.sql" []].
  eexists. split; [vm_compute; reflexivity|]. split; [now left|]. split; [reflexivity|]. split; [reflexivity|].
  intros n ss s. cbn -[String.eqb]. destruct (String.eqb n "x"); [|discriminate]. intros [= <-] [<-|[]]. reflexivity.
Qed.
Print Assumptions C46_refuted.

(** ** C70: arguments of modifiers *)

(** The part that holds: a modifier without digits and dollar signs is used as written. *)
Theorem C70_literal_partial : forall T r m, no_margin r -> no_dollar r -> every (fun c => ~ digit c) r ->
  modifier_of T ("-- " ++ r) m <-> m = r.
Proof.
  intros T r m M D N. unfold modifier_of.
  assert (E : trim_space (" " ++ r) = r). { change (trim_right is_ws (trim_left is_ws r) = r). apply (trim_space_id r M). }
  assert (V : vars (te_env T) (te_params T) true r = Some r).
  { rewrite vars_true, (vars_plain _ _ r D). apply number_nodigit. exact N. }
  split.
  - intros (r' & X & Y). cbn in X. injection X as <-. change (String " " r) with (" " ++ r) in Y. rewrite E, V in Y. congruence.
  - intros ->. exists (" " ++ r). split; [reflexivity|]. now rewrite E.
Qed.
Print Assumptions C70_literal_partial.

Example C70_example : no_margin "save-columns: @id, _" /\ no_dollar "save-columns: @id, _" /\
  every (fun c => ~ digit c) "save-columns: @id, _" /\ vars E1 [] true "save-columns: @id, _" = Some "save-columns: @id, _".
Proof.
  split; [now apply no_margin_check|]. split; [unfold no_dollar; cbn [every]; repeat split; discriminate|].
  split; [unfold digit, nat_of_ascii; cbn; lia|reflexivity].
Qed.

(** C70 is false for a name with digits: the size of database db1m is limited, but the limit is on
    database db1000000. *)
Theorem C70_refuted : exists T s f',
  e_parse_bytes (te_env T) "1m" = Some 1000000%N /\
  load_file T "t" ["-- database-size: db1m 1GB"; "INSERT INTO t VALUES (1)"] [] [] = Some ([s], f') /\
  p_limits s = [LSize 1000000000 "1000000000" "db1000000" ""].
Proof. exists T1. do 2 eexists. split; [reflexivity|]. split; [vm_compute; reflexivity|]. reflexivity. Qed.
Print Assumptions C70_refuted.

(** ** C71: inputs and outputs of accepted files *)

(** Every input of every statement has a generator or is @PREV after another key, and there is a
    call flag for each; every output has a generator and, unless it is _, is an input of some
    statement of the file; the generators of other files stay the same. *)
Theorem C71_keys : forall T name ls keys cfg ss f',
  load_file T name ls keys cfg = Some (ss, f') ->
  (forall k v, sget k keys = Some v -> sget k (f_keys f') = Some v) /\
  forall s, In s ss ->
    List.length (p_calls s) = List.length (p_inputs s) /\
    (forall i k, nth_error (p_inputs s) i = Some k ->
       sget k (f_keys f') <> None \/
       (k = "@PREV" /\ exists j p, (j < i)%nat /\ nth_error (p_inputs s) j = Some p /\ p <> "@PREV" )) /\
    (forall o, In o (p_outputs s) -> sget o (f_keys f') <> None /\
       (o <> "_" -> exists s', In s' ss /\ In o (p_inputs s'))).
Proof.
  intros T name ls keys cfg ss f' H. apply load_file_ok in H as (A & B & C). split; [exact A|]. intros s Hs.
  rewrite Forall_forall in B. destruct (B s Hs) as ((O1 & _) & I & L). split; [exact L|]. split; [exact I|].
  intros o Ho. split; [rewrite Forall_forall in O1; now apply O1|]. intros N. eapply C; eauto.
Qed.
Print Assumptions C71_keys.

Example C71_example : exists ss f',
  load_file T1 "t" ["-- save-columns: @id, _"; "SELECT id, b FROM t WHERE c BETWEEN @c AND @PREV"; ""; "UPDATE t SET b=1 WHERE id=@id"] []
    [("c", Data "c" "int" "client" [])] = Some (ss, f') /\
  map p_inputs ss = [["@c"; "@PREV"]; ["@id"]] /\ map p_outputs ss = [["@id"; "_"]; []].
Proof. do 2 eexists. split; [vm_compute; reflexivity|]. split; reflexivity. Qed.

(** ** C72: kinds of statements *)

(** Whether a statement returns rows, begins or commits a transaction, writes or is DDL is decided
    by its first word, in upper or lower case; its trx is the file's name; and a file with such a
    statement is marked as having DDL. *)
Theorem C72_kind : forall T name q w mods f ss f' s,
  no_margin q -> first_word q w -> statements T name q mods f = Some (ss, f') -> In s ss ->
  p_trx s = name /\
  (p_resultset s = true <-> spells w "SELECT") /\
  (p_begin s = true <-> spells w "BEGIN" \/ spells w "START") /\
  (p_commit s = true <-> spells w "COMMIT") /\
  (p_write s = true <-> exists u, In u ["INSERT"; "UPDATE"; "DELETE"; "REPLACE"] /\ spells w u) /\
  (p_ddl s = true <-> exists u, In u ["ALTER"; "CREATE"; "DROP"; "RENAME"; "TRUNCATE"] /\ spells w u) /\
  (f_ddl f' = true <-> f_ddl f = true \/ p_ddl s = true).
Proof.
  intros T name q w mods f ss f' s M F H I. apply statements_kind in H as [A B]. rewrite trim_space_id in A, B by auto.
  rewrite Forall_forall in A. pose proof (A s I) as K. pose proof (kind_same w _ _ K (new_kind name q w F)) as (K1 & K2 & K3 & K4 & K5).
  destruct K as (T0 & _ & _ & _ & _ & D). split; [exact T0|]. split; [exact K1|]. split; [exact K2|]. split; [exact K3|].
  split; [exact K4|]. split; [exact K5|]. rewrite B, D, orb_true_iff. tauto.
Qed.
Print Assumptions C72_kind.

Example C72_example : exists s f', first_word "inSERT into t values (1)" "inSERT" /\ spells "inSERT" "INSERT" /\
  statements T1 "t" "inSERT into t values (1)" [] f1 = Some ([s], f') /\ p_write s = true /\ p_ddl s = false /\ f_ddl f' = false.
Proof.
  do 2 eexists. split; [|split; [|split; [vm_compute; reflexivity|repeat split; reflexivity]]].
  - exists " into t values (1)". split; [reflexivity|]. split.
    + cbn [every]. unfold word_char, digit, letter, nat_of_ascii. cbn. repeat split; lia.
    + cbn. unfold word_char, digit, letter, nat_of_ascii. cbn. intros [?|[?|?]]; [lia|lia|discriminate].
  - cbn. unfold letter_pair, nat_of_ascii. cbn. repeat split; auto; right; lia.
Qed.
