(** C137-C138: the reporters of stages. *)
From Coq Require Import Permutation.
From Verif Require Import Prelude ConfigModel ConfigProofs ConfigProps ReportModel MakerModel MakerSpec MakerProofs.
From Verif Require ServeModel ServeSpec ServeProps ConfigVarsProofs.
#[local] Open Scope list_scope.
#[local] Open Scope string_scope.

(** ** C137: csv files *)

(** No run changes a file that existed before: none is overwritten or appended to, whatever the stages are, whether their reporters
    can be made or not, and whatever names the csv reporters have. *)
Theorem C137_untouched path_of can_create temp given_ok reg order l fs fs' made ok p lines :
  stages_run path_of can_create temp given_ok reg order 0 l fs = (fs', made, ok) -> sget p fs = Some lines -> sget p fs' = Some lines.
Proof. exact (run_keeps path_of can_create temp given_ok reg order l 0 fs fs' made ok p lines). Qed.
Print Assumptions C137_untouched.

(** A stage whose csv file exists is refused, in whatever order its reporters are made. *)
Theorem C137_refuses path_of can_create temp given_ok reg order i cwd c opts f lines fs :
  registered reg -> (forall i m, Permutation (order i m) m) ->
  enabled c -> In ("csv", opts) (st_report (s_stats c)) -> csv_file opts f -> sget (path_of cwd f) fs = Some lines ->
  snd (start path_of can_create temp given_ok reg order i cwd c fs) = None.
Proof.
  intros RG ORD EN J F Q. unfold start. apply stats_on_enabled in EN. rewrite EN.
  refine (reporters_refuse path_of can_create temp given_ok reg RG cwd opts f lines _ fs _ F Q).
  exact (Permutation_in _ (Permutation_sym (ORD i _)) J).
Qed.
Print Assumptions C137_refuses.
Example C137_refuses_example :
  let c := Stage (Compute false "1") false "" "bench" empty_mysql 0 [] "" "" (Stats None "" [("csv", [("file", "r.csv")]); ("stdout", [])]) "" [x0] [g0] in
  start (fun _ f => f) (fun _ => true) (fun _ => None) (fun _ _ => true) registry0 (fun _ => @rev _) 0 "/" c [("r.csv", ["old"])] = ([("r.csv", ["old"])], None) /\
  snd (start (fun _ f => f) (fun _ => true) (fun _ => None) (fun _ _ => true) registry0 (fun _ => @rev _) 0 "/" c [("x.csv", ["old"])])
  = Some [Stdout (true, true) ["P999"] [Pct 999 1]; CSV "r.csv" [Pct 999 1]].
Proof. split; reflexivity. Qed.

(** Whenever the reporters of a stage are made they are exactly those that it asks for; names that are not registered and options that are
    not valid are refused. *)
Theorem C137_made path_of can_create temp given_ok reg order i cwd c fs fs1 rs :
  registered reg -> (forall i m, Permutation (order i m) m) -> enabled c ->
  start path_of can_create temp given_ok reg order i cwd c fs = (fs1, Some rs) -> serves path_of reg cwd (st_report (s_stats c)) rs.
Proof.
  intros RG ORD EN H. unfold start in H. apply stats_on_enabled in EN. rewrite EN in H.
  exists (order i (st_report (s_stats c))). split; [apply ORD|exact (reporters_made path_of can_create temp given_ok reg RG cwd _ _ _ _ H)].
Qed.
Print Assumptions C137_made.

(** If the csv files of the stages are different ones, do not exist and can be created, and the options are valid, then the reporters of
    every stage are made, in whatever order: exactly those it asks for.  After the run each csv file has the header and one line for
    each report of its stage.  Partial: two stages must not name the same file (C137_same_file). *)
Theorem C137_partial path_of can_create temp given_ok reg order l fs :
  registered reg -> (forall i m, Permutation (order i m) m) ->
  (forall cwd c texts, In (cwd, c, texts) l -> enabled c ->
     NoDup (skeys (st_report (s_stats c))) /\ forall name opts, In (name, opts) (st_report (s_stats c)) -> usable given_ok reg name opts) ->
  (forall a p opts texts, writes_to path_of l a p opts texts -> sget p fs = None /\ can_create p = true) ->
  (forall a b p o1 o2 t1 t2, writes_to path_of l a p o1 t1 -> writes_to path_of l b p o2 t2 -> a = b) ->
  (forall fs, exists p, temp fs = Some p /\ sget p fs = None /\ can_create p = true /\
     forall a opts texts, ~ writes_to path_of l a p opts texts) ->
  exists fs' made, stages_run path_of can_create temp given_ok reg order 0 l fs = (fs', made, true) /\
    Forall2 (fun x rs => let '(cwd, c, _) := x in
       (enabled c -> serves path_of reg cwd (st_report (s_stats c)) rs) /\ (~ enabled c -> rs = [])) l made /\
    (forall a p opts texts names ps, writes_to path_of l a p opts texts -> csv_columns opts names ps ->
       sget p fs' = Some (header names :: map (fun t => t ps) texts)).
Proof.
  intros RG ORD US FR UN TMP.
  assert (FW : forall p, In p (flat_map (files path_of) l) -> exists a opts texts, writes_to path_of l a p opts texts).
  { intros p Q. apply in_flat_map in Q as ([[cwd c] texts] & Q1 & Q2). apply In_nth_error in Q1 as (a & Q1).
    apply files_out in Q2 as (opts & f & Q2 & Q3 & Q4 & ->). exists a, opts, texts, cwd, c, f. auto. }
  apply (run_all path_of can_create temp given_ok reg order ORD RG (flat_map (files path_of) l)).
  - intros fs0. destruct (TMP fs0) as (p & P1 & P2 & P3 & P4). exists p. repeat split; try assumption.
    intros Q. destruct (FW p Q) as (a & opts & texts & W). exact (P4 _ _ _ W).
  - now intros q Q.
  - apply (files_nodup path_of can_create given_ok order); [|exact UN]. intros cwd c texts J EN. exact (proj1 (US _ _ _ J EN)).
  - intros p Q. destruct (FW p Q) as (a & opts & texts & W). exact (FR _ _ _ _ W).
  - exact US.
Qed.
Print Assumptions C137_partial.

(** If two stages name the same csv file, which is the case if _all.yaml names it, then the reporters of the second cannot be made. *)
Theorem C137_same_file path_of can_create temp given_ok reg order l fs fs' made ok a b p o1 o2 t1 t2 :
  registered reg -> (forall i m, Permutation (order i m) m) ->
  stages_run path_of can_create temp given_ok reg order 0 l fs = (fs', made, ok) ->
  a < b -> writes_to path_of l a p o1 t1 -> writes_to path_of l b p o2 t2 ->
  ok = false /\ length made <= b.
Proof. intros RG ORD H L A B. exact (run_twice path_of can_create temp given_ok reg order ORD RG l 0 fs fs' made ok a b p o1 o2 t1 t2 H L A B). Qed.
Print Assumptions C137_same_file.

(** A stage whose reporters cannot be made is not begun, nor is any after it. *)
Theorem C137_stops path_of can_create temp given_ok reg order l fs fs' made
  api test dir_of chdir_ok collector_ok prepare_ok cwd0 acts s es e i :
  let stages := map (fun x => snd (fst x)) l in
  stages_run path_of can_create temp given_ok reg order 0 l fs = (fs', made, false) -> agrees stages collector_ok made ->
  ServeModel.run api test stages dir_of chdir_ok collector_ok prepare_ok (ServeModel.init cwd0) acts = Some (s, es) ->
  In e es -> ServeSpec.stage_of e = Some i -> i < length made \/ (i = length made /\ exists d, e = ServeModel.EDir i d).
Proof.
  intros stages H AG R J S. destruct (run_failed _ _ _ _ _ _ _ _ _ _ _ H) as (cwd & c & texts & N & ON).
  assert (AT : nth_error stages (length made) = Some c) by (unfold stages; rewrite nth_error_map, N; reflexivity).
  assert (BAD : collector_ok c = false).
  { rewrite (AG _ _ AT (proj1 (stats_on_enabled c) ON)). apply Nat.ltb_irrefl. }
  assert (W : well (length made) (ServeModel.init cwd0)) by (split; [cbn; lia|constructor]).
  destruct (stops_run api test stages dir_of chdir_ok collector_ok prepare_ok (length made) c AT ON BAD acts _ _ _ W R) as [_ B].
  rewrite Forall_forall in B. specialize (B e J).
  destruct e; cbn in S, B; try discriminate S; injection S as ->; try (left; exact B).
  destruct (Nat.eq_dec i (length made)) as [E|E]; [right; split; [exact E|eauto]|left; lia].
Qed.
Print Assumptions C137_stops.

(** Two stages in different directories, with the same file name, and one without statistics. *)
Module ExM.
  Definition st (disable : option bool) (rep : smap (smap string)) : stage :=
    Stage (Compute false "1") false "" "bench" empty_mysql 0 [] "" "" (Stats disable "" rep) "" [x0] [g0].
  Definition rep : smap (smap string) := [("csv", [("file", "r.csv"); ("percentiles", "P95,P99")]); ("stdout", [])].
  Definition path (cwd f : string) : string := (cwd ++ "/" ++ f)%string.
  Fixpoint joined (fs : fsys) : string := match fs with [] => "" | (k, _) :: fs' => (k ++ joined fs')%string end.
  Definition temp (fs : fsys) : option string := Some (String "t" (joined fs)).
  Definition l : list (string * stage * list (list pct -> string)) :=
    [("a", st None rep, [fun _ => "1,..."; fun _ => "2,..."]); ("b", st (Some true) rep, [fun _ => "1,..."]); ("b", st None rep, [fun _ => "1,..."])].
  Definition order (i : nat) (m : smap (smap string)) : list (string * smap string) := if Nat.even i then m else rev m.
  Lemma order_perm i m : Permutation (order i m) m.
  Proof. unfold order. destruct (Nat.even i); [reflexivity|]. symmetry. apply Permutation_rev. Qed.
  Lemma joined_len k v fs : In (k, v) fs -> String.length k <= String.length (joined fs).
  Proof.
    induction fs as [|[k' v'] fs IH]; [intros []|]. cbn. rewrite ConfigVarsProofs.slen_app. intros [E|J]; [injection E as -> ->; lia|specialize (IH J); lia].
  Qed.
  Lemma temp_new fs : sget (String "t" (joined fs)) fs = None.
  Proof.
    destruct (sget (String "t" (joined fs)) fs) as [v|] eqn:E; [|reflexivity]. exfalso.
    assert (J : In (String "t" (joined fs), v) fs).
    { revert E. generalize (String "t" (joined fs)). intros k. clear. induction fs as [|[k' w] fs IH]; cbn; [discriminate|].
      destruct (String.eqb_spec k k') as [->|]; [intros E; injection E as ->; now left|right; now apply IH]. }
    apply joined_len in J. cbn in J. lia.
  Qed.
  Lemma writes a p opts texts : writes_to path l a p opts texts ->
    (a = 0 /\ p = "a/r.csv") \/ (a = 2 /\ p = "b/r.csv").
  Proof.
    intros (cwd & c & f & N & EN & J & [F _] & ->).
    destruct a as [|[|[|a]]]; cbn in N; [| | |destruct a; discriminate N]; injection N as <- <- <-.
    - cbn in J. destruct J as [J|[J|[]]]; [|discriminate J]. injection J as <-. cbn in F. injection F as <-. now left.
    - now destruct EN.
    - cbn in J. destruct J as [J|[J|[]]]; [|discriminate J]. injection J as <-. cbn in F. injection F as <-. now right.
  Qed.
End ExM.
Example C137_example : exists fs' made,
  stages_run ExM.path (fun _ => true) ExM.temp (fun _ _ => true) registry0 ExM.order 0 ExM.l [("x", ["old"])] = (fs', made, true) /\
  sget "a/r.csv" fs' = Some [header ["P95"; "P99"]; "1,..."; "2,..."] /\ sget "b/r.csv" fs' = Some [header ["P95"; "P99"]; "1,..."] /\
  sget "x" fs' = Some ["old"].
Proof.
  destruct (C137_partial ExM.path (fun _ => true) ExM.temp (fun _ _ => true) registry0 ExM.order ExM.l [("x", ["old"])]) as (fs' & made & A & B & C).
  - constructor.
  - exact ExM.order_perm.
  - assert (K : NoDup (skeys ExM.rep) /\ forall name opts, In (name, opts) ExM.rep -> usable (fun _ _ => true) registry0 name opts).
    { split; [repeat constructor; cbn; intuition discriminate|]. intros name opts [E|[E|[]]]; injection E as <- <-; do 2 eexists; reflexivity. }
    intros cwd c texts [E|[E|[E|[]]]] EN; injection E as <- <- <-; exact K.
  - intros a p opts texts W. split; [|reflexivity]. apply ExM.writes in W as [[_ ->]|[_ ->]]; reflexivity.
  - intros a b p o1 o2 t1 t2 W1 W2. apply ExM.writes in W1, W2. destruct W1 as [[-> ->]|[-> ->]], W2 as [[-> E]|[-> E]]; congruence.
  - intros fs. exists (String "t" (ExM.joined fs)). split; [reflexivity|]. split; [apply ExM.temp_new|]. split; [reflexivity|].
    intros a opts texts W. apply ExM.writes in W as [[_ E]|[_ E]]; discriminate E.
  - exists fs', made. split; [exact A|]. split; [|split].
    + apply (C 0 "a/r.csv" [("file", "r.csv"); ("percentiles", "P95,P99")] [fun _ => "1,..."; fun _ => "2,..."] ["P95"; "P99"] [Pct 95 0; Pct 99 0]); [|reflexivity].
      do 3 eexists. split; [reflexivity|]. split; [discriminate|]. split; [now left|]. split; [split; [reflexivity|discriminate]|reflexivity].
    + apply (C 2 "b/r.csv" [("file", "r.csv"); ("percentiles", "P95,P99")] [fun _ => "1,..."] ["P95"; "P99"] [Pct 95 0; Pct 99 0]); [|reflexivity].
      do 3 eexists. split; [reflexivity|]. split; [discriminate|]. split; [now left|]. split; [split; [reflexivity|discriminate]|reflexivity].
    + exact (C137_untouched _ _ _ _ _ _ _ _ _ _ _ "x" ["old"] A eq_refl).
Qed.

(** C137 is false: a csv file in _all.yaml is accepted, the first stage runs, and then the program ends with an error. *)
Definition all_csv (dir : string) : option (option base) :=
  Some (Some (Base empty_mysql [] (Stats None "" [("csv", [("file", "r.csv")])]))).
Theorem C137_refuted : exists c1 c2, load E0 all_csv [file s0; file s0] [] "" "" = Some [c1; c2] /\
  s_disable c1 = false /\ s_disable c2 = false /\
  (forall path_of can_create temp given_ok reg order cwd t1 t2 fs fs' made ok, registered reg -> (forall i m, Permutation (order i m) m) ->
     stages_run path_of can_create temp given_ok reg order 0 [(cwd, c1, t1); (cwd, c2, t2)] fs = (fs', made, ok) ->
     ok = false /\ length made <= 1) /\
  exists collector_ok acts s es made, agrees [c1; c2] collector_ok [made] /\
    ServeModel.run false false [c1; c2] (fun f => f) (fun _ => true) collector_ok (fun _ => true) (ServeModel.init "/") acts = Some (s, es) /\
    In (ServeModel.EEnd 0) es /\ In (ServeModel.EReturn true) es /\ forall c d st, ~ In (ServeModel.EPrepare 1 c d st) es.
Proof.
  eexists. eexists. split; [vm_compute; reflexivity|]. split; [reflexivity|]. split; [reflexivity|]. split.
  - intros path_of can_create temp given_ok reg order cwd t1 t2 fs fs' made ok RG ORD H.
    assert (P : forall a (c : stage) t, st_disable (s_stats c) = None -> In ("csv", [("file", "r.csv")]) (st_report (s_stats c)) ->
       forall l, nth_error l a = Some (cwd, c, t) -> writes_to path_of l a (path_of cwd "r.csv") [("file", "r.csv")] t).
    { intros a c t D J l N. exists cwd, c, "r.csv". split; [exact N|]. split; [unfold enabled; congruence|]. split; [exact J|].
      split; [split; [reflexivity|discriminate]|reflexivity]. }
    refine (C137_same_file path_of can_create temp given_ok reg order _ fs fs' made ok 0 1 (path_of cwd "r.csv") _ _ t1 t2 RG ORD H _ _ _);
      [lia|eapply P; [| |reflexivity]; [reflexivity|now left]..].
  - exists (fun c => Nat.eqb (s_n c) 1), (ServeProps.sv_local_stage 0 ++ [ServeModel.AServer false; ServeModel.AServer false])%list.
    do 3 eexists. split; [|split; [vm_compute; reflexivity|]].
    + intros [|[|a]] c N _; cbn in N; [injection N as <-; reflexivity..|destruct a; discriminate N].
    + split; [cbn; tauto|]. split; [cbn; tauto|]. intros c d st X. cbn in X. repeat destruct X as [X|X]; try discriminate X. exact X.
  Unshelve. exact [].
Qed.
Print Assumptions C137_refuted.

(** ** C138: statistics are disabled; remotes *)

(** Stages whose statistics are disabled are all run by the server, without reporters, and change no files, whatever is configured as
    reporters, even if that is not valid. *)
Theorem C138_server path_of can_create temp given_ok reg order l fs :
  (forall cwd c texts, In (cwd, c, texts) l -> st_disable (s_stats c) = Some true) ->
  stages_run path_of can_create temp given_ok reg order 0 l fs = (fs, map (fun _ => []) l, true).
Proof.
  generalize 0%nat. revert fs. induction l as [|[[cwd c] texts] l IH]; intros fs i D; [reflexivity|]. cbn [stages_run].
  unfold start, ServeModel.stats_on. rewrite (D cwd c texts (or_introl eq_refl)).
  replace (fold_left (fun fs t => report t [] fs) texts fs) with fs by (clear; induction texts; [reflexivity|exact IHtexts]).
  rewrite IH; [reflexivity|]. intros ? ? ? J. eapply D. right. exact J.
Qed.
Print Assumptions C138_server.

(** If the server could make the reporters of a stage then so can every remote: it has the stage's stdout reporter, if there is one,
    and one that sends to its server under its name for this stage, and no other.  It creates no files. *)
Theorem C138_remote path_of can_create temp given_ok reg order i cwd c fs fs1 rs0 path_of' can_create' temp' given_ok' reg' order' i' cwd' fs' addr name id :
  registered reg -> (forall i m, Permutation (order i m) m) -> registered reg' -> (forall i m, Permutation (order' i m) m) ->
  NoDup (skeys (st_report (s_stats c))) -> enabled c ->
  start path_of can_create temp given_ok reg order i cwd c fs = (fs1, Some rs0) ->
  exists rs, start_remote path_of' can_create' temp' given_ok' reg' order' i' cwd' addr name id c fs' = (fs', Some rs) /\ NoDup rs /\
    forall r, In r rs <-> r = Server addr name id \/
      exists opts names ps, In ("stdout", opts) (st_report (s_stats c)) /\ csv_columns opts names ps /\ r = Stdout (stdout_options opts) names ps.
Proof.
  intros RG ORD RG' ORD' ND EN H. apply (remote_makes path_of' can_create' temp' given_ok' reg' order' ORD' RG'); [exact ND|].
  intros opts J. unfold start in H. apply stats_on_enabled in EN. rewrite EN in H.
  refine (made_stdout path_of can_create temp given_ok reg RG cwd _ _ _ _ opts H _). exact (Permutation_in _ (Permutation_sym (ORD i _)) J).
Qed.
Print Assumptions C138_remote.

Example C138_example :
  let c := ExM.st None ExM.rep in
  start_remote ExM.path (fun _ => true) ExM.temp (fun _ _ => true) registry0 ExM.order 0 "/" "10.0.0.1" "r1" "stage-1" c []
  = ([], Some [Stdout (true, true) ["P999"] [Pct 999 1]; Server "10.0.0.1" "r1" "stage-1"]) /\
  st_report (s_stats c) = ExM.rep.
Proof. split; reflexivity. Qed.

(** C138 is false: a stage with disabled statistics is accepted; the server reports nothing, but each remote prints its statistics.  And if
    the percentiles are not valid, which the server does not find as it makes no reporters, then the remote cannot boot. *)
Theorem C138_refuted : exists c1 c2,
  load E0 no_base [file (ExM.st (Some true) []); file (ExM.st (Some true) [("stdout", [("percentiles", "P101")])])] [] "" "" = Some [c1; c2] /\
  st_disable (s_stats c1) = Some true /\ st_disable (s_stats c2) = Some true /\
  forall path_of can_create temp given_ok reg order i cwd addr name id fs, registered reg -> (forall i m, Permutation (order i m) m) ->
    (exists rs, start_remote path_of can_create temp given_ok reg order i cwd addr name id c1 fs = (fs, Some rs) /\
       In (Stdout (true, false) ["P999"] [Pct 999 1]) rs) /\
    start path_of can_create temp given_ok reg order i cwd c2 fs = (fs, Some []) /\
    snd (start_remote path_of can_create temp given_ok reg order i cwd addr name id c2 fs) = None.
Proof.
  eexists. eexists. split; [vm_compute; reflexivity|]. split; [reflexivity|]. split; [reflexivity|].
  intros path_of can_create temp given_ok reg order i cwd addr name id fs RG ORD. split; [|split; [reflexivity|]].
  - destruct (remote_makes path_of can_create temp given_ok reg order ORD RG i cwd addr name id
      (ExM.st (Some true) [("stdout", [("each-instance", "true")])]) fs) as (rs & A & _ & B).
    { repeat constructor. intros []. }
    { intros opts [E|[]]. injection E as <-. do 2 eexists. reflexivity. }
    exists rs. split; [exact A|]. apply B. right. do 3 eexists. split; [now left|]. split; [reflexivity|reflexivity].
  - unfold start_remote. cbn [s_stats st_report remote_report filter fst sset String.eqb Ascii.eqb Bool.eqb].
    match goal with |- context [order i ?m] => pose proof (ORD i m) as PM end.
    apply Permutation_sym, Permutation_length_2_inv in PM. destruct (registered_builtin _ RG) as (R1 & R2 & _).
    destruct PM as [-> | ->]; cbn [make_reporters]; rewrite ?R1, ?R2; cbn [make String.eqb Ascii.eqb Bool.eqb]; rewrite ?R1; reflexivity.
Qed.
Print Assumptions C138_refuted.
