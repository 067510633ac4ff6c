(** Proofs about MakerModel.v. *)
From Coq Require Import Permutation.
From Verif Require Import Prelude ConfigModel ConfigProofs ReportModel MakerModel MakerSpec.
From Verif Require ServeModel.
#[local] Open Scope list_scope.
#[local] Open Scope string_scope.

Lemma registered_builtin reg : registered reg ->
  sget "stdout" reg = Some Builtin /\ sget "server" reg = Some Builtin /\ sget "csv" reg = Some Builtin.
Proof.
  induction 1 as [|name i reg reg' R IH E]; [repeat split|]. unfold register in E.
  destruct (sget name reg) eqn:N; [discriminate E|]. injection E as <-. destruct IH as (A & B & C).
  rewrite !sget_sset.
  repeat match goal with |- context [String.eqb ?a name] => destruct (String.eqb_spec a name) as [<-|]; [congruence|] end. auto.
Qed.

Lemma stats_on_enabled c : ServeModel.stats_on c = true <-> enabled c.
Proof. unfold ServeModel.stats_on, enabled. destruct (st_disable (s_stats c)) as [[|]|]; split; congruence. Qed.
Lemma stats_off c : ServeModel.stats_on c = false <-> ~ enabled c.
Proof. rewrite <- stats_on_enabled. destruct (ServeModel.stats_on c); split; congruence. Qed.

Definition csvs (rs : list reporter) : list reporter := filter (fun r => match r with CSV _ _ => true | _ => false end) rs.

Section P.
Variables (path_of : string -> string -> string) (can_create : string -> bool) (temp : fsys -> option string)
          (given_ok : nat -> smap string -> bool) (reg : smap factory).
Notation make_reporters := (make_reporters path_of can_create temp given_ok reg).
Notation make := (make path_of can_create temp given_ok).
Notation new_csv := (new_csv path_of can_create temp).

Lemma append_other p line fs q : q <> p -> sget q (append p line fs) = sget q fs.
Proof. intros N. unfold append. destruct (sget p fs); [|reflexivity]. rewrite sget_sset. destruct (String.eqb_spec q p); [easy|reflexivity]. Qed.
Lemma append_same p line fs ls : sget p fs = Some ls -> sget p (append p line fs) = Some (ls ++ [line])%list.
Proof. intros E. unfold append. rewrite E, sget_sset. now rewrite String.eqb_refl. Qed.

(** ** What exists stays *)
Lemma csv_keeps cwd opts fs fs1 o q ls : new_csv cwd opts fs = (fs1, o) -> sget q fs = Some ls ->
  sget q fs1 = Some ls /\ forall p ps, o = Some (CSV p ps) -> p <> q.
Proof.
  unfold MakerModel.new_csv, create. intros H Q.
  destruct (if String.eqb _ _ then _ else _) as [p|]; [|injection H as <- <-; now split].
  destruct (sget p fs) eqn:Ep; [injection H as <- <-; now split|].
  assert (N : q <> p) by congruence.
  destruct (can_create p); [|injection H as <- <-; now split].
  destruct (parse_percentiles _) as [[names ps]|]; injection H as <- <-.
  - rewrite append_other by exact N. rewrite sget_sset. destruct (String.eqb_spec q p); [easy|]. split; [exact Q|]. intros p' ps' E. congruence.
  - rewrite sget_sset. destruct (String.eqb_spec q p); [easy|]. now split.
Qed.

Lemma make_keeps f cwd name opts fs fs1 o q ls : make f cwd name opts fs = (fs1, o) -> sget q fs = Some ls ->
  sget q fs1 = Some ls /\ forall p ps, o = Some (CSV p ps) -> p <> q.
Proof.
  unfold MakerModel.make. intros H Q. destruct f as [|i].
  2:{ injection H as <- <-. split; [exact Q|]. intros p ps E. destruct (given_ok i opts); discriminate E. }
  destruct (String.eqb name "stdout").
  { injection H as <- <-. split; [exact Q|]. intros p ps E. unfold new_stdout in E. destruct (parse_percentiles _) as [[]|]; discriminate E. }
  destruct (String.eqb name "server"); [injection H as <- <-; split; [exact Q|]; intros p ps E; discriminate E|].
  destruct (String.eqb name "csv"); [exact (csv_keeps _ _ _ _ _ _ _ H Q)|].
  injection H as <- <-. now split.
Qed.

Lemma reporters_keep cwd l : forall fs fs1 o q ls, make_reporters cwd l fs = (fs1, o) -> sget q fs = Some ls ->
  sget q fs1 = Some ls /\ forall rs p ps, o = Some rs -> In (CSV p ps) rs -> p <> q.
Proof.
  induction l as [|[name opts] l IH]; intros fs fs1 o q ls H Q; cbn in H.
  { injection H as <- <-. split; [exact Q|]. intros rs p ps E I. injection E as <-. destruct I. }
  destruct (sget name reg) as [f|]; [|injection H as <- <-; now split].
  destruct (make f cwd name opts fs) as [fs2 [r|]] eqn:E; destruct (make_keeps _ _ _ _ _ _ _ _ _ E Q) as [A B];
    [|injection H as <- <-; now split].
  destruct (make_reporters cwd l fs2) as [fs3 [rs|]] eqn:E2; destruct (IH _ _ _ _ _ E2 A) as [C D]; injection H as <- <-; [|now split].
  split; [exact C|]. intros rs' p ps Q1 Q2. injection Q1 as <-. destruct Q2 as [Q2|Q2].
  - apply (B p ps). now rewrite Q2.
  - exact (D _ p ps eq_refl Q2).
Qed.

Lemma report_other text rs : forall fs q, (forall p ps, In (CSV p ps) rs -> p <> q) -> sget q (report text rs fs) = sget q fs.
Proof.
  induction rs as [|r rs IH]; intros fs q N; [reflexivity|]. unfold report in *. cbn [fold_left].
  rewrite IH by (intros p ps I; apply (N p ps); now right). destruct r; try reflexivity.
  apply append_other. intros ->. apply (N path ps); [now left|reflexivity].
Qed.
Lemma reports_other texts rs : forall fs q, (forall p ps, In (CSV p ps) rs -> p <> q) ->
  sget q (fold_left (fun fs t => report t rs fs) texts fs) = sget q fs.
Proof. induction texts as [|t texts IH]; intros fs q N; [reflexivity|]. cbn [fold_left]. rewrite IH by exact N. now apply report_other. Qed.

Variable order : nat -> smap (smap string) -> list (string * smap string).
Notation start := (start path_of can_create temp given_ok reg order).
Notation stages_run := (stages_run path_of can_create temp given_ok reg order).

Lemma start_keeps i cwd c fs fs1 o q ls : start i cwd c fs = (fs1, o) -> sget q fs = Some ls ->
  sget q fs1 = Some ls /\ forall rs p ps, o = Some rs -> In (CSV p ps) rs -> p <> q.
Proof.
  unfold MakerModel.start. intros H Q. destruct (ServeModel.stats_on c); [exact (reporters_keep _ _ _ _ _ _ _ H Q)|].
  injection H as <- <-. split; [exact Q|]. intros rs p ps E I. injection E as <-. destruct I.
Qed.

Lemma run_keeps l : forall i fs fs' rss ok q ls, stages_run i l fs = (fs', rss, ok) -> sget q fs = Some ls -> sget q fs' = Some ls.
Proof.
  induction l as [|[[cwd c] texts] l IH]; intros i fs fs' rss ok q ls H Q; cbn in H; [now injection H as <- _ _|].
  destruct (start i cwd c fs) as [fs1 [rs|]] eqn:E; destruct (start_keeps _ _ _ _ _ _ _ _ E Q) as [A B]; [|now injection H as <- _ _].
  destruct (stages_run (S i) l _) as [[fs2 rss2] ok2] eqn:E2. injection H as <- _ _.
  refine (IH _ _ _ _ _ _ _ E2 _). rewrite reports_other; [exact A|]. intros p ps I. exact (B rs p ps eq_refl I).
Qed.

(** ** An existing file is refused *)
Lemma opt_file opts f : csv_file opts f -> opt "file" opts = f /\ String.eqb f "" = false.
Proof. intros [A B]. unfold opt. rewrite A. split; [reflexivity|]. now apply String.eqb_neq. Qed.

Lemma reporters_refuse (RG : registered reg) cwd opts f ls l : forall fs, In ("csv", opts) l -> csv_file opts f ->
  sget (path_of cwd f) fs = Some ls -> snd (make_reporters cwd l fs) = None.
Proof.
  induction l as [|[name o] l IH]; intros fs I F Q; [destruct I|]. cbn [MakerModel.make_reporters].
  destruct I as [I|I].
  - injection I as -> ->. destruct (registered_builtin _ RG) as (_ & _ & ->). cbn [MakerModel.make String.eqb Ascii.eqb Bool.eqb].
    unfold MakerModel.new_csv. destruct (opt_file _ _ F) as [-> ->]. unfold create. rewrite Q. reflexivity.
  - destruct (sget name reg) as [k|]; [|reflexivity].
    destruct (make k cwd name o fs) as [fs1 [r|]] eqn:E; [|reflexivity]. destruct (make_keeps _ _ _ _ _ _ _ _ _ E Q) as [A _].
    specialize (IH fs1 I F A). destruct (make_reporters cwd l fs1) as [fs2 [rs|]]; [discriminate IH|reflexivity].
Qed.

(** ** The reporters of one stage *)
(** What one stage does to the files. *)
Definition added (fs fs1 : fsys) (p : string) (ls : list string) : Prop :=
  forall q, sget q fs1 = if String.eqb q p then Some ls else sget q fs.

Lemma make_other (RG : registered reg) cwd name opts fs : usable given_ok reg name opts -> name <> "csv" ->
  exists f r, sget name reg = Some f /\ make f cwd name opts fs = (fs, Some r) /\ made_for path_of reg cwd (name, opts) r /\
    match r with CSV _ _ => False | _ => True end.
Proof.
  intros U N. destruct (registered_builtin _ RG) as (R1 & R2 & _). unfold usable in U. cbn [made_for].
  apply String.eqb_neq in N. rewrite N in *. rewrite orb_false_r in U.
  destruct (String.eqb_spec name "stdout") as [->|N1].
  { destruct U as (names & ps & U). exists Builtin, (Stdout (stdout_options opts) names ps). split; [exact R1|]. cbn [MakerModel.make String.eqb Ascii.eqb Bool.eqb].
    unfold new_stdout, opt. unfold csv_columns in U. rewrite U. split; [reflexivity|]. split; [eauto|exact I]. }
  destruct (String.eqb_spec name "server") as [->|N2].
  { exists Builtin, (new_server opts). split; [exact R2|]. split; [reflexivity|]. split; [reflexivity|exact I]. }
  destruct U as (i & U1 & U2). exists (Given i), (Custom i). split; [exact U1|]. cbn [MakerModel.make]. rewrite U2. split; [reflexivity|]. split; [eauto|exact I].
Qed.

Lemma make_plain (RG : registered reg) cwd l : forall fs, (forall name opts, In (name, opts) l -> usable given_ok reg name opts /\ name <> "csv") ->
  exists rs, make_reporters cwd l fs = (fs, Some rs) /\ Forall2 (made_for path_of reg cwd) l rs /\ csvs rs = [].
Proof.
  induction l as [|[name opts] l IH]; intros fs U; [exists []; repeat split; constructor|].
  destruct (U name opts (or_introl eq_refl)) as [U1 U2]. destruct (make_other RG cwd name opts fs U1 U2) as (f & r & A & B & C & D).
  destruct (IH fs) as (rs & E1 & E2 & E3); [intros; apply U; now right|].
  exists (r :: rs). cbn [MakerModel.make_reporters]. rewrite A, B, E1. split; [reflexivity|]. split; [now constructor|]. destruct r; [exact E3|destruct D|exact E3|exact E3].
Qed.

(** The csv entry of a stage: its file can be made. *)
Definition creates (named : list string) (cwd : string) (opts : smap string) (fs : fsys) : Prop :=
  exists p, (if String.eqb (opt "file" opts) "" then temp fs else Some (path_of cwd (opt "file" opts))) = Some p /\
    sget p fs = None /\ can_create p = true /\ (opt "file" opts = "" -> ~ In p named).

Lemma make_all (RG : registered reg) named cwd l : forall fs, NoDup (map fst l) ->
  (forall name opts, In (name, opts) l -> usable given_ok reg name opts) ->
  (forall opts, In ("csv", opts) l -> creates named cwd opts fs) ->
  exists fs1 rs, make_reporters cwd l fs = (fs1, Some rs) /\ Forall2 (made_for path_of reg cwd) l rs /\
    ((fs1 = fs /\ csvs rs = [] /\ forall opts, ~ In ("csv", opts) l) \/
     exists p opts names ps, In ("csv", opts) l /\ csv_columns opts names ps /\ sget p fs = None /\ added fs fs1 p [header names] /\ csvs rs = [CSV p ps] /\
       (forall f, csv_file opts f -> p = path_of cwd f) /\ (opt "file" opts = "" -> ~ In p named)).
Proof.
  induction l as [|[name opts] l IH]; intros fs ND U CR.
  { exists fs, []. split; [reflexivity|]. split; [constructor|]. left. repeat split. intros opts []. }
  inversion ND as [|x xs NI ND']; subst. cbn [map fst] in *.
  destruct (String.eqb_spec name "csv") as [->|N].
  - destruct (CR opts (or_introl eq_refl)) as (p & P1 & P2 & P3 & P4).
    destruct (U "csv" opts (or_introl eq_refl)) as (names & ps & C).
    set (fs1 := append p (header names) (sset p [] fs)).
    destruct (make_plain RG cwd l fs1) as (rs & E1 & E2 & E3).
    { intros n o I. split; [apply U; now right|]. intros ->. apply NI. exact (in_map fst _ _ I). }
    assert (PF : forall f, csv_file opts f -> p = path_of cwd f).
    { intros f F. destruct (opt_file _ _ F) as [F1 F2]. rewrite F1, F2 in P1. congruence. }
    exists fs1, (CSV p ps :: rs). cbn [MakerModel.make_reporters]. destruct (registered_builtin _ RG) as (_ & _ & R). rewrite R.
    cbn [MakerModel.make String.eqb Ascii.eqb Bool.eqb]. unfold MakerModel.new_csv, create. rewrite P1, P2, P3.
    unfold csv_columns in C. change (match sget "percentiles" opts with Some s => s | None => "" end) with (opt "percentiles" opts) in C. rewrite C.
    fold fs1. rewrite E1. split; [reflexivity|]. split.
    { constructor; [|exact E2]. cbn [made_for String.eqb Ascii.eqb Bool.eqb]. exists p, names, ps. repeat split; [exact C|exact PF]. }
    right. exists p, opts, names, ps. split; [now left|]. split; [exact C|]. split; [exact P2|]. split; [|split; [cbn; f_equal; exact E3|now split]].
    intros q. unfold fs1. destruct (String.eqb_spec q p) as [->|NQ].
    + apply (append_same p (header names) _ []). rewrite sget_sset. now rewrite String.eqb_refl.
    + rewrite append_other by exact NQ. rewrite sget_sset. now apply String.eqb_neq in NQ; rewrite NQ.
  - destruct (make_other RG cwd name opts fs (U _ _ (or_introl eq_refl)) N) as (f & r & A & B & C & D).
    destruct (IH fs ND') as (fs1 & rs & E1 & E2 & E3); [intros; apply U; now right|intros; apply CR; now right|].
    assert (CS : csvs (r :: rs) = csvs rs) by (destruct r; [reflexivity|destruct D|reflexivity|reflexivity]).
    exists fs1, (r :: rs). cbn [MakerModel.make_reporters]. rewrite A, B, E1. split; [reflexivity|]. split; [now constructor|]. rewrite CS.
    destruct E3 as [(X1 & X2 & X3)|(p & o & names & ps & X1 & X)]; [left|right].
    + repeat split; try assumption. intros o [I|I]; [congruence|exact (X3 o I)].
    + exists p, o, names, ps. split; [now right|exact X].
Qed.

(** ** Reports *)
Lemma report_csvs text rs : forall fs, report text rs fs = report text (csvs rs) fs.
Proof. induction rs as [|r rs IH]; intros fs; [reflexivity|]. unfold report, csvs in *. destruct r; cbn; apply IH. Qed.
Lemma reports_csv texts rs p ps : csvs rs = [CSV p ps] -> forall fs ls, sget p fs = Some ls ->
  sget p (fold_left (fun fs t => report t rs fs) texts fs) = Some (ls ++ map (fun t => t ps) texts)%list.
Proof.
  intros C. induction texts as [|t texts IH]; intros fs ls Q; cbn [fold_left map]; [now rewrite app_nil_r|].
  rewrite (IH _ (ls ++ [t ps])%list); [now rewrite <- app_assoc|]. rewrite report_csvs, C. cbn. now apply append_same.
Qed.
Lemma csvs_in rs p ps : In (CSV p ps) rs <-> In (CSV p ps) (csvs rs).
Proof. unfold csvs. rewrite filter_In. tauto. Qed.

(** ** All stages *)
Definition files (x : string * stage * list (list pct -> string)) : list string :=
  let '(cwd, c, _) := x in
  if ServeModel.stats_on c then
    flat_map (fun kv => if String.eqb (fst kv) "csv" then if String.eqb (opt "file" (snd kv)) "" then [] else [path_of cwd (opt "file" (snd kv))] else [])
      (st_report (s_stats c))
  else [].

Lemma files_in cwd c texts opts f : enabled c -> In ("csv", opts) (st_report (s_stats c)) -> csv_file opts f -> In (path_of cwd f) (files (cwd, c, texts)).
Proof.
  intros E I F. unfold files. apply stats_on_enabled in E. rewrite E. apply in_flat_map. exists ("csv", opts). split; [exact I|].
  destruct (opt_file _ _ F) as [A B]. cbn [fst snd String.eqb Ascii.eqb Bool.eqb]. rewrite A, B. now left.
Qed.

Lemma files_out cwd c texts p : In p (files (cwd, c, texts)) ->
  exists opts f, enabled c /\ In ("csv", opts) (st_report (s_stats c)) /\ csv_file opts f /\ p = path_of cwd f.
Proof using path_of.
  unfold files. destruct (ServeModel.stats_on c) eqn:ON; [|intros []]. apply stats_on_enabled in ON. intros Q.
  apply in_flat_map in Q as ([k opts] & Q1 & Q2). cbn [fst snd] in Q2. destruct (String.eqb_spec k "csv") as [->|]; [|destruct Q2].
  destruct (String.eqb_spec (opt "file" opts) "") as [|Z]; [destruct Q2|]. destruct Q2 as [<-|[]].
  exists opts, (opt "file" opts). repeat split; try assumption. unfold opt in *. destruct (sget "file" opts); [reflexivity|easy].
Qed.

Lemma files_one cwd c texts : NoDup (skeys (st_report (s_stats c))) -> NoDup (files (cwd, c, texts)).
Proof using path_of.
  intros ND. unfold files. destruct (ServeModel.stats_on c); [|constructor]. unfold skeys in ND.
  induction (st_report (s_stats c)) as [|[k o] m IH]; [constructor|]. inversion ND as [|? ? N1 N2]; subst. cbn [flat_map fst snd].
  destruct (String.eqb_spec k "csv") as [->|]; [|exact (IH N2)].
  assert (E : flat_map (fun kv : string * smap string => if String.eqb (fst kv) "csv" then
      if String.eqb (opt "file" (snd kv)) "" then [] else [path_of cwd (opt "file" (snd kv))] else []) m = []).
  { clear -N1. induction m as [|[k' o'] m IHm]; [reflexivity|]. cbn [flat_map fst snd] in *. destruct (String.eqb_spec k' "csv") as [->|]; [destruct N1; now left|].
    apply IHm. intros X. apply N1. now right. }
  rewrite E, app_nil_r. destruct (String.eqb _ _); repeat constructor. intros [].
Qed.

Lemma files_nodup l : (forall cwd c texts, In (cwd, c, texts) l -> enabled c -> NoDup (skeys (st_report (s_stats c)))) ->
  (forall a b p o1 o2 t1 t2, writes_to path_of l a p o1 t1 -> writes_to path_of l b p o2 t2 -> a = b) -> NoDup (flat_map files l).
Proof using can_create given_ok order path_of.
  induction l as [|[[cwd c] texts] l IH]; intros NK UN; [constructor|]. cbn [flat_map].
  assert (REST : NoDup (flat_map files l)).
  { apply IH; [intros ? ? ? J; eapply NK; right; exact J|]. intros a b p o1 o2 t1 t2 (c1 & d1 & f1 & A) (c2 & d2 & f2 & B).
    assert (X : S a = S b); [|lia]. apply (UN (S a) (S b) p o1 o2 t1 t2); [exists c1, d1, f1; exact A|exists c2, d2, f2; exact B]. }
  assert (ONE : NoDup (files (cwd, c, texts))).
  { destruct (ServeModel.stats_on c) eqn:ON; [|cbn; rewrite ON; constructor]. apply files_one, (NK cwd c texts); [now left|]. now apply stats_on_enabled. }
  assert (DIS : forall p, In p (files (cwd, c, texts)) -> ~ In p (flat_map files l)).
  { intros p A B. apply files_out in A as (opts & f & A1 & A2 & A3 & A4). apply in_flat_map in B as ([[cwd2 c2] t2] & B1 & B2).
    apply In_nth_error in B1 as (b & B1). apply files_out in B2 as (o2 & f2 & B3 & B4 & B5 & B6).
    assert (X : 0%nat = S b); [|discriminate X]. apply (UN _ _ p opts o2 texts t2); [exists cwd, c, f; auto|exists cwd2, c2, f2; auto]. }
  clear -REST ONE DIS. induction (files (cwd, c, texts)) as [|y ys IHy]; [exact REST|]. inversion ONE as [|? ? N1 N2]; subst. cbn. constructor.
  - intros X. apply in_app_or in X as [X|X]; [exact (N1 X)|]. apply (DIS y); [now left|exact X].
  - apply IHy; [exact N2|]. intros p P. apply DIS. now right.
Qed.

Hypothesis ORD : forall i m, Permutation (order i m) m.
Hypothesis RG : registered reg.

Lemma run_all all (TMP : forall fs, exists p, temp fs = Some p /\ sget p fs = None /\ can_create p = true /\ ~ In p all) l : forall i fs,
  incl (flat_map files l) all -> NoDup (flat_map files l) ->
  (forall p, In p (flat_map files l) -> sget p fs = None /\ can_create p = true) ->
  (forall cwd c texts, In (cwd, c, texts) l -> enabled c ->
     NoDup (skeys (st_report (s_stats c))) /\ forall name opts, In (name, opts) (st_report (s_stats c)) -> usable given_ok reg name opts) ->
  exists fs' rss, stages_run i l fs = (fs', rss, true) /\
    Forall2 (fun x rs => let '(cwd, c, _) := x in
       (enabled c -> serves path_of reg cwd (st_report (s_stats c)) rs) /\ (~ enabled c -> rs = [])) l rss /\
    (forall a p opts texts names ps, writes_to path_of l a p opts texts -> csv_columns opts names ps ->
       sget p fs' = Some (header names :: map (fun t => t ps) texts)).
Proof.
  induction l as [|[[cwd c] texts] l IH]; intros i fs INC ND FR US.
  { exists fs, []. split; [reflexivity|]. split; [constructor|]. intros [|a] p opts texts names ps (cwd & c & f & X & _); discriminate X. }
  cbn [flat_map] in INC, ND, FR. cbn [MakerModel.stages_run].
  assert (INC' : incl (flat_map files l) all) by (intros q Q; apply INC, in_or_app; now right).
  assert (ND' : NoDup (flat_map files l)) by (clear -ND; induction (files (cwd, c, texts)); [exact ND|apply IHl0; now inversion ND]).
  assert (US' : forall cwd c texts, In (cwd, c, texts) l -> enabled c ->
     NoDup (skeys (st_report (s_stats c))) /\ forall name opts, In (name, opts) (st_report (s_stats c)) -> usable given_ok reg name opts).
  { intros ? ? ? I. eapply US. right. exact I. }
  destruct (ServeModel.stats_on c) eqn:ON.
  - assert (EN := proj1 (stats_on_enabled c) ON). destruct (US cwd c texts (or_introl eq_refl) EN) as [NK UU].
    pose proof (ORD i (st_report (s_stats c))) as PM.
    destruct (make_all RG all cwd (order i (st_report (s_stats c))) fs) as (fs1 & rs & E1 & E2 & E3).
    { apply (Permutation_NoDup (l := skeys (st_report (s_stats c)))); [|exact NK]. unfold skeys. apply Permutation_map. now symmetry. }
    { intros name opts I. apply UU. exact (Permutation_in _ PM I). }
    { intros opts I. apply (Permutation_in _ PM) in I. unfold creates. destruct (String.eqb_spec (opt "file" opts) "") as [Z|Z].
      - destruct (TMP fs) as (p & P1 & P2 & P3 & P4). exists p. auto.
      - assert (F : csv_file opts (opt "file" opts)).
        { unfold csv_file, opt in *. destruct (sget "file" opts); [auto|easy]. }
        exists (path_of cwd (opt "file" opts)). destruct (FR (path_of cwd (opt "file" opts))) as [F1 F2]; [apply in_or_app; left; exact (files_in _ _ _ _ _ EN I F)|].
        repeat split; try assumption. easy. }
    unfold MakerModel.start at 1. rewrite ON, E1.
    set (fs2 := fold_left (fun fs t => report t rs fs) texts fs1).
    (* the files of later stages *)
    assert (OTHER : forall q, In q (flat_map files l) -> sget q fs2 = sget q fs).
    { intros q Q. unfold fs2. destruct E3 as [(-> & X2 & _)|(p & opts & names & ps & X1 & X2 & X3 & X4 & X5 & X6 & X7)].
      - apply reports_other. intros p ps I. apply csvs_in in I. rewrite X2 in I. destruct I.
      - assert (PQ : p <> q).
        { intros ->. destruct (String.eqb_spec (opt "file" opts) "") as [Z|Z]; [apply (X7 Z), INC, in_or_app; now right|].
          assert (F : csv_file opts (opt "file" opts)) by (unfold csv_file, opt in *; destruct (sget "file" opts); [auto|easy]).
          apply (Permutation_in _ PM) in X1. pose proof (files_in cwd c texts _ _ EN X1 F) as I. rewrite <- (X6 _ F) in I.
          clear -ND I Q. induction (files (cwd, c, texts)) as [|y ys IHy]; [destruct I|]. inversion ND as [|? ? N1 N2]; subst.
          destruct I as [->|I]; [apply N1, in_or_app; now right|exact (IHy N2 I)]. }
        rewrite reports_other.
        + rewrite X4. apply not_eq_sym, String.eqb_neq in PQ. now rewrite PQ.
        + intros p' ps' I. apply csvs_in in I. rewrite X5 in I. destruct I as [I|[]]. now injection I as <- _. }
    destruct (IH (S i) fs2 INC' ND') as (fs' & rss & G1 & G2 & G3); [|exact US'|].
    { intros q Q. rewrite (OTHER q Q). apply FR, in_or_app. now right. }
    rewrite G1. exists fs', (rs :: rss). split; [reflexivity|]. split.
    { constructor; [|exact G2]. split; [|easy]. intros _. exists (order i (st_report (s_stats c))). now split. }
    intros [|a] p opts txts names ps W C.
    + destruct W as (cwd1 & c1 & f & W1 & _ & W2 & W3 & ->). cbn in W1. injection W1 as <- <- <-.
      refine (run_keeps _ _ _ _ _ _ _ _ G1 _).
      destruct E3 as [(_ & _ & X3)|(p & o & names' & ps' & X1 & X2 & X3 & X4 & X5 & X6 & X7)].
      { destruct (X3 opts). apply (Permutation_in _ (Permutation_sym PM)). exact W2. }
      assert (o = opts).
      { apply (Permutation_in _ PM) in X1. clear -NK W2 X1. unfold skeys in NK. induction (st_report (s_stats c)) as [|[k v] m IHm]; [destruct X1|].
        inversion NK as [|? ? N1 N2]; subst. destruct X1 as [X1|X1], W2 as [W2|W2].
        - congruence.
        - injection X1 as -> ->. destruct N1. exact (in_map fst _ _ W2).
        - injection W2 as -> ->. destruct N1. exact (in_map fst _ _ X1).
        - exact (IHm N2 X1 W2). }
      subst o. rewrite <- (X6 f W3). unfold csv_columns in *. rewrite C in X2. injection X2 as <- <-.
      apply (reports_csv texts rs p ps X5 fs1 [header names]). rewrite X4. now rewrite String.eqb_refl.
    + destruct W as (cwd1 & c1 & f & W1 & W2). apply (G3 a p opts txts names ps); [|exact C]. exists cwd1, c1, f. split; [exact W1|exact W2].
  - assert (OFF := proj1 (stats_off c) ON).
    assert (FE : files (cwd, c, texts) = []) by (cbn; now rewrite ON). rewrite FE in *. cbn [app] in *.
    unfold MakerModel.start at 1. rewrite ON.
    assert (R0 : forall fs, fold_left (fun fs t => report t [] fs) texts fs = fs) by (clear; induction texts as [|t texts IHt]; intros fs; [reflexivity|]; cbn; apply IHt).
    rewrite R0. destruct (IH (S i) fs INC' ND' FR US') as (fs' & rss & G1 & G2 & G3).
    rewrite G1. exists fs', ([] :: rss). split; [reflexivity|]. split; [constructor; [|exact G2]; split; [easy|reflexivity]|].
    intros [|a] p opts txts names ps W C.
    + destruct W as (cwd1 & c1 & f & W1 & W2 & _). cbn in W1. injection W1 as <- <- <-. now destruct OFF.
    + destruct W as (cwd1 & c1 & f & W1 & W2). apply (G3 a p opts txts names ps); [|exact C]. exists cwd1, c1, f. split; [exact W1|exact W2].
Qed.
(** ** What is made is what was asked for *)
Lemma make_made cwd name opts fs fs1 k r : sget name reg = Some k -> make k cwd name opts fs = (fs1, Some r) ->
  made_for path_of reg cwd (name, opts) r.
Proof.
  intros G H. cbn [made_for]. destruct (registered_builtin _ RG) as (R1 & R2 & R3). unfold MakerModel.make in H.
  destruct (String.eqb_spec name "stdout") as [->|N1].
  { assert (k = Builtin) by congruence. subst k. unfold new_stdout in H. destruct (parse_percentiles (opt "percentiles" opts)) as [[names ps]|] eqn:E; [|discriminate H].
    injection H as _ <-. exists names, ps. split; [exact E|reflexivity]. }
  destruct (String.eqb_spec name "server") as [->|N2]; [assert (k = Builtin) by congruence; subst k; now injection H as _ <-|].
  destruct (String.eqb_spec name "csv") as [->|N3].
  { assert (k = Builtin) by congruence. subst k. unfold MakerModel.new_csv in H.
    destruct (if String.eqb (opt "file" opts) "" then _ else _) as [p|] eqn:P; [|discriminate H]. destruct (create can_create p fs) as [fs2|]; [|discriminate H].
    destruct (parse_percentiles (opt "percentiles" opts)) as [[names ps]|] eqn:E; [|discriminate H]. injection H as _ <-. exists p, names, ps.
    split; [exact E|]. split; [reflexivity|]. intros f F. destruct (opt_file _ _ F) as [F1 F2]. rewrite F1, F2 in P. congruence. }
  destruct k as [|i]; [discriminate H|]. destruct (given_ok i opts); [|discriminate H]. injection H as _ <-. eauto.
Qed.

Lemma reporters_made cwd l : forall fs fs1 rs, make_reporters cwd l fs = (fs1, Some rs) -> Forall2 (made_for path_of reg cwd) l rs.
Proof.
  induction l as [|[name opts] l IH]; intros fs fs1 rs H; cbn [MakerModel.make_reporters] in H; [injection H as _ <-; constructor|].
  destruct (sget name reg) as [k|] eqn:G; [|discriminate H]. destruct (make k cwd name opts fs) as [fs2 [r|]] eqn:E; [|discriminate H].
  destruct (make_reporters cwd l fs2) as [fs3 [rs'|]] eqn:E2; [|discriminate H]. injection H as _ <-. constructor; [exact (make_made _ _ _ _ _ _ _ G E)|exact (IH _ _ _ E2)].
Qed.

(** ** A file of two stages *)
Lemma made_exists cwd opts f l : forall fs fs1 rs, make_reporters cwd l fs = (fs1, Some rs) -> In ("csv", opts) l -> csv_file opts f ->
  exists ls, sget (path_of cwd f) fs1 = Some ls.
Proof.
  induction l as [|[name o] l IH]; intros fs fs1 rs H J F; [destruct J|]. cbn [MakerModel.make_reporters] in H. destruct J as [J|J].
  - injection J as -> ->. destruct (registered_builtin _ RG) as (_ & _ & R). rewrite R in H. cbn [MakerModel.make String.eqb Ascii.eqb Bool.eqb] in H.
    unfold MakerModel.new_csv in H. destruct (opt_file _ _ F) as [F1 F2]. rewrite F1, F2 in H. unfold create in H.
    destruct (sget (path_of cwd f) fs); [discriminate H|]. destruct (can_create _); [|discriminate H].
    destruct (parse_percentiles _) as [[names ps]|]; [|discriminate H].
    destruct (make_reporters cwd l _) as [fs3 [rs'|]] eqn:E; [|discriminate H]. injection H as <- _.
    eexists. refine (proj1 (reporters_keep _ _ _ _ _ _ _ E _)). apply append_same. rewrite sget_sset. now rewrite String.eqb_refl.
  - destruct (sget name reg) as [k|]; [|discriminate H]. destruct (make k cwd name o fs) as [fs2 [r|]]; [|discriminate H].
    destruct (make_reporters cwd l fs2) as [fs3 [rs'|]] eqn:E; [|discriminate H]. injection H as <- _. exact (IH _ _ _ E J F).
Qed.

Lemma append_has p line fs q : (exists ls, sget q fs = Some ls) -> exists ls, sget q (append p line fs) = Some ls.
Proof.
  intros (ls & Q). destruct (String.eqb_spec q p) as [->|N]; [exists (ls ++ [line])%list; now apply append_same|exists ls; now rewrite append_other].
Qed.
Lemma reports_has rs q texts : forall fs, (exists ls, sget q fs = Some ls) -> exists ls, sget q (fold_left (fun fs t => report t rs fs) texts fs) = Some ls.
Proof.
  induction texts as [|t texts IH]; intros fs H; [exact H|]. apply IH. clear IH. revert fs H. unfold report. induction rs as [|r rs IHr]; intros fs H; [exact H|].
  cbn [fold_left]. apply IHr. destruct r; try exact H. now apply append_has.
Qed.

Lemma run_refuses l : forall i fs fs' rss ok b p opts texts, stages_run i l fs = (fs', rss, ok) -> (exists ls, sget p fs = Some ls) ->
  writes_to path_of l b p opts texts -> ok = false /\ (length rss <= b)%nat.
Proof.
  induction l as [|[[cwd c] tx] l IH]; intros i fs fs' rss ok b p opts texts H (ls & Q) (cwd1 & c1 & f & W1 & W2 & W3 & W4 & W5); [destruct b; discriminate W1|].
  cbn [MakerModel.stages_run] in H. destruct (start i cwd c fs) as [fs1 [rs|]] eqn:E; [|injection H as <- <- <-; split; [reflexivity|cbn; lia]].
  destruct b as [|b].
  - cbn in W1. injection W1 as <- <- <-. exfalso. apply stats_on_enabled in W2. unfold MakerModel.start in E. rewrite W2 in E.
    pose proof (reporters_refuse RG cwd opts f ls (order i (st_report (s_stats c))) fs) as X. rewrite E in X. cbn in X.
    discriminate X; [|exact W4|now rewrite <- W5]. exact (Permutation_in _ (Permutation_sym (ORD i _)) W3).
  - destruct (stages_run (S i) l _) as [[fs2 rss2] ok2] eqn:E2. injection H as <- <- <-.
    destruct (IH _ _ _ _ _ b p opts texts E2) as [A B]; [|exists cwd1, c1, f; auto|split; [exact A|cbn; lia]].
    apply reports_has. exists ls. exact (proj1 (start_keeps _ _ _ _ _ _ _ _ E Q)).
Qed.

Lemma run_twice l : forall i fs fs' rss ok a b p o1 o2 t1 t2, stages_run i l fs = (fs', rss, ok) -> (a < b)%nat ->
  writes_to path_of l a p o1 t1 -> writes_to path_of l b p o2 t2 -> ok = false /\ (length rss <= b)%nat.
Proof.
  induction l as [|[[cwd c] tx] l IH]; intros i fs fs' rss ok a b p o1 o2 t1 t2 H L (cwd1 & c1 & f & W1 & W2 & W3 & W4 & W5) B; [destruct a; discriminate W1|].
  cbn [MakerModel.stages_run] in H. destruct (start i cwd c fs) as [fs1 [rs|]] eqn:E; [|injection H as <- <- <-; split; [reflexivity|cbn; lia]].
  destruct (stages_run (S i) l _) as [[fs2 rss2] ok2] eqn:E2. injection H as <- <- <-. destruct b as [|b]; [lia|].
  assert (B' : writes_to path_of l b p o2 t2) by (destruct B as (x & y & z & B); exists x, y, z; exact B).
  destruct a as [|a].
  - cbn in W1. injection W1 as <- <- <-. apply stats_on_enabled in W2. unfold MakerModel.start in E. rewrite W2 in E.
    destruct (run_refuses l _ _ _ _ _ b p o2 t2 E2) as [X Y]; [|exact B'|split; [exact X|cbn; lia]].
    apply reports_has. rewrite W5. refine (made_exists _ _ _ _ _ _ _ E _ W4). exact (Permutation_in _ (Permutation_sym (ORD i _)) W3).
  - destruct (IH _ _ _ _ _ a b p o1 o2 t1 t2 E2) as [X Y]; [lia|exists cwd1, c1, f; auto|exact B'|split; [exact X|cbn; lia]].
Qed.

Lemma run_failed l : forall i fs fs' rss, stages_run i l fs = (fs', rss, false) ->
  exists cwd c texts, nth_error l (length rss) = Some (cwd, c, texts) /\ ServeModel.stats_on c = true.
Proof.
  induction l as [|[[cwd c] tx] l IH]; intros i fs fs' rss H; [discriminate H|]. cbn [MakerModel.stages_run] in H.
  destruct (start i cwd c fs) as [fs1 [rs|]] eqn:E.
  - destruct (stages_run (S i) l _) as [[fs2 rss2] ok2] eqn:E2. injection H as <- <- ->. exact (IH _ _ _ _ E2).
  - injection H as <- <-. exists cwd, c, tx. split; [reflexivity|]. unfold MakerModel.start in E. destruct (ServeModel.stats_on c); [reflexivity|discriminate E].
Qed.
Lemma run_length l : forall i fs fs' rss, stages_run i l fs = (fs', rss, true) -> length rss = length l.
Proof.
  induction l as [|[[cwd c] tx] l IH]; intros i fs fs' rss H; [now injection H as <- <-|]. cbn [MakerModel.stages_run] in H.
  destruct (start i cwd c fs) as [fs1 [rs|]]; [|discriminate H].
  destruct (stages_run (S i) l _) as [[fs2 rss2] ok2] eqn:E2. injection H as <- <- ->. cbn. f_equal. exact (IH _ _ _ _ E2).
Qed.
End P.

(** ** Remotes *)
Section Remote.
Variables (path_of : string -> string -> string) (can_create : string -> bool) (temp : fsys -> option string)
          (given_ok : nat -> smap string -> bool) (reg : smap factory) (order : nat -> smap (smap string) -> list (string * smap string)).
Hypothesis ORD : forall i m, Permutation (order i m) m.
Hypothesis RG : registered reg.
Notation make_reporters := (MakerModel.make_reporters path_of can_create temp given_ok reg).

Lemma made_stdout cwd l : forall fs fs1 rs opts, make_reporters cwd l fs = (fs1, Some rs) -> In ("stdout", opts) l -> exists names ps, csv_columns opts names ps.
Proof.
  induction l as [|[name o] l IH]; intros fs fs1 rs opts H J; [destruct J|]. cbn [MakerModel.make_reporters] in H. destruct J as [J|J].
  - injection J as -> ->. destruct (registered_builtin _ RG) as (R & _ & _). rewrite R in H. cbn [MakerModel.make String.eqb Ascii.eqb Bool.eqb] in H.
    unfold new_stdout in H. destruct (parse_percentiles (opt "percentiles" opts)) as [[names ps]|] eqn:E; [|discriminate H]. exists names, ps. exact E.
  - destruct (sget name reg) as [f|]; [|discriminate H]. destruct (MakerModel.make _ _ _ _ f cwd name o fs) as [fs2 [r|]]; [|discriminate H].
    destruct (make_reporters cwd l fs2) as [fs3 [rs'|]] eqn:E; [|discriminate H]. exact (IH _ _ _ _ E J).
Qed.

Lemma only_stdout (m : smap (smap string)) : NoDup (skeys m) ->
  (filter (fun kv => String.eqb (fst kv) "stdout") m = [] /\ forall opts, ~ In ("stdout", opts) m) \/
  exists opts, filter (fun kv => String.eqb (fst kv) "stdout") m = [("stdout", opts)] /\ forall o, In ("stdout", o) m <-> o = opts.
Proof.
  unfold skeys. induction m as [|[k v] m IH]; intros ND; [left; split; [reflexivity|intros o []]|]. inversion ND as [|? ? N1 N2]; subst. cbn [filter fst].
  destruct (String.eqb_spec k "stdout") as [->|NE].
  - right. exists v. destruct (IH N2) as [[E _]|(o & E & F)].
    + rewrite E. split; [reflexivity|]. intros o. split; [|intros ->; now left]. intros [J|J]; [congruence|]. destruct N1. exact (in_map fst _ _ J).
    + destruct N1. exact (in_map fst _ _ (proj2 (F o) eq_refl)).
  - destruct (IH N2) as [[E F]|(o & E & F)]; [left|right; exists o]; (split; [exact E|]).
    + intros o [J|J]; [congruence|exact (F o J)].
    + intros o'. rewrite <- F. split; [intros [J|J]; [congruence|exact J]|now right].
Qed.

Definition remote_server (addr name id : string) : string * smap string := ("server", [("server", addr); ("client", name); ("stage-id", id)]).
Lemma remote_report_eq addr name id m : NoDup (skeys m) ->
  (remote_report addr name id m = [remote_server addr name id] /\ forall opts, ~ In ("stdout", opts) m) \/
  exists opts, remote_report addr name id m = [("stdout", opts); remote_server addr name id] /\ forall o, In ("stdout", o) m <-> o = opts.
Proof. intros ND. unfold remote_report. destruct (only_stdout m ND) as [[-> F]|(o & -> & F)]; [left|right; exists o]; now split. Qed.

Lemma remote_makes i cwd addr name id c fs : NoDup (skeys (st_report (s_stats c))) ->
  (forall opts, In ("stdout", opts) (st_report (s_stats c)) -> exists names ps, csv_columns opts names ps) ->
  exists rs, start_remote path_of can_create temp given_ok reg order i cwd addr name id c fs = (fs, Some rs) /\ NoDup rs /\
    forall r, In r rs <-> r = Server addr name id \/
      exists opts names ps, In ("stdout", opts) (st_report (s_stats c)) /\ csv_columns opts names ps /\ r = Stdout (stdout_options opts) names ps.
Proof.
  intros ND OK. unfold start_remote. pose proof (ORD i (remote_report addr name id (st_report (s_stats c)))) as PM.
  destruct (remote_report_eq addr name id _ ND) as [[E F]|(o & E & F)]; rewrite E in *.
  - apply Permutation_sym, Permutation_length_1_inv in PM. rewrite PM. cbn [MakerModel.make_reporters remote_server].
    destruct (registered_builtin _ RG) as (_ & -> & _). exists [Server addr name id]. split; [reflexivity|]. split; [repeat constructor; intros []|].
    intros r. split; [intros [<-|[]]; now left|]. intros [->|(opts & names & ps & J & _)]; [now left|destruct (F opts J)].
  - destruct (OK o (proj2 (F o) eq_refl)) as (names & ps & C).
    assert (IFF : forall r, r = Server addr name id \/ r = Stdout (stdout_options o) names ps <-> r = Server addr name id \/
      exists opts names ps, In ("stdout", opts) (st_report (s_stats c)) /\ csv_columns opts names ps /\ r = Stdout (stdout_options opts) names ps).
    { intros r. split; intros [->|X]; auto.
      - right. exists o, names, ps. split; [now apply F|]. now split.
      - right. destruct X as (opts & names' & ps' & X1 & X2 & ->). apply F in X1 as ->. unfold csv_columns in *. rewrite C in X2. now injection X2 as <- <-. }
    destruct (registered_builtin _ RG) as (R1 & R2 & _).
    unfold csv_columns in C. change (match sget "percentiles" o with Some s => s | None => "" end) with (opt "percentiles" o) in C.
    apply Permutation_sym, Permutation_length_2_inv in PM. destruct PM as [-> | ->]; cbn [MakerModel.make_reporters remote_server];
      rewrite ?R1, ?R2; cbn [MakerModel.make String.eqb Ascii.eqb Bool.eqb]; unfold new_stdout; rewrite C; rewrite ?R1, ?R2.
    + exists [Stdout (stdout_options o) names ps; Server addr name id]. split; [reflexivity|]. split.
      * constructor; [intros [X|[]]; discriminate X|repeat constructor; intros []].
      * intros r. rewrite <- IFF. cbn. intuition.
    + exists [Server addr name id; Stdout (stdout_options o) names ps]. split; [reflexivity|]. split.
      * constructor; [intros [X|[]]; discriminate X|repeat constructor; intros []].
      * intros r. rewrite <- IFF. cbn. intuition.
Qed.
End Remote.

(** ** Server.Run *)
(** A stage whose reporters cannot be made is not begun, nor is a later one. *)
Section Stops.
Import ServeModel.
Variables (api test : bool) (stages : list stage) (dir_of : string -> string) (chdir_ok : string -> bool) (collector_ok prepare_ok : stage -> bool).
Variables (n : nat) (c : stage).
Hypothesis (AT : nth_error stages n = Some c) (ON : stats_on c = true) (BAD : collector_ok c = false).

Definition early (p : phase) : Prop :=
  match p with
  | Top i | Start i => (i <= n)%nat
  | Boot i _ | Wait i _ | After i | Hung i | Panicked i => (i < n)%nat
  | Returned _ => True
  end.
Definition before (e : event) : Prop :=
  match e with
  | EDir i _ => (i <= n)%nat
  | EPrepare i _ _ _ | EPublish i | EBooted i _ | EFailed i _ | ERun i | ELocal i | ELocalEnd i | EFinished i _ | EStop i | EEnd i | ETested i | EAbort i => (i < n)%nat
  | ECancel | EReturn _ => True
  end.
Definition well (s : state) : Prop := early (v_phase s) /\ Forall (fun i => (i < n)%nat) (v_locals s).

Lemma stops_step s a s1 es : well s -> step api test stages dir_of chdir_ok collector_ok prepare_ok s a = Some (s1, es) -> well s1 /\ Forall before es.
Proof.
  intros [W1 W2] H. destruct a as [ctx|w err|w|i|]; cbn in H.
  - unfold server_step in H. destruct (v_phase s) as [i|i|i b|i r|i|e|i|i] eqn:P; cbn in W1; try discriminate H.
    + destruct (nth_error stages i) as [d|] eqn:E; [|injection H as <- <-; split; [split; [exact I|exact W2]|repeat constructor]].
      destruct (chdir_ok _); injection H as <- <-; split; repeat constructor; cbn; auto.
    + destruct (nth_error stages i) as [d|] eqn:E; [|discriminate H]. injection H as H. unfold start_stage in H.
      destruct (stats_on d && negb (collector_ok d))%bool eqn:B; [injection H as <- <-; split; repeat constructor; cbn; auto|].
      assert (L : (i < n)%nat).
      { destruct (Nat.eq_dec i n) as [->|]; [|lia]. assert (d = c) by congruence. subst d. rewrite ON, BAD in B. discriminate B. }
      destruct (has_local d); [|injection H as <- <-; split; [split; [exact L|exact W2]|destruct (api && _)%bool; repeat constructor; exact L]].
      destruct (s_trx d); [injection H as <- <-; split; [split; [exact L|exact W2]|constructor]|].
      destruct (negb (prepare_ok d)); [injection H as <- <-; split; repeat constructor; cbn; auto|].
      destruct (instances d =? 0)%N; injection H as <- <-; (split; [split; [exact L|exact W2]|]); [repeat constructor; exact L|].
      constructor; [exact L|]. destruct (api && _)%bool; repeat constructor; exact L.
    + destruct (nth_error stages i) as [d|]; [|discriminate H]. destruct (b <? instances d)%N.
      * destruct ctx; [destruct (v_cancelled s); [|discriminate H]; injection H as <- <-; split; repeat constructor; cbn; auto|].
        destruct (v_bootq s) as [|[w err] q]; [discriminate H|]. destruct err; injection H as <- <-; split; repeat constructor; cbn; auto.
      * destruct test; [injection H as <- <-; split; repeat constructor; cbn; auto|].
        destruct (has_local d); injection H as <- <-; split; repeat constructor; cbn; auto.
    + destruct (r =? 0)%N; [injection H as <- <-; split; repeat constructor; cbn; auto|].
      destruct ctx.
      * destruct (v_cancelled s); [|discriminate H]. injection H as <- <-. split; [split; [rewrite P; exact W1|exact W2]|destruct api; repeat constructor; exact W1].
      * destruct (v_doneq s) as [|w q]; [discriminate H|]. injection H as <- <-; split; repeat constructor; cbn; auto.
    + destruct (v_cancelled s); injection H as <- <-; split; repeat constructor; cbn; auto; lia.
  - destruct (v_phase s) eqn:P; try discriminate H. destruct (published _ _ _); [|discriminate H]. injection H as <- <-. now split; [split|].
  - destruct (v_phase s) eqn:P; try discriminate H. destruct (published _ _ _); [|discriminate H]. injection H as <- <-. now split; [split|].
  - destruct (existsb _ _) eqn:X; [|discriminate H]. injection H as <- <-. cbn.
    apply existsb_exists in X as (j & X1 & X2). apply Nat.eqb_eq in X2. subst j. rewrite Forall_forall in W2. split; [split; [exact W1|]|].
    + apply Forall_forall. intros j J. cbn in J. apply filter_In in J as [J _]. exact (W2 j J).
    + repeat constructor. exact (W2 i X1).
  - injection H as <- <-. split; [now split|]. repeat constructor.
Qed.

Lemma stops_run l : forall s s1 es, well s -> run api test stages dir_of chdir_ok collector_ok prepare_ok s l = Some (s1, es) -> well s1 /\ Forall before es.
Proof.
  induction l as [|a l IH]; intros s s1 es W H; cbn in H; [injection H as <- <-; now split|].
  destruct (step _ _ _ _ _ _ _ s a) as [[s2 e2]|] eqn:E; [|discriminate H]. destruct (run _ _ _ _ _ _ _ s2 l) as [[s3 e3]|] eqn:R; [|discriminate H].
  injection H as <- <-. destruct (stops_step _ _ _ _ W E) as [A B]. destruct (IH _ _ _ A R) as [C D]. split; [exact C|]. now apply Forall_app.
Qed.
End Stops.
