(** C43-C45, C48, C64-C68: configuration files. *)
From Verif Require Import Prelude ConfigModel ConfigSpec ConfigVarsProofs ConfigProofs.
From Coq Require Import Permutation.
#[local] Open Scope list_scope.
#[local] Open Scope string_scope.

(** ** An environment and files for the examples *)
Definition E0 : env :=
  Env (fun n => if String.eqb n "HOME" then Some "/home/finch" else None)
      (fun n => if String.eqb n "CPU_CORES" then Some "8" else None)
      (fun s => if String.eqb s "1k" then Some 1000%N else if String.eqb s "1,000" then Some 1000%N else None)
      (fun s => if String.eqb s "5s" then Some 5000000000%Z else None)
      (fun _ => true) (fun f => f) (fun _ ks => ks).
Definition g0 : cgroup := CGroup "" "" false "" "" "" "" "" "" "" "" "" "" "" [].
Definition x0 : trx := Trx "read" "read.sql" [].
Definition s0 : stage :=
  Stage (Compute false "") false "" "bench" empty_mysql 0 [] "" "" (Stats None "" []) "" [x0] [g0].
Definition no_base (_ : string) : option (option base) := None.
Definition file (c : stage) : stage_file := StageFile "." "/stage.yaml" (Some c).

(** ** C43: _all.yaml provides defaults *)

(** The part that holds: every mysql and tls setting, stats.disable and every param of the
    stage is its own if the stage file sets it, else that of _all.yaml; the other sections are
    the stage's. *)
Theorem C43_inherit_partial : forall b c,
  let e := stage_with b c in
  let m := s_mysql c in let bm := b_mysql b in let em := s_mysql e in
  prefer (m_db m) (m_db bm) (m_db em) /\ prefer (m_dsn m) (m_dsn bm) (m_dsn em) /\
  prefer (m_host m) (m_host bm) (m_host em) /\ prefer (m_mycnf m) (m_mycnf bm) (m_mycnf em) /\
  prefer (m_pass m) (m_pass bm) (m_pass em) /\ prefer (m_passfile m) (m_passfile bm) (m_passfile em) /\
  prefer (m_socket m) (m_socket bm) (m_socket em) /\ prefer (m_timeout m) (m_timeout bm) (m_timeout em) /\
  prefer (m_user m) (m_user bm) (m_user em) /\ prefer_bool (m_noauto m) (m_noauto bm) (m_noauto em) /\
  prefer (t_ca (m_tls m)) (t_ca (m_tls bm)) (t_ca (m_tls em)) /\
  prefer (t_cert (m_tls m)) (t_cert (m_tls bm)) (t_cert (m_tls em)) /\
  prefer (t_key (m_tls m)) (t_key (m_tls bm)) (t_key (m_tls em)) /\
  prefer_bool (t_skip (m_tls m)) (t_skip (m_tls bm)) (t_skip (m_tls em)) /\
  prefer_bool (t_disable (m_tls m)) (t_disable (m_tls bm)) (t_disable (m_tls em)) /\
  prefer_bool (st_disable (s_stats c)) (st_disable (b_stats b)) (st_disable (s_stats e)) /\
  (forall k v, sget k (s_params c) = Some v -> sget k (s_params e) = Some v) /\
  (forall k, sget k (s_params c) = None -> sget k (s_params e) = sget k (b_params b)) /\
  (s_compute e = s_compute c /\ s_disable e = s_disable c /\ s_name e = s_name c /\
   s_qps e = s_qps c /\ s_runtime e = s_runtime c /\ s_tps e = s_tps c /\ s_trx e = s_trx c /\
   s_workload e = s_workload c) /\
  (st_report (b_stats b) = [] -> st_report (s_stats e) = st_report (s_stats c)).
Proof.
  intros b c e m bm em.
  repeat (split; [first [apply or_default_prefer|apply set_bool_prefer]|]).
  split; [|split; [|split]].
  - intros k v H. cbn. now rewrite sget_add_missing, H.
  - intros k H. cbn. now rewrite sget_add_missing, H.
  - cbn. auto 10.
  - intros H. cbn. now rewrite H.
Qed.
Print Assumptions C43_inherit_partial.

Example C43_example :
  let b := Base (MySQL "d" "" "h" "" "" "" "" "" (TLS "/ca" "" "" None None "") "u" (Some true))
                [("a", "1"); ("b", "2")] (Stats (Some true) "" []) in
  let c := Stage (Compute false "") false "" "bench"
                 (MySQL "e" "" "" "" "" "" "" "" (TLS "" "" "" (Some false) None "") "" None) 0
                 [("b", "3"); ("c", "4")] "" "" (Stats (Some false) "" []) "" [x0] [g0] in
  let e := stage_with b c in
  s_mysql e = MySQL "e" "" "h" "" "" "" "" "" (TLS "/ca" "" "" (Some false) None "") "u" (Some true) /\
  s_params e = [("b", "3"); ("c", "4"); ("a", "1")] /\ st_disable (s_stats e) = Some false.
Proof. vm_compute. auto. Qed.

(** C43 is false for stats.freq: a stage file that sets it, loaded without an _all.yaml, runs
    without periodic reports. *)
Theorem C43_refuted : exists E c cs,
  st_freq (s_stats c) = "5s" /\ valid_freq E "5s" = true /\
  load E no_base [file c] [] "" "" = Some cs /\ map (fun c => st_freq (s_stats c)) cs = ["0s"].
Proof.
  exists E0, (Stage (Compute false "") false "" "bench" empty_mysql 0 [] "" ""
                (Stats None "5s" []) "" [x0] [g0]).
  eexists. split; [reflexivity|]. split; [reflexivity|]. split; [vm_compute; reflexivity|]. reflexivity.
Qed.
Print Assumptions C43_refuted.

(** It is false for stats.report too: the reporters of _all.yaml replace those of the stage. *)
Theorem C43_refuted_report : exists b c,
  st_report (s_stats c) = [("csv", [("file", "/tmp/out.csv")])] /\
  st_report (s_stats (stage_with b c)) = [("stdout", [("percentiles", "P95")])].
Proof.
  exists (Base empty_mysql [] (Stats None "" [("stdout", [("percentiles", "P95")])])).
  exists (Stage (Compute false "") false "" "bench" empty_mysql 0 [] "" ""
                (Stats None "" [("csv", [("file", "/tmp/out.csv")])]) "" [x0] [g0]).
  split; reflexivity.
Qed.
Print Assumptions C43_refuted_report.

(** ** C44: --param *)

(** The part that holds: if the directory's _all.yaml has params and the stage file does not
    define the param itself, the last --param k=v decides its value. *)
Theorem C44_param_partial : forall E bases fs kvs1 k v kvs2 dsn db cs i f b c c',
  (forall n ks, Permutation (e_order E n ks) ks) ->
  load E bases fs (kvs1 ++ (k ++ String "=" v)%string :: kvs2)%list dsn db = Some cs ->
  every (fun x => x <> "="%char) k -> (forall v', ~ In (k ++ String "=" v') kvs2) ->
  nth_error fs i = Some f -> f_stage f = Some c -> nth_error cs i = Some c' ->
  bases (f_dir f) = Some (Some b) -> b_params b <> [] ->
  NoDup (skeys (s_params c)) -> sget k (s_params c) = None ->
  no_dollar v -> (digits v \/ no_digit v) ->
  sget k (s_params c') = Some v.
Proof.
  intros E bases fs kvs1 k v kvs2 dsn db cs i f b c c' P L Hk Hl Hf Hc Hi Hb Hbp ND Hn Hv Hd.
  apply load_nth in L as [_ L]. destruct (L i f Hf) as (b1 & c0 & c1 & c2 & B & C & V & W & N).
  rewrite Hc in C. injection C as <-. rewrite N in Hi. injection Hi as <-.
  unfold base_of in B. rewrite Hb in B. injection B as <-.
  apply validate_fields in W as (_ & -> & _). apply stage_vars_fields in V as (V & _).
  set (ps := kv_params (kvs1 ++ (k ++ String "=" v)%string :: kvs2)%list []) in *.
  set (c3 := command_line dsn db _) in V.
  assert (S3 : s_params c3 = add_missing (b_params (base_params ps b)) (s_params c)) by reflexivity.
  assert (G3 : sget k (s_params c3) = Some v).
  { rewrite S3, sget_add_missing, Hn. unfold base_params. destruct (b_params b) as [|p0 p1]; [congruence|].
    cbn [b_params]. rewrite sget_fold by (apply kv_nodup; constructor).
    unfold ps. rewrite kv_last by auto. reflexivity. }
  assert (N3 : NoDup (skeys (s_params c3))).
  { rewrite S3. clear -ND. revert ND. generalize (s_params c). induction (b_params (base_params ps b)) as [|[a w] l IH];
      intros m ND; cbn; auto. apply IH. destruct (sget a m); auto. now apply nodup_sset. }
  erewrite vars_params_key; [| | | |exact V|exact G3]; auto.
  - destruct Hd as [Hd|Hd]; [now apply number_digits|now apply number_nodigit].
  - eapply Permutation_NoDup; [apply Permutation_sym, P|exact N3].
  - eapply Permutation_in; [apply Permutation_sym, P|]. apply sget_keys. congruence.
Qed.
Print Assumptions C44_param_partial.

Definition base_ab : base := Base empty_mysql [("a", "1"); ("rows", "2")] (Stats None "" []).
Example C44_example :
  option_map (map (fun c => s_params c))
    (load E0 (fun _ => Some (Some base_ab)) [file s0] ["x"; "rows=3"; "rows=999"] "" "")
  = Some [[("a", "1"); ("rows", "999")]].
Proof. vm_compute. reflexivity. Qed.

(** C44 is false: the stage file's value wins over --param... *)
Theorem C44_refuted : exists E bases c cs,
  load E bases [file c] ["rows=999"] "" "" = Some cs /\
  sget "rows" (s_params c) = Some "500" /\ map (fun c => sget "rows" (s_params c)) cs = [Some "500"].
Proof.
  exists E0, (fun _ => Some (Some base_ab)).
  exists (Stage (Compute false "") false "" "bench" empty_mysql 0 [("rows", "500")] "" ""
                (Stats None "" []) "" [x0] [g0]).
  eexists. split; [vm_compute; reflexivity|]. split; reflexivity.
Qed.
Print Assumptions C44_refuted.

(** ... and without params in _all.yaml, --param has no effect at all: for every set of files,
    loading with any --param options gives what loading without them gives. *)
Theorem C44_refuted_no_base : forall E fs kvs dsn db,
  load E no_base fs kvs dsn db = load E no_base fs [] dsn db.
Proof.
  intros E fs kvs dsn db. unfold load. generalize 0%nat, (@nil (string * base)).
  induction fs as [|f fs IH]; intros n cache; cbn [load_files]; auto.
  unfold no_base at 1 3. cbn [base_params b_params empty_base].
  match goal with |- match ?e with _ => _ end = _ => destruct e as [bc|] end; auto.
  destruct (f_stage f); auto. destruct (stage_vars E _); auto. destruct (stage_validate E _); auto.
  now rewrite IH.
Qed.
Print Assumptions C44_refuted_no_base.

(** ** C45: accepted workloads *)
Theorem C45_workload : forall E bases fs kvs dsn db cs c,
  load E bases fs kvs dsn db = Some cs -> In c cs -> s_disable c = false ->
  let group i := option_map g_group (nth_error (s_workload c) i) in
  (forall i j k name, (i < j < k)%nat -> name <> "" ->
     group i = Some name -> group k = Some name -> group j = Some name) /\
  (forall g name, In g (s_workload c) -> In name (g_trx g) ->
     exists x, In x (s_trx c) /\ x_name x = name) /\
  ((forall g, In g (s_workload c) -> g_trx g = []) \/ (forall g, In g (s_workload c) -> g_trx g <> [])).
Proof.
  intros E bases fs kvs dsn db cs c' L Hin D group.
  apply load_nth in L as [HL L]. apply In_nth_error in Hin as [i Hi].
  destruct (nth_same_length fs cs i c' (eq_sym HL) Hi) as [f Hf].
  destruct (L i f Hf) as (b1 & c0 & c1 & c2 & _ & _ & _ & W & N).
  rewrite N in Hi. injection Hi as ->. clear N L HL Hf.
  pose proof (validate_fields _ _ _ W) as (_ & _ & D' & _). rewrite D in D'. symmetry in D'.
  destruct (validate_spec E c1 c' W D') as (xs & gs & w & wo & X & G & M & _ & -> & Hg & _).
  pose proof (check_workload_spec _ _ _ _ _ _ _ _ G) as (F2 & T & Wf & Wo).
  assert (Q : map g_group (s_workload c') = map g_group (s_workload c1) /\
              map g_trx (s_workload c') = map g_trx (s_workload c1)).
  { rewrite Hg. clear -F2. induction F2; cbn; auto. destruct IHF2 as [A B].
    apply check_cgroup_fields in H as (-> & -> & _). now rewrite A, B. }
  destruct Q as [Qg Qt].
  assert (Qg' : forall i, group i = nth_error (map g_group (s_workload c1)) i).
  { intros j. unfold group. rewrite <- Qg, nth_error_map. reflexivity. }
  assert (Qin : forall g, In g (s_workload c') -> exists g1, In g1 (s_workload c1) /\ g_trx g1 = g_trx g).
  { intros g Hg1. assert (Y : In (g_trx g) (map g_trx (s_workload c1))) by (rewrite <- Qt; now apply in_map).
    apply in_map_iff in Y as (g1 & ? & ?). eauto. }
  split; [|split].
  - intros a j k name Hajk Hn. rewrite !Qg'. eapply contiguous; eauto.
  - intros g name Hg1 Hn. destruct (Qin g Hg1) as (g1 & Hg1' & Ht). rewrite Forall_forall in T.
    specialize (T g1 Hg1'). rewrite Forall_forall in T. rewrite Ht in T. apply T in Hn. exact Hn.
  - destruct w, wo; try discriminate.
    + right. intros g Hg1. destruct (Qin g Hg1) as (g1 & Hg1' & <-).
      specialize (Wo eq_refl). rewrite Forall_forall in Wo. auto.
    + left. intros g Hg1. destruct (Qin g Hg1) as (g1 & Hg1' & <-).
      specialize (Wf eq_refl). rewrite Forall_forall in Wf. auto.
    + left. intros g Hg1. destruct (Qin g Hg1) as (g1 & Hg1' & <-).
      specialize (Wf eq_refl). rewrite Forall_forall in Wf. auto.
Qed.
Print Assumptions C45_workload.

Definition gx (name : string) (ts : list string) : cgroup :=
  CGroup "" "" false "" "" "" name "" "" "" "" "" "" "" ts.
Definition sw (gs : list cgroup) : stage :=
  Stage (Compute false "") false "" "bench" empty_mysql 0 [] "" "" (Stats None "" []) "" [x0] gs.
Example C45_example :
  (exists cs, load E0 no_base [file (sw [gx "a" ["read"]; gx "a" ["read"]; gx "b" ["read"; "read"]])] [] "" "" = Some cs
              /\ length cs = 1%nat) /\
  load E0 no_base [file (sw [gx "a" ["read"]; gx "b" ["read"]; gx "a" ["read"]])] [] "" "" = None /\
  load E0 no_base [file (sw [gx "a" ["write"]])] [] "" "" = None /\
  load E0 no_base [file (sw [gx "a" ["read"]; gx "b" []])] [] "" "" = None.
Proof. split; [eexists; split; vm_compute; reflexivity|]. vm_compute. auto. Qed.

(** ** C48: interpolation *)

(** The part that holds: in a text with unambiguous references of which no $name is the
    beginning of another $name and no ${name} has a value with a dollar sign, every reference is
    replaced by the value of its own variable, all other text is kept, and an undefined variable
    is an error. *)
Theorem C48_vars_partial : forall E ps l, readable l -> prefix_free l -> braces_plain E ps l ->
  vars E ps false (text l) = expected E ps l.
Proof. exact vars_text. Qed.
Print Assumptions C48_vars_partial.

(** Braces only: no condition on the names. *)
Theorem C48_braces : forall E ps l, readable l -> (forall v, ~ In (Bare v) l) -> braces_plain E ps l ->
  vars E ps false (text l) = expected E ps l.
Proof. intros E ps l R B P. apply vars_text; auto. intros v w t H. now apply B in H. Qed.
Print Assumptions C48_braces.

Example C48_example :
  let ps := [("a", "x"); ("ab", "y")] in
  let l := [Lit "A="; Brace (VParam "a"); Brace (VParam "ab"); Lit "; home "; Bare (VEnv "HOME");
            Lit " cores "; Bare (VSys "CPU_CORES")] in
  readable l /\ prefix_free l /\ braces_plain E0 ps l /\
  text l = "A=${params.a}${params.ab}; home $HOME cores $sys.CPU_CORES" /\
  vars E0 ps false (text l) = Some "A=xy; home /home/finch cores 8".
Proof.
  intros ps l. split; [|split; [|split; [|split]]].
  - cbn -[append]. unfold no_dollar, bare_name_char, white, quote, digit.
    repeat (split || match goal with |- _ <> _ => discriminate end || (intros H; vm_compute in H; intuition discriminate) || exact I || (left; vm_compute; tauto)).
  - intros v w t Hv Hw. unfold l in Hv, Hw. cbn in Hv, Hw.
    repeat (destruct Hv as [Hv|Hv]; [try discriminate; injection Hv as <-|]); try easy;
    repeat (destruct Hw as [Hw|Hw]; [try discriminate; injection Hw as <-|]); try easy.
    + cbn. intros H. congruence.
    + cbn. intros H. congruence.
  - intros v x Hv. unfold l in Hv. cbn in Hv.
    repeat (destruct Hv as [Hv|Hv]; [try discriminate; injection Hv as <-|]); try easy;
    cbn; intros [= <-]; cbn; split; auto; discriminate.
  - reflexivity.
  - vm_compute. reflexivity.
Qed.

(** C48 is false: $params.a is replaced inside $params.ab... *)
Theorem C48_refuted : exists ps l, readable l /\ braces_plain E0 ps l /\
  expected E0 ps l = Some "x y" /\ vars E0 ps false (text l) = Some "x xb".
Proof.
  exists [("a", "x"); ("ab", "y")], [Bare (VParam "a"); Lit " "; Bare (VParam "ab")].
  split; [|split; [|split]].
  - cbn -[append]. unfold no_dollar, bare_name_char, white, quote.
    repeat (split || match goal with |- _ <> _ => discriminate end || (intros H; vm_compute in H; intuition discriminate) || exact I || (left; vm_compute; tauto)).
  - intros v x Hv. cbn in Hv. intuition discriminate.
  - reflexivity.
  - vm_compute. reflexivity.
Qed.
Print Assumptions C48_refuted.

(** ... and the value of a ${name} is itself searched for references, so a dollar sign in a
    value is an error (or is replaced). *)
Theorem C48_refuted_rescan : exists ps l, readable l /\ prefix_free l /\
  expected E0 ps l = Some "user:pa$word@tcp" /\ vars E0 ps false (text l) = None.
Proof.
  exists [("pw", "pa$word")], [Lit "user:"; Brace (VParam "pw"); Lit "@tcp"].
  split; [|split; [|split]].
  - cbn -[append]. unfold no_dollar.
    repeat (split || match goal with |- _ <> _ => discriminate end || exact I).
  - intros v w t Hv. cbn in Hv. intuition discriminate.
  - reflexivity.
  - vm_compute. reflexivity.
Qed.
Print Assumptions C48_refuted_rescan.

(** ** C64: string-int settings *)

(** The part that holds: a setting that is interpolated as a number (clients, qps, tps and
    their variants, instances, params and data params) is unchanged if it is empty or all digits
    and is otherwise the integer that a human readable number means; if it is a reference to a
    param it is what the param's value is. *)
Theorem C64_string_int_partial : forall E ps,
  vars E ps true "" = Some "" /\
  (forall s, digits s -> vars E ps true s = Some s) /\
  (forall s, human_number s -> ~ digits s ->
     vars E ps true s = match e_parse_bytes E s with Some d => Some (format_uint d) | None => None end) /\
  (forall k, k <> "" -> every bare_name_char k -> sget k ps = None ->
     vars E ps true ("$params." ++ k) = None) /\
  (forall k v, k <> "" -> every bare_name_char k -> sget k ps = Some v -> human_number v -> ~ digits v ->
     vars E ps true ("$params." ++ k) =
       match e_parse_bytes E v with Some d => Some (format_uint d) | None => None end) /\
  (forall k v, k <> "" -> every bare_name_char k -> sget k ps = Some v -> digits v ->
     vars E ps true ("$params." ++ k) = Some v).
Proof.
  intros E ps.
  assert (ND : forall s, digits s -> no_dollar s).
  { intros s; apply every_impl. intros c Hc ->. unfold digit in Hc. vm_compute in Hc. lia. }
  assert (NH : forall s, human_number s -> no_dollar s).
  { intros s (num & d & u & -> & Hd & Hn & Hu). apply every_app. split.
    - eapply every_impl; [|exact Hn]. intros c [Hc| ->] H; [subst; unfold digit in Hc; vm_compute in Hc; lia|discriminate].
    - split; [intros ->; unfold digit in Hd; vm_compute in Hd; lia|].
      eapply every_impl; [|exact Hu]. intros c Hc ->. cbn in Hc. intuition discriminate. }
  assert (R : forall k, k <> "" -> every bare_name_char k ->
     vars E ps true ("$params." ++ k) = match sget k ps with None => None | Some v => number_pass E v end).
  { intros k Hk Hc. rewrite vars_true.
    assert (T : text [Bare (VParam k)] = "$params." ++ k) by (cbn; now rewrite sapp_nil).
    rewrite <- T, vars_text.
    - cbn. destruct (sget k ps) as [v|]; auto. now rewrite sapp_nil.
    - cbn [readable var_ok var_name text delimited]. split; [|exact I]. split; [exact I|].
      split; [discriminate|]. split; [|exact I].
      apply every_app. split; auto. cbn [every]. unfold bare_name_char, white, quote.
      repeat match goal with |- _ /\ _ => split end; try exact I;
        intros H; vm_compute in H; intuition discriminate.
    - intros v w t Hv Hw. cbn in Hv, Hw. destruct Hv as [Hv|[]]; injection Hv as <-.
      destruct Hw as [Hw|[]]; injection Hw as <-. intros H.
      rewrite <- (sapp_nil (var_name (VParam k))) in H at 1. apply sapp_inj_l in H. auto.
    - intros v x Hv. cbn in Hv. intuition discriminate. }
  split; [reflexivity|]. split; [|split; [|split; [|split]]].
  - intros s H. rewrite vars_true, vars_plain by auto. now apply number_digits.
  - intros s H Hd. rewrite vars_true, vars_plain by auto. rewrite number_human by auto.
    now destruct (e_parse_bytes E s).
  - intros k Hk Hc Hn. now rewrite R, Hn by auto.
  - intros k v Hk Hc Hv Hh Hd. rewrite R, Hv, number_human by auto. now destruct (e_parse_bytes E v).
  - intros k v Hk Hc Hv Hd. rewrite R, Hv by auto. now apply number_digits.
Qed.
Print Assumptions C64_string_int_partial.

Example C64_example :
  human_number "1k" /\ ~ digits "1k" /\ human_number "1,000" /\
  vars E0 [("n", "1,000")] true "1k" = Some "1000" /\
  vars E0 [("n", "1,000")] true "$params.n" = Some "1000" /\ vars E0 [] true "64" = Some "64".
Proof.
  assert (D : forall c, (48 <=? nat_of_ascii c)%nat && (nat_of_ascii c <=? 57)%nat = true -> digit c).
  { intros c H. unfold digit. lia. }
  split; [|split; [|split]].
  - exists "", "1"%char, "k". repeat split; try (apply D; reflexivity). cbn. tauto.
  - intros (_ & H & _). unfold digit in H. vm_compute in H. lia.
  - exists "1,00", "0"%char, "". cbn [every]. repeat split; try (apply D; reflexivity);
      try (left; apply D; reflexivity). now right.
  - vm_compute. auto.
Qed.

(** C64 is false for iter, iter-clients and iter-exec-group, which are not interpolated: only
    plain digits are accepted there, so "1k" or "$params.n" is an error although the same value
    is accepted for clients. *)
Theorem C64_refuted : 
  (forall E bases fs kvs dsn db i f c g,
     nth_error fs i = Some f -> f_stage f = Some c -> s_disable c = false -> In g (s_workload c) ->
     (exists s, In s [g_iter g; g_iter_c g; g_iter_x g] /\ s <> "" /\ ~ digits s) ->
     load E bases fs kvs dsn db = None) /\
  exists cs, load E0 no_base
    [file (sw [CGroup "1k" "" false "" "" "" "" "" "" "" "" "" "" "" []])] [] "" "" = Some cs /\
    load E0 no_base
    [file (sw [CGroup "" "" false "1k" "" "" "" "" "" "" "" "" "" "" []])] [] "" "" = None.
Proof.
  split.
  - intros E bases fs kvs dsn db i f c g Hf Hc D Hg (s & Hs & Hne & Hnd).
    destruct (load E bases fs kvs dsn db) as [cs|] eqn:L; auto. exfalso.
    apply load_nth in L as [_ L]. destruct (L i f Hf) as (b & c0 & c1 & c2 & _ & C & V & W & _).
    rewrite Hc in C. injection C as <-.
    apply stage_vars_fields in V as (_ & _ & _ & F2 & _ & _ & _ & _ & _ & _ & D1 & _).
    cbn in D1. rewrite D in D1.
    destruct (validate_spec _ _ _ W D1) as (xs & gs & w & wo & _ & G & _).
    apply check_workload_spec in G as (G & _).
    set (wl := s_workload (command_line dsn db (stage_with b (set_file_n (f_abs f) (S i) c)))) in F2.
    assert (Hg' : exists g', In g' wl /\ g_iter g' = g_iter g /\ g_iter_c g' = g_iter_c g /\ g_iter_x g' = g_iter_x g).
    { unfold wl. cbn. destruct db; [eauto|]. exists (cg_set_db (String a db) g). split; [now apply in_map|auto]. }
    destruct Hg' as (g' & Hg' & I1 & I2 & I3).
    assert (Hg1 : exists g1, In g1 (s_workload c1) /\ g_iter g1 = g_iter g /\ g_iter_c g1 = g_iter_c g /\ g_iter_x g1 = g_iter_x g).
    { clear -F2 Hg' I1 I2 I3. induction F2; [easy|]. destruct Hg' as [->|Hg'].
      - exists y. apply vars_cgroup_fields in H. split; [now left|]. intuition congruence.
      - destruct (IHF2 Hg') as (g1 & ? & ?). exists g1. split; [now right|auto]. }
    destruct Hg1 as (g1 & Hg1 & J1 & J2 & J3).
    assert (CG : exists g2, check_cgroup E g1 = Some g2).
    { clear -G Hg1. induction G; [easy|]. destruct Hg1 as [->|Hg1]; eauto. }
    destruct CG as (g2 & CG). apply check_cgroup_fields in CG as (_ & _ & _ & P & _).
    rewrite Forall_forall in P. rewrite <- J1, <- J2, <- J3 in Hs.
    destruct (P s) as [?|[n Hn]]; auto.
    + cbn in Hs |- *. tauto.
    + apply parse_uint32_decimal in Hn as [Hn _]. now apply decimal_digits in Hn.
  - eexists. split; vm_compute; reflexivity.
Qed.
Print Assumptions C64_refuted.

(** ** C65: accepted configurations are well-formed *)
Definition number_ok (s : string) : Prop := s = "" \/ exists n, decimal s n /\ (n < 2 ^ 32)%N.
Definition duration_ok (E : env) (s : string) : Prop :=
  s = "" \/ exists d, e_parse_duration E s = Some d /\ (0 < d)%Z.

(** The part that holds: trx files exist and every trx has a file, data has a generator, a
    known scope and the same scope wherever the key is used, numbers are integers below 2^32 and
    durations are positive. *)
Theorem C65_accepted_partial : forall E bases fs kvs dsn db cs c,
  load E bases fs kvs dsn db = Some cs -> In c cs -> s_disable c = false ->
  s_trx c <> [] /\
  (forall x, In x (s_trx c) -> x_file x <> "" /\ e_exists E (x_file x) = true) /\
  (forall x k d, In x (s_trx c) -> In (k, d) (x_data x) -> d_gen d <> "" /\
     In (d_scope d) [""; "global"; "stage"; "workload"; "exec-group"; "client-group"; "client";
                     "iter"; "trx"; "statement"; "row"; "value"]) /\
  (forall x y k d d', In x (s_trx c) -> In y (s_trx c) -> In (k, d) (x_data x) -> In (k, d') (x_data y) ->
     d_scope d = d_scope d') /\
  (forall g, In g (s_workload c) ->
     g_clients g <> "" /\
     Forall number_ok [g_clients g; g_iter g; g_iter_c g; g_iter_x g; g_qps g; g_qps_c g; g_qps_x g;
                       g_tps g; g_tps_c g; g_tps_x g] /\
     duration_ok E (g_runtime g)) /\
  Forall number_ok [s_qps c; s_tps c; c_instances (s_compute c)] /\ c_instances (s_compute c) <> "" /\
  duration_ok E (s_runtime c) /\
  (st_freq (s_stats c) = "0s" \/ (st_freq (s_stats c) <> "" /\ duration_ok E (st_freq (s_stats c)))) /\
  st_report (s_stats c) <> [].
Proof.
  intros E bases fs kvs dsn db cs c' L Hin D.
  apply load_nth in L as [HL L]. apply In_nth_error in Hin as [i Hi].
  destruct (nth_same_length fs cs i c' (eq_sym HL) Hi) as [f Hf].
  destruct (L i f Hf) as (b1 & c0 & c1 & c2 & _ & _ & _ & W & N).
  rewrite N in Hi. injection Hi as ->. clear N L HL Hf.
  pose proof (validate_fields _ _ _ W) as (_ & _ & D' & _). rewrite D in D'. symmetry in D'.
  destruct (validate_spec E c1 c' W D') as (xs & gs & w & wo & X & G & M & Tn & Ex & Eg & R & Q & T & I & ER & EQ & ET & EI & St).
  apply check_trx_spec in X as (X & seen & _ & XD).
  apply check_workload_spec in G as (G & _).
  assert (One : number_ok "1").
  { right. exists 1%N. split; [|lia]. apply (dec_one "1"). unfold digit. vm_compute. lia. }
  assert (Xin : forall x, In x xs -> exists x1, In x1 (s_trx c1) /\ x_file x1 <> "" /\ e_exists E (x_file x1) = true /\
      x_file x = x_file x1 /\ x_data x = x_data x1).
  { clear -X. induction X; [easy|]. intros x1 [<-|Hx].
    - exists x. split; [now left|]. tauto.
    - destruct (IHX x1 Hx) as (z & ? & ?). exists z. split; [now right|auto]. }
  assert (Gin : forall g, In g gs -> exists g1, In g1 (s_workload c1) /\ check_cgroup E g1 = Some g).
  { clear -G. induction G; [easy|]. intros g [<-|Hg].
    - exists x. split; [now left|auto].
    - destruct (IHG g Hg) as (z & ? & ?). exists z. split; [now right|auto]. }
  rewrite Forall_forall in XD. rewrite Ex, Eg, ER, EQ, ET, EI.
  split; [|split; [|split; [|split; [|split; [|split; [|split; [|split; [|split]]]]]]]].
  - intros ->. inversion X as [Y|]. now rewrite <- Y in Tn.
  - intros x Hx. destruct (Xin x Hx) as (x1 & _ & A & B & C & _). rewrite C. auto.
  - intros x k d Hx Hd. destruct (Xin x Hx) as (x1 & Hx1 & _ & _ & _ & C). rewrite C in Hd.
    destruct (XD x1 Hx1 k d Hd) as (A & B & _). auto.
  - intros x y k d d' Hx Hy Hd Hd'. destruct (Xin x Hx) as (x1 & Hx1 & _ & _ & _ & C). rewrite C in Hd.
    destruct (Xin y Hy) as (y1 & Hy1 & _ & _ & _ & C'). rewrite C' in Hd'.
    destruct (XD x1 Hx1 k d Hd) as (_ & _ & A). destruct (XD y1 Hy1 k d' Hd') as (_ & _ & B). congruence.
  - intros g Hg. destruct (Gin g Hg) as (g1 & _ & Hc). apply check_cgroup_fields in Hc as (_ & _ & _ & P & F & ->).
    cbn [g_clients g_iter g_iter_c g_iter_x g_qps g_qps_c g_qps_x g_tps g_tps_c g_tps_x g_runtime].
    assert (P' : Forall number_ok [g_clients g1; g_iter g1; g_iter_c g1; g_iter_x g1; g_qps g1; g_qps_c g1; g_qps_x g1; g_tps g1; g_tps_c g1; g_tps_x g1]).
    { eapply Forall_impl; [|exact P]. intros s [?|[n Hn]]; [now left|right]. apply parse_uint32_decimal in Hn. eauto. }
    split; [destruct (g_clients g1); discriminate|]. split; [|now apply valid_freq_spec].
    apply Forall_cons; [|now inversion P'].
    destruct (g_clients g1) eqn:Ec; [auto|]. rewrite <- Ec in *. now inversion P'.
  - apply Forall_cons; [now apply parse_int_ok_spec|]. apply Forall_cons; [now apply parse_int_ok_spec|].
    apply Forall_cons; [|apply Forall_nil]. destruct (c_instances (s_compute c1)); [auto|now apply parse_int_ok_spec].
  - destruct (c_instances (s_compute c1)); discriminate.
  - now apply valid_freq_spec.
  - unfold check_stats in St. destruct (st_freq (s_stats c1)) as [|a s] eqn:Ef; [injection St as <-; auto|].
    destruct (valid_freq E (String a s)) eqn:V; [|discriminate]. injection St as <-. right. cbn [st_freq].
    split; [discriminate|]. now apply valid_freq_spec.
  - unfold check_stats in St. destruct (st_freq (s_stats c1)) as [|a s].
    + injection St as <-. cbn. destruct (st_report (s_stats c1)); discriminate.
    + destruct (valid_freq E (String a s)); [|discriminate]. injection St as <-. cbn.
      destruct (st_report (s_stats c1)); discriminate.
Qed.
Print Assumptions C65_accepted_partial.

Example C65_example : exists cs,
  load E0 no_base [file (Stage (Compute false "2") false "" "" empty_mysql 0 [("n", "1k")] "$params.n" "5s"
    (Stats None "" []) "100" [Trx "" "w.sql" [("d", Data "" "int" "row" [("max", "$params.n")])]] [g0])] [] "" "" = Some cs /\
  map s_qps cs = ["1000"] /\ map s_name cs = ["/stage.yaml"] /\
  map (fun c => map g_clients (s_workload c)) cs = [["1"]].
Proof. eexists. split; [vm_compute; reflexivity|]. auto. Qed.

(** C65 is false for TLS files: a client certificate without its key, in files that do not even
    exist, is accepted (TLS.Validate is never called)... *)
Theorem C65_refuted : exists E c cs t,
  load E no_base [file c] [] "" "" = Some cs /\ map (fun c => m_tls (s_mysql c)) cs = [t] /\
  t_cert t = "/missing.pem" /\ t_key t = "" /\ e_exists E "/missing.pem" = false /\ tls_validate E t = false.
Proof.
  exists (Env (fun _ => None) (fun _ => None) (fun _ => None) (fun _ => None) (String.eqb "read.sql")
            (fun f => f) (fun _ ks => ks)).
  exists (Stage (Compute false "") false "" "bench"
            (MySQL "" "" "" "" "" "" "" "" (TLS "" "/missing.pem" "" None None "") "" None) 0 [] "" ""
            (Stats None "" []) "" [x0] [g0]).
  eexists. eexists. split; [vm_compute; reflexivity|]. split; [reflexivity|]. auto.
Qed.
Print Assumptions C65_refuted.

(** ** C66: --dsn and --database *)

(** The part that holds: whatever the files say, the DSN of every stage is the one given with
    --dsn, and the default database of every stage and every client group is the one given with
    --database, if these have no dollar sign. *)
Theorem C66_command_line_partial : forall E bases fs kvs dsn db cs c,
  load E bases fs kvs dsn db = Some cs -> In c cs ->
  (dsn <> "" -> no_dollar dsn -> m_dsn (s_mysql c) = dsn) /\
  (db <> "" -> no_dollar db -> m_db (s_mysql c) = db /\ forall g, In g (s_workload c) -> g_db g = db).
Proof.
  intros E bases fs kvs dsn db cs c' L Hin.
  apply load_nth in L as [HL L]. apply In_nth_error in Hin as [i Hi].
  destruct (nth_same_length fs cs i c' (eq_sym HL) Hi) as [f Hf].
  destruct (L i f Hf) as (b1 & c0 & c1 & c2 & _ & _ & V & W & N).
  rewrite N in Hi. injection Hi as ->.
  apply validate_fields in W as (-> & _ & _ & _ & _ & Hdb).
  apply stage_vars_fields in V as (_ & V & _ & F2 & _).
  apply vars_mysql_dsn in V as [V1 V2]. cbn in V1, V2. split.
  - intros Hd Hn. destruct dsn; [congruence|]. rewrite vars_plain in V1 by auto. congruence.
  - intros Hd Hn. destruct db as [|a db]; [congruence|]. rewrite vars_plain in V2 by auto. split; [congruence|].
    cbn in F2. intros g Hg.
    assert (Hg' : In (g_db g) (map g_db (s_workload c1))) by (rewrite <- Hdb; now apply in_map).
    apply in_map_iff in Hg' as (g1 & <- & Hg1). clear -F2 Hg1 Hn.
    remember (map (cg_set_db (String a db)) (s_workload c0)) as l eqn:El.
    assert (Hl : Forall (fun g => g_db g = String a db) l).
    { subst. apply Forall_forall. intros x Hx. apply in_map_iff in Hx as (y & <- & _). reflexivity. }
    clear El. induction F2; [easy|]. apply Forall_cons_iff in Hl as [Hl1 Hl2].
    destruct Hg1 as [->|Hg1]; [|auto].
    apply vars_cgroup_fields in H as (H & _). rewrite Hl1, vars_plain in H by auto. congruence.
Qed.
Print Assumptions C66_command_line_partial.

Example C66_example : exists cs,
  load E0 no_base [file (Stage (Compute false "") false "" "bench"
    (MySQL "a" "u@tcp(h)/" "" "" "" "" "" "" empty_tls "" None) 0 [] "" "" (Stats None "" []) "" [x0]
    [CGroup "" "b" false "" "" "" "" "" "" "" "" "" "" "" []])] [] "root:pw@tcp(db)/" "test" = Some cs /\
  map (fun c => (m_dsn (s_mysql c), m_db (s_mysql c), map g_db (s_workload c))) cs
  = [("root:pw@tcp(db)/", "test", ["test"])].
Proof. eexists. split; vm_compute; reflexivity. Qed.

(** C66 is false for a DSN with a dollar sign: it is interpolated like the files, so finch with
    a password containing one refuses to start. *)
Theorem C66_refuted : exists cs,
  load E0 no_base [file s0] [] "" "" = Some cs /\
  load E0 no_base [file s0] [] "root:pa$word@tcp(db)/" "" = None.
Proof. eexists. split; vm_compute; reflexivity. Qed.
Print Assumptions C66_refuted.

(** ** C67: map iteration order *)

(** The part that holds: if no param's value has a dollar sign, the stage does not depend on
    the order in which Go visits the params. *)
Theorem C67_order_partial : forall E o1 o2 c,
  (forall n ks, Permutation (o1 n ks) ks) -> (forall n ks, Permutation (o2 n ks) ks) ->
  NoDup (skeys (s_params c)) -> (forall k v, sget k (s_params c) = Some v -> no_dollar v) ->
  stage_vars (with_order E o1) c = stage_vars (with_order E o2) c.
Proof. exact stage_vars_order. Qed.
Print Assumptions C67_order_partial.

Definition s_chain : stage :=
  Stage (Compute false "") false "" "$params.a" empty_mysql 0
    [("a", "$params.b"); ("b", "$params.c"); ("c", "x")] "" "" (Stats None "" []) "" [x0] [g0].
Example C67_example :
  option_map s_params (stage_vars (with_order E0 (fun _ ks => rev ks)) (sw [g0])) = Some [] /\
  option_map s_params (stage_vars (with_order E0 (fun _ ks => rev ks))
    (Stage (Compute false "") false "" "n" empty_mysql 0 [("a", "1k"); ("b", "x")] "" "" (Stats None "" []) "" [x0] [g0]))
  = Some [("a", "1000"); ("b", "x")].
Proof. vm_compute. auto. Qed.

(** C67 is false for params that refer to params: the name of this stage depends on the order. *)
Theorem C67_refuted : exists E o1 o2 c c1 c2,
  (forall n ks, Permutation (o1 n ks) ks) /\ (forall n ks, Permutation (o2 n ks) ks) /\
  NoDup (skeys (s_params c)) /\
  stage_vars (with_order E o1) c = Some c1 /\ stage_vars (with_order E o2) c = Some c2 /\
  s_name c1 = "$params.c" /\ s_name c2 = "x".
Proof.
  exists E0, (fun _ ks => ks), (fun _ ks => rev ks), s_chain. eexists. eexists.
  split; [intros; apply Permutation_refl|]. split; [intros; apply Permutation_sym, Permutation_rev|].
  split; [repeat constructor; cbn; intuition discriminate|].
  split; [vm_compute; reflexivity|]. split; [vm_compute; reflexivity|]. split; reflexivity.
Qed.
Print Assumptions C67_refuted.

(** ** C68: stage files do not influence each other *)

(** A stage is determined by its own file, its position on the command line and the options:
    the other files given with it make no difference (they share the _all.yaml of their
    directory). *)
Theorem C68_independent : forall E bases kvs dsn db fs1 fs2 cs1 cs2 i f,
  load E bases fs1 kvs dsn db = Some cs1 -> load E bases fs2 kvs dsn db = Some cs2 ->
  nth_error fs1 i = Some f -> nth_error fs2 i = Some f ->
  exists c, nth_error cs1 i = Some c /\ nth_error cs2 i = Some c /\ s_n c = S i.
Proof.
  intros E bases kvs dsn db fs1 fs2 cs1 cs2 i f L1 L2 H1 H2.
  apply load_nth in L1 as [_ L1]. apply load_nth in L2 as [_ L2].
  destruct (L1 i f H1) as (b & c & c1 & c2 & B & C & V & W & N).
  destruct (L2 i f H2) as (b' & c' & c1' & c2' & B' & C' & V' & W' & N').
  rewrite B in B'. injection B' as <-. rewrite C in C'. injection C' as <-.
  rewrite V in V'. injection V' as <-. rewrite W in W'. injection W' as <-.
  exists c2. split; [auto|split; [auto|]].
  apply validate_fields in W as (_ & _ & _ & -> & _).
  apply stage_vars_fields in V as (_ & _ & _ & _ & _ & _ & _ & _ & _ & _ & _ & -> & _). reflexivity.
Qed.
Print Assumptions C68_independent.

Example C68_example : exists c c1 c2,
  load E0 (fun _ => Some (Some base_ab)) [file s0; file s_chain] ["a=7"] "" "" = Some [c; c1] /\
  load E0 (fun _ => Some (Some base_ab)) [file s_chain; file s_chain] ["a=7"] "" "" = Some [c2; c1].
Proof. do 3 eexists. split; vm_compute; reflexivity. Qed.
