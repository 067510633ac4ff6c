(** C47, C58, C69 and C108: connection settings, addresses and TLS. *)
From Verif Require Import Prelude ConfigModel ConfigSpec ConfigVarsProofs DsnModel.
#[local] Open Scope list_scope.
#[local] Open Scope string_scope.

(** ** Addresses *)

(** [s] ends in a colon and at least one digit. *)
Definition ends_in_port (s : string) : Prop :=
  exists h d ds, s = h ++ String ":" (String d ds) /\ digit d /\ digits ds.

Lemma has_port_spec s : has_port s = true <-> ends_in_port s.
Proof.
  split.
  - induction s as [|c s IH]; cbn [has_port]; [discriminate|].
    rewrite orb_true_iff. intros [H|H].
    + unfold port_at in H. rewrite !andb_true_iff in H. destruct H as ((Hc & Hn) & Hd).
      apply Ascii.eqb_eq in Hc. subst c. destruct s as [|d ds]; [discriminate|].
      apply all_digits_spec in Hd. destruct Hd. exists "", d, ds. auto.
    + destruct (IH H) as (h & d & ds & -> & ? & ?). exists (String c h), d, ds. auto.
  - intros (h & d & ds & -> & Hd & Hds). induction h as [|c h IH].
    + cbn [append has_port port_at]. assert (X : all_digits (String d ds) = true) by (apply all_digits_spec; split; auto).
      rewrite X. reflexivity.
    + cbn [append has_port]. rewrite IH. apply orb_true_r.
Qed.

(** C58: an address with a port keeps it, any other gets the default one; so the result always
    ends in exactly the port it had or the default, and adding a default port again, even a
    different one, changes nothing. *)
Theorem C58_one_port : forall s d ds, digit d -> digits ds ->
  let p := String d ds in
  (ends_in_port s -> with_port s p = s) /\
  (~ ends_in_port s -> with_port s p = s ++ ":" ++ p) /\
  ends_in_port (with_port s p) /\
  forall q, with_port (with_port s p) q = with_port s p.
Proof.
  intros s d ds Hd Hds p.
  assert (E : ends_in_port (with_port s p)).
  { unfold with_port. destruct (has_port s) eqn:H; [now apply has_port_spec|].
    exists s, d, ds. auto. }
  split; [|split; [|split]]; auto.
  - intros H. unfold with_port. apply has_port_spec in H. now rewrite H.
  - intros H. unfold with_port. destruct (has_port s) eqn:X; auto. now apply has_port_spec in X.
  - intros q. apply has_port_spec in E. unfold with_port at 1. now rewrite E.
Qed.
Print Assumptions C58_one_port.

Example C58_example :
  with_port "" "33075" = ":33075" /\ with_port "db:1" "33075" = "db:1" /\
  with_port "::1" "33075" = "::1" /\ with_port "db:" "33075" = "db::33075".
Proof. vm_compute. auto. Qed.

(** ** Connection settings *)

(** C47, first part: an explicit DSN (which --dsn overwrites, see C66) is used as is, whatever
    else is configured and whatever files exist. *)
Theorem C47_dsn : forall F cfg, m_dsn cfg <> "" -> set_dsn F cfg = Some (Source (m_dsn cfg) None).
Proof. intros F cfg H. unfold set_dsn. destruct (m_dsn cfg); [congruence|auto]. Qed.
Print Assumptions C47_dsn.

(** The value set in the configuration, else in my.cnf (if one is configured), else [dflt]. *)
Definition chosen (own : string) (cnf : option (string -> string)) (inherited : (string -> string) -> string)
    (dflt effective : string) : Prop :=
  (own <> "" -> effective = own) /\
  (own = "" -> forall get, cnf = Some get -> inherited get <> "" -> effective = inherited get) /\
  (own = "" -> (forall get, cnf = Some get -> inherited get = "") -> effective = dflt).

(** The host of my.cnf with its port. *)
Definition cnf_host (get : string -> string) : string :=
  match get "port" with "" => get "host" | p => get "host" ++ ":" ++ p end.

(** The name is on Amazon RDS: with or without a port. *)
Definition rds_host (s : string) : Prop :=
  exists p, s = p ++ "rds.amazonaws.com" \/ exists d ds, s = p ++ "rds.amazonaws.com" ++ String ":" (String d ds) /\ digit d /\ digits ds.
(** TLS is configured and not disabled ([t_mode] is not set by configuration files). *)
Definition tls_wanted (cfg : mysql) : Prop :=
  t_disable (m_tls cfg) <> Some true /\ t_mode (m_tls cfg) <> "DISABLED" /\
  (t_ca (m_tls cfg) <> "" \/ t_cert (m_tls cfg) <> "" \/ t_key (m_tls cfg) <> "").

Lemma append_assoc' a b c : (a ++ b) ++ c = a ++ b ++ c.
Proof. induction a; cbn; congruence. Qed.
Lemma ends_with_spec suf s : ends_with suf s = true <-> exists p, s = p ++ suf.
Proof.
  split.
  - induction s as [|c s IH]; cbn [ends_with]; rewrite orb_true_iff; intros [H|H].
    + apply String.eqb_eq in H. exists "". now subst.
    + discriminate.
    + apply String.eqb_eq in H. exists "". now subst.
    + destruct (IH H) as (p & ->). now exists (String c p).
  - intros (p & ->). induction p as [|c p IH]; cbn [append].
    + destruct suf; cbn [ends_with]; rewrite String.eqb_refl; reflexivity.
    + cbn [ends_with]. rewrite IH. apply orb_true_r.
Qed.
Lemma port_at_spec s : port_at s = true <-> exists d ds, s = String ":" (String d ds) /\ digit d /\ digits ds.
Proof.
  split.
  - destruct s as [|c s]; [discriminate|]. unfold port_at. rewrite !andb_true_iff. intros ((Hc & Hn) & Hd).
    apply Ascii.eqb_eq in Hc. subst c. destruct s as [|d ds]; [discriminate|]. apply all_digits_spec in Hd. destruct Hd. eauto.
  - intros (d & ds & -> & Hd & Hds). unfold port_at. replace (all_digits (String d ds)) with true; [reflexivity|].
    symmetry. apply all_digits_spec. now split.
Qed.
(** Taking the port off. *)
Lemma strip_port_spec s : (exists d ds, s = strip_port s ++ String ":" (String d ds) /\ digit d /\ digits ds) \/ strip_port s = s.
Proof.
  induction s as [|c s IH]; [now right|]. cbn [strip_port]. destruct (port_at (String c s)) eqn:P.
  - left. apply port_at_spec in P as (d & ds & E & ? & ?). exists d, ds. auto.
  - destruct IH as [(d & ds & E & ? & ?)|E]; [left; exists d, ds; cbn [append]; rewrite <- E; auto|right; now rewrite E].
Qed.
Lemma digits_no_colon s : digits s -> ~ exists a b, s = a ++ String ":" b.
Proof.
  intros H (a & b & ->). induction a as [|c a IH]; cbn in H; destruct H as [H H']; [|now apply IH].
  unfold digit in H. vm_compute in H. intuition lia.
Qed.
Lemma strip_port_at h d ds : digit d -> digits ds -> strip_port (h ++ String ":" (String d ds)) = h.
Proof.
  intros Hd Hds. induction h as [|c h IH].
  - cbn [append strip_port]. replace (port_at (String ":" (String d ds))) with true; [reflexivity|].
    symmetry. apply port_at_spec. eauto.
  - cbn [append strip_port]. destruct (port_at (String c (h ++ String ":" (String d ds)))) eqn:P; [|now rewrite IH].
    exfalso. apply port_at_spec in P as (d' & ds' & E & Hd' & Hds'). injection E as -> E.
    apply (digits_no_colon (String d' ds')); [split; assumption|]. rewrite <- E. eauto.
Qed.
Lemma is_rds_spec s : is_rds s = true <-> rds_host s.
Proof.
  unfold is_rds, rds_host. rewrite orb_true_iff, !ends_with_spec. split.
  - intros [(p & ->)|(p & E)]; [exists p; now left|]. exists p.
    destruct (strip_port_spec s) as [(d & ds & Es & Hd & Hds)|Es].
    + right. exists d, ds. split; [|auto]. rewrite Es, E. apply append_assoc'.
    + left. congruence.
  - intros (p & [->|(d & ds & -> & Hd & Hds)]); [left; eauto|right]. exists p.
    rewrite <- append_assoc', strip_port_at by assumption. reflexivity.
Qed.
Lemma tls_set_spec t : tls_set t = true <-> t_disable t <> Some true /\ t_mode t <> "DISABLED" /\ (t_ca t <> "" \/ t_cert t <> "" \/ t_key t <> "").
Proof.
  unfold tls_set. rewrite !andb_true_iff, !negb_true_iff, !andb_false_iff, !String.eqb_neq.
  unfold is_true. destruct (t_disable t) as [[|]|]; intuition congruence.
Qed.

Lemma settings_all : forall F cfg src cnf,
  set_dsn F cfg = Some src -> m_dsn cfg = "" ->
  (m_mycnf cfg = "" -> cnf = None) -> (m_mycnf cfg <> "" -> cnf = f_cnf F (m_mycnf cfg)) ->
  exists user password cred net addr socket host opts,
    o_dsn src = cred ++ "@" ++ net ++ "(" ++ addr ++ ")/" ++ m_db cfg ++ "?parseTime=true" ++ opts /\
    chosen (m_user cfg) cnf (fun get => get "user") "finch" user /\
    (cred = (match password with "" => user | _ => user ++ ":" ++ password end)) /\
    (* password *)
    (m_passfile cfg <> "" -> forall content, f_read F (m_passfile cfg) = Some content ->
       content <> "" -> password = content) /\
    (m_passfile cfg = "" ->
       chosen (m_pass cfg) cnf (fun get => get "password")
         (if (String.eqb (m_user cfg) "" &&
              match cnf with Some get => String.eqb (get "user") "" | None => true end)%bool
          then "amazing" else "") password) /\
    (* address *)
    chosen (m_socket cfg) cnf (fun get => get "socket") "" socket /\
    chosen (m_host cfg) cnf cnf_host "127.0.0.1" host /\
    (socket <> "" -> net = "unix" /\ addr = socket) /\
    (socket = "" -> net = "tcp" /\ addr = host) /\
    (* options *)
    (opts = "" \/ opts = "&tls=benchmark" \/ opts = "&tls=rds") /\
    (opts = "&tls=benchmark" <-> o_tls src <> None) /\
    (forall c, o_tls src = Some c ->
       l_ca c = t_ca (m_tls cfg) /\ l_cert c = t_cert (m_tls cfg) /\ l_key c = t_key (m_tls cfg) /\
       (t_skip (m_tls cfg) = Some true -> l_skip c = true) /\
       (socket = "" -> l_server c = strip_port host)) /\
    (o_tls src <> None <-> tls_wanted cfg) /\
    (opts = "&tls=rds" <-> ~ tls_wanted cfg /\ rds_host addr /\ m_noauto cfg <> Some true).
Proof.
  intros F cfg src cnf H Hd Hc0 Hc1. unfold set_dsn in H. rewrite Hd in H.
  set (def := match cnf with Some get => parse_mycnf get | None => empty_mysql end).
  assert (Hcfg : exists cfg1, (match m_mycnf cfg with
             | "" => Some cfg
             | file => match f_cnf F file with
                       | None => None
                       | Some get => Some (mysql_with cfg (parse_mycnf get))
                       end
             end) = Some cfg1 /\
     m_user cfg1 = or_default (m_user cfg) (match cnf with Some get => get "user" | None => "" end) /\
     m_pass cfg1 = or_default (m_pass cfg) (match cnf with Some get => get "password" | None => "" end) /\
     m_socket cfg1 = or_default (m_socket cfg) (match cnf with Some get => get "socket" | None => "" end) /\
     m_host cfg1 = or_default (m_host cfg) (match cnf with Some get => cnf_host get | None => "" end) /\
     m_passfile cfg1 = m_passfile cfg /\ m_db cfg1 = m_db cfg /\ m_tls cfg1 = m_tls cfg /\
     m_noauto cfg1 = m_noauto cfg).
  { assert (OD : forall s, or_default s "" = s) by (now intros []).
    assert (SB : forall b, set_bool b None = b) by (now intros []).
    destruct (m_mycnf cfg) as [|mc0 mc] eqn:Em.
    - rewrite Hc0 by auto. exists cfg. rewrite !OD. auto 12.
    - rewrite Hc1 in * by congruence. destruct (f_cnf F (String mc0 mc)) as [get|] eqn:Eg; [|discriminate].
      eexists. split; [reflexivity|]. cbn -[append]. rewrite !OD. unfold tls_with. cbn. rewrite !OD, !SB.
      repeat split; auto. now destruct (m_tls cfg). }
  destruct Hcfg as (cfg1 & E1 & Eu & Ep & Es & Eh & Epf & Edb & Et & Ena). rewrite E1 in H. clear E1.
  set (ux := negb (String.eqb (m_socket cfg1) "")) in *.
  set (host := if ux then m_host cfg1 else or_default (m_host cfg1) "127.0.0.1") in *.
  match type of H with match load_tls F ?t1 _ with _ => _ end = _ => set (t := t1) in * end.
  assert (Tt : t_ca t = t_ca (m_tls cfg) /\ t_cert t = t_cert (m_tls cfg) /\ t_key t = t_key (m_tls cfg)
               /\ (t_skip (m_tls cfg) = Some true -> t_skip t = Some true)).
  { unfold t. rewrite Et. match goal with |- context [if ?b then _ else _] => destruct b end; auto. }
  destruct (load_tls F t (strip_port host)) as [tl|] eqn:El; [|discriminate].
  rewrite Epf in H.
  destruct (match m_passfile cfg with "" => Some (m_pass cfg1) | _ => f_read F (m_passfile cfg) end) as [pw|] eqn:Epw.
  2:{ destruct (m_passfile cfg); [discriminate|]. rewrite Epw in H. discriminate. }
  assert (H' : Some
    (Source
       ((match (if (String.eqb (m_user cfg1) "" && String.eqb (m_pass cfg1) "" && String.eqb pw "")%bool
                then "amazing" else pw) with
         | "" => or_default (m_user cfg1) "finch"
         | _ => or_default (m_user cfg1) "finch" ++ ":" ++
                (if (String.eqb (m_user cfg1) "" && String.eqb (m_pass cfg1) "" && String.eqb pw "")%bool
                 then "amazing" else pw)
         end) ++ "@" ++ (if ux then "unix" else "tcp") ++ "(" ++ (if ux then m_socket cfg1 else host)
        ++ ")/" ++ m_db cfg1 ++ "?" ++
        ("parseTime=true"
                ++ (match tl with Some _ => "&tls=benchmark" | None => "" end)
                ++ (if (is_rds (if ux then m_socket cfg1 else host) && negb (is_true (m_noauto cfg1))
                        && match tl with None => true | Some _ => false end)%bool
                    then "&tls=rds" else ""))) tl) = Some src).
  { destruct (m_passfile cfg).
    - injection Epw as <-. exact H.
    - rewrite Epw in H. exact H. }
  clear H. rename H' into H. injection H as <-. cbn [o_dsn o_tls].
  set (pw1 := if (String.eqb (m_user cfg1) "" && String.eqb (m_pass cfg1) "" && String.eqb pw "")%bool then "amazing" else pw).
  exists (or_default (m_user cfg1) "finch"), pw1,
    (match pw1 with "" => or_default (m_user cfg1) "finch" | _ => or_default (m_user cfg1) "finch" ++ ":" ++ pw1 end),
    (if ux then "unix" else "tcp"), (if ux then m_socket cfg1 else host), (m_socket cfg1),
    (or_default (m_host cfg1) "127.0.0.1"),
    ((match tl with Some _ => "&tls=benchmark" | None => "" end)
                ++ (if (is_rds (if ux then m_socket cfg1 else host) && negb (is_true (m_noauto cfg1))
                        && match tl with None => true | Some _ => false end)%bool
                    then "&tls=rds" else "")).
  assert (CH : forall own inh d, chosen own cnf inh d
     (or_default (or_default own (match cnf with Some get => inh get | None => "" end)) d)).
  { intros own inh d. unfold chosen. destruct own; cbn [or_default].
    - split; [congruence|]. destruct cnf as [get|]; cbn [or_default].
      + split.
        * intros _ get' [= <-] Hn. destruct (inh get); [congruence|auto].
        * intros _ Hn. now rewrite (Hn get).
      + split; [intros _ get' [=]|auto].
    - split; [auto|]. split; congruence. }
  assert (ODn : forall s, or_default s "" = s) by (now intros []).
  split; [rewrite Edb; cbn; reflexivity|].
  split; [rewrite Eu; apply (CH _ (fun get => get "user"))|].
  split; [reflexivity|].
  assert (WT : tl <> None <-> tls_wanted cfg).
  { unfold tls_wanted. rewrite <- tls_set_spec.
    assert (ST : tls_set t = tls_set (m_tls cfg)).
    { unfold t. rewrite Et. match goal with |- context [if ?b then _ else _] => destruct b end; reflexivity. }
    rewrite <- ST. unfold load_tls in El. destruct (tls_set t); cbn [negb] in El.
    - destruct (f_tls _ _ _ _); [|discriminate]. injection El as <-. split; congruence.
    - injection El as <-. split; congruence. }
  split; [|split; [|split; [|split; [|split; [|split; [|split; [|split; [|split; [|split; [exact WT|]]]]]]]]]].
  - intros Hpf content Hr Hc. destruct (m_passfile cfg); [congruence|].
    rewrite Hr in Epw. injection Epw as <-. unfold pw1. destruct content; [congruence|].
    cbn [String.eqb]. rewrite andb_false_r. reflexivity.
  - intros Hpf. rewrite Hpf in Epw. injection Epw as <-. unfold pw1.
    specialize (CH (m_pass cfg) (fun get => get "password")
      (if (String.eqb (m_user cfg) "" &&
              match cnf with Some get => String.eqb (get "user") "" | None => true end)%bool
          then "amazing" else "")).
    cbn beta in CH. rewrite <- Ep in CH.
    match goal with |- chosen _ _ _ _ ?x => match type of CH with chosen _ _ _ _ ?y => replace x with y; auto end end.
    rewrite Eu. destruct (m_pass cfg1); cbn [or_default String.eqb andb].
    + rewrite !andb_true_r. destruct (m_user cfg); cbn [or_default String.eqb andb]; auto.
      destruct cnf as [get|]; auto.
    + rewrite andb_false_r. reflexivity.
  - rewrite Es. rewrite <- (ODn (or_default (m_socket cfg) _)). apply (CH _ (fun get => get "socket")).
  - rewrite Eh. apply CH.
  - intros Hs. unfold ux. destruct (m_socket cfg1); [congruence|auto].
  - intros Hs. unfold host, ux. rewrite Hs. auto.
  - destruct tl; [rewrite andb_false_r; auto|]. destruct (is_rds _ && _)%bool; auto.
  - destruct tl; [rewrite andb_false_r; cbn; split; congruence|].
    destruct (is_rds _ && _)%bool; cbn; split; congruence.
  - intros c ->. unfold load_tls in El.
    destruct (negb (tls_set t)); [discriminate|]. destruct (f_tls _ _ _ _); [|discriminate].
    injection El as <-. cbn. destruct Tt as (T1 & T2 & T3 & T4). repeat split; auto.
    + intros Hs. rewrite T4 by auto. reflexivity.
    + intros Hs. unfold host, ux. rewrite Hs. reflexivity.
  - rewrite <- WT, <- is_rds_spec, <- Ena. destruct tl.
    + rewrite andb_false_r. cbn. split; [discriminate|]. intros (X & _). exfalso. apply X. discriminate.
    + rewrite andb_true_r. destruct (is_rds _), (m_noauto cfg1) as [[|]|]; cbn; split; try congruence; intuition congruence.
Qed.
(** C47, the part that holds: without a DSN the data source is
    user[:password]@net(address)/db?options where user, host and socket come from the
    configuration, else my.cnf, else the defaults; the password is that of the password file if
    one is configured, else from the configuration, else my.cnf, else "amazing" if there is no
    user name either.  TLS is what the configuration says: my.cnf's TLS settings are lost, see
    C47_refuted. *)
Theorem C47_settings_partial : forall F cfg src cnf,
  set_dsn F cfg = Some src -> m_dsn cfg = "" ->
  (m_mycnf cfg = "" -> cnf = None) -> (m_mycnf cfg <> "" -> cnf = f_cnf F (m_mycnf cfg)) ->
  exists user password cred net addr socket host opts,
    o_dsn src = cred ++ "@" ++ net ++ "(" ++ addr ++ ")/" ++ m_db cfg ++ "?parseTime=true" ++ opts /\
    chosen (m_user cfg) cnf (fun get => get "user") "finch" user /\
    (cred = (match password with "" => user | _ => user ++ ":" ++ password end)) /\
    (* password *)
    (m_passfile cfg <> "" -> forall content, f_read F (m_passfile cfg) = Some content ->
       content <> "" -> password = content) /\
    (m_passfile cfg = "" ->
       chosen (m_pass cfg) cnf (fun get => get "password")
         (if (String.eqb (m_user cfg) "" &&
              match cnf with Some get => String.eqb (get "user") "" | None => true end)%bool
          then "amazing" else "") password) /\
    (* address *)
    chosen (m_socket cfg) cnf (fun get => get "socket") "" socket /\
    chosen (m_host cfg) cnf cnf_host "127.0.0.1" host /\
    (socket <> "" -> net = "unix" /\ addr = socket) /\
    (socket = "" -> net = "tcp" /\ addr = host) /\
    (* options *)
    (opts = "" \/ opts = "&tls=benchmark" \/ opts = "&tls=rds") /\
    (opts = "&tls=benchmark" <-> o_tls src <> None) /\
    (forall c, o_tls src = Some c ->
       l_ca c = t_ca (m_tls cfg) /\ l_cert c = t_cert (m_tls cfg) /\ l_key c = t_key (m_tls cfg) /\
       (t_skip (m_tls cfg) = Some true -> l_skip c = true) /\
       (socket = "" -> l_server c = strip_port host)).
Proof.
  intros F cfg src cnf H Hd Hc0 Hc1. destruct (settings_all F cfg src cnf H Hd Hc0 Hc1) as (u & pw & cr & n & a & so & h & o & S).
  exists u, pw, cr, n, a, so, h, o. tauto.
Qed.
Print Assumptions C47_settings_partial.

Definition cnf_example (k : string) : string :=
  if String.eqb k "host" then "db1" else if String.eqb k "port" then "3307"
  else if String.eqb k "user" then "app" else if String.eqb k "ssl-ca" then "/ca.pem" else "".
Definition fs_example : fsys := FSys (fun _ => Some cnf_example) (fun _ => Some "pw") (fun _ _ _ => true).

Example C47_example :
  set_dsn fs_example (MySQL "test" "" "" "/my.cnf" "" "/pw" "" "" empty_tls "bench" None)
  = Some (Source "bench:pw@tcp(db1:3307)/test?parseTime=true" None) /\
  set_dsn fs_example (MySQL "" "" "" "" "" "" "" "" empty_tls "" None)
  = Some (Source "finch:amazing@tcp(127.0.0.1)/?parseTime=true" None) /\
  set_dsn fs_example (MySQL "" "" "h:3306" "" "" "" "" "" (TLS "/ca" "" "" None None "") "" None)
  = Some (Source "finch:amazing@tcp(h:3306)/?parseTime=true&tls=benchmark" (Some (TlsCfg "h" false "/ca" "" ""))).
Proof. vm_compute. auto. Qed.

(** C47 is false for TLS: with TLS files in my.cnf that can be loaded and no TLS section in the
    configuration, the connection does not use TLS. *)
Theorem C47_refuted : exists F cfg get src,
  f_cnf F (m_mycnf cfg) = Some get /\ get "ssl-ca" <> "" /\ get "ssl-mode" = "REQUIRED" /\
  (forall ca cert key, f_tls F ca cert key = true) /\
  m_dsn cfg = "" /\ m_tls cfg = empty_tls /\
  set_dsn F cfg = Some src /\ o_tls src = None /\
  o_dsn src = "finch:amazing@tcp(db1)/?parseTime=true" /\ mycnf_tls get "" = TLS "/ca.pem" "" "" None None "REQUIRED".
Proof.
  set (get := fun k => if String.eqb k "host" then "db1" else if String.eqb k "ssl-ca" then "/ca.pem"
                       else if String.eqb k "ssl-mode" then "REQUIRED" else "").
  exists (FSys (fun _ => Some get) (fun _ => None) (fun _ _ _ => true)).
  exists (MySQL "" "" "" "/my.cnf" "" "" "" "" empty_tls "" None), get.
  exists (Source "finch:amazing@tcp(db1)/?parseTime=true" None).
  split; [reflexivity|]. split; [vm_compute; discriminate|]. split; [reflexivity|].
  split; [reflexivity|]. split; [reflexivity|]. split; [reflexivity|]. split; [vm_compute; reflexivity|].
  split; [reflexivity|]. split; [reflexivity|]. vm_compute. reflexivity.
Qed.
Print Assumptions C47_refuted.

(** It is also false in that a host name set in the stage file does not decide where to connect
    if my.cnf names a socket. *)
Theorem C47_refuted_socket : exists F cfg src,
  m_dsn cfg = "" /\ m_host cfg = "db1:3306" /\ m_socket cfg = "" /\
  set_dsn F cfg = Some src /\ o_dsn src = "finch:amazing@unix(/tmp/mysql.sock)/?parseTime=true".
Proof.
  exists (FSys (fun _ => Some (fun k => if String.eqb k "socket" then "/tmp/mysql.sock" else ""))
            (fun _ => None) (fun _ _ _ => true)).
  exists (MySQL "" "" "db1:3306" "/my.cnf" "" "" "" "" empty_tls "" None).
  eexists. split; [reflexivity|]. split; [reflexivity|]. split; [reflexivity|]. split; vm_compute; reflexivity.
Qed.
Print Assumptions C47_refuted_socket.

(** C69: all connections of a stage use the data source of its own configuration: after
    SetConfig every call of Make, however many succeed or fail, returns what that configuration
    gives, whatever was configured and made before. *)
Fixpoint makes (F : fsys) (n : nat) (f : factory) : list (option source) :=
  match n with
  | O => []
  | S n' => let (f', r) := make F f in r :: makes F n' f'
  end.
Theorem C69_same_source : forall F cfg f0 n r,
  In r (makes F n (set_config cfg f0)) -> r = set_dsn F cfg.
Proof.
  intros F cfg f0 n r. unfold set_config.
  assert (G : forall n f, a_cfg f = cfg -> (a_src f = None \/ a_src f = set_dsn F cfg) ->
    In r (makes F n f) -> r = set_dsn F cfg).
  { induction n0 as [|n0 IH]; intros f Hc Hs; cbn [makes]; [easy|]. unfold make.
    destruct (a_src f) as [s|] eqn:Es.
    - intros [<-|H]; [destruct Hs; congruence|]. apply (IH f); auto. rewrite Es. auto.
    - rewrite Hc. destruct (set_dsn F cfg) as [s|] eqn:E.
      + intros [<-|H]; [auto|]. apply (IH (Factory cfg (Some s))) in H; auto.
      + intros [<-|H]; [auto|]. apply (IH f) in H; auto. }
  intros H. apply (G n) in H; auto.
Qed.
Print Assumptions C69_same_source.

Example C69_example :
  makes fs_example 2 (set_config empty_mysql
    (Factory (MySQL "" "old" "" "" "" "" "" "" empty_tls "" None) (Some (Source "old" None))))
  = [Some (Source "finch:amazing@tcp(127.0.0.1)/?parseTime=true" None);
     Some (Source "finch:amazing@tcp(127.0.0.1)/?parseTime=true" None)].
Proof. vm_compute. reflexivity. Qed.

(** ** C108: a connection uses TLS exactly as configured *)

(** What holds: the TLS files are used if any is configured and TLS is not disabled; else Amazon's certificates if
    the address is one of Amazon RDS, unless disable-auto-tls is set; else no TLS. *)
Theorem C108_tls_partial : forall F cfg src cnf,
  set_dsn F cfg = Some src -> m_dsn cfg = "" ->
  (m_mycnf cfg = "" -> cnf = None) -> (m_mycnf cfg <> "" -> cnf = f_cnf F (m_mycnf cfg)) ->
  exists before socket host opts,
    o_dsn src = before ++ "(" ++ (match socket with "" => host | _ => socket end) ++ ")/" ++ m_db cfg ++ "?parseTime=true" ++ opts /\
    chosen (m_socket cfg) cnf (fun get => get "socket") "" socket /\
    chosen (m_host cfg) cnf cnf_host "127.0.0.1" host /\
    (tls_wanted cfg -> opts = "&tls=benchmark" /\ exists c, o_tls src = Some c /\
       l_ca c = t_ca (m_tls cfg) /\ l_cert c = t_cert (m_tls cfg) /\ l_key c = t_key (m_tls cfg)) /\
    (~ tls_wanted cfg -> o_tls src = None /\
       let rds := rds_host (match socket with "" => host | _ => socket end) in
       (rds -> m_noauto cfg <> Some true -> opts = "&tls=rds") /\
       (~ rds \/ m_noauto cfg = Some true -> opts = "")).
Proof.
  intros F cfg src cnf H Hd Hc0 Hc1. destruct (settings_all F cfg src cnf H Hd Hc0 Hc1)
    as (user & password & cred & net & addr & socket & host & opts & E & _ & _ & _ & _ & CS & CH & N1 & N2 & O & B & T & W & R).
  exists (cred ++ "@" ++ net), socket, host, opts.
  assert (EA : addr = match socket with "" => host | _ => socket end).
  { destruct socket; [now apply N2|]. now apply N1. }
  rewrite <- EA. split; [rewrite E, !append_assoc'; reflexivity|]. split; [exact CS|]. split; [exact CH|]. split.
  - intros Hw. apply W in Hw. split; [now apply B|]. destruct (o_tls src) as [c|]; [|congruence]. exists c. split; [auto|].
    destruct (T c eq_refl) as (? & ? & ? & _). auto.
  - intros Hw. assert (Z : o_tls src = None) by (destruct (o_tls src); [exfalso; apply Hw, W; congruence|auto]).
    split; [exact Z|]. split.
    + intros Hr Ha. apply R. auto.
    + intros Hn. destruct O as [O|[O|O]]; [auto|exfalso; apply B in O; congruence|].
      apply R in O as (_ & O1 & O2). destruct Hn; [contradiction|congruence].
Qed.
Print Assumptions C108_tls_partial.

Example C108_example :
  set_dsn fs_example (MySQL "" "" "a.rds.amazonaws.com:3306" "" "" "" "" "" empty_tls "" None)
  = Some (Source "finch:amazing@tcp(a.rds.amazonaws.com:3306)/?parseTime=true&tls=rds" None) /\
  set_dsn fs_example (MySQL "" "" "a.rds.amazonaws.com" "" "" "" "" "" (TLS "/ca" "" "" None None "") "" None)
  = Some (Source "finch:amazing@tcp(a.rds.amazonaws.com)/?parseTime=true&tls=benchmark"
           (Some (TlsCfg "a.rds.amazonaws.com" false "/ca" "" ""))) /\
  set_dsn fs_example (MySQL "" "" "a.rds.amazonaws.com" "" "" "" "" "" empty_tls "" (Some true))
  = Some (Source "finch:amazing@tcp(a.rds.amazonaws.com)/?parseTime=true" None).
Proof. vm_compute. auto. Qed.

(** C108 is false: with tls.disable TLS is used nevertheless if the host is one of Amazon RDS. *)
Theorem C108_refuted : exists F cfg src,
  m_dsn cfg = "" /\ t_disable (m_tls cfg) = Some true /\ set_dsn F cfg = Some src /\
  o_dsn src = "finch:amazing@tcp(a.rds.amazonaws.com)/?parseTime=true&tls=rds".
Proof.
  exists fs_example, (MySQL "" "" "a.rds.amazonaws.com" "" "" "" "" "" (TLS "" "" "" None (Some true) "") "" None).
  eexists. split; [reflexivity|]. split; [reflexivity|]. split; vm_compute; reflexivity.
Qed.
Print Assumptions C108_refuted.
