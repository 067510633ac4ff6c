(** Model of addresses and of the MySQL connection settings: finch.go 162-173,
    dbconn/factory.go 23-169 and dbconn/mycnf.go 16-80.

    Reading files, the my.cnf (INI) syntax and the crypto of TLS are outside the model and
    appear as the fields of [fsys]. *)
From Verif Require Import Prelude ConfigModel.
#[local] Open Scope list_scope.
#[local] Open Scope string_scope.

(** [s] matches [^:\d+$] (finch.go 162, factory.go 30) *)
Definition port_at (s : string) : bool :=
  match s with
  | String c t => (Ascii.eqb c ":" && negb (String.eqb t "") && all_digits t)%bool
  | "" => false
  end.

(** portRe.MatchString / portSuffix.MatchString: some suffix of [s] matches. *)
Fixpoint has_port (s : string) : bool :=
  match s with
  | "" => false
  | String _ s' => (port_at s || has_port s')%bool
  end.

(** portSuffix.ReplaceAllString(s, ""), factory.go 118 *)
Fixpoint strip_port (s : string) : string :=
  match s with
  | "" => ""
  | String c s' => if port_at s then "" else String c (strip_port s')
  end.

(** finch.WithPort, finch.go 166-173 *)
Definition with_port (s p : string) : string := if has_port s then s else s ++ ":" ++ p.

(** [f_cnf file key]: the value of [key] in section [client] of the my.cnf file [file], empty if
    there is none (ini's Key(..).String()); [None] if the file cannot be loaded.
    [f_tls ca cert key]: loading these TLS files succeeds (file.go 685-704). *)
Record fsys := FSys {
  f_cnf : string -> option (string -> string);
  f_read : string -> option string;
  f_tls : string -> string -> string -> bool }.

Definition upper (c : ascii) : ascii :=
  let n := nat_of_ascii c in
  if (Nat.leb 97 n && Nat.leb n 122)%bool then ascii_of_nat (n - 32) else c.
Fixpoint to_upper (s : string) : string :=
  match s with "" => "" | String c s' => String (upper c) (to_upper s') end.

Definition is_true (b : option bool) : bool := match b with Some true => true | _ => false end.

(** TLS.Set, file.go 667-669 *)
Definition tls_set (c : tls) : bool :=
  (negb (is_true (t_disable c)) && negb (String.eqb (t_mode c) "DISABLED")
   && negb (String.eqb (t_ca c) "" && String.eqb (t_cert c) "" && String.eqb (t_key c) ""))%bool.

(** mysqlTLS, mycnf.go 46-80: what my.cnf says about TLS. *)
Definition mycnf_tls (get : string -> string) (socket : string) : tls :=
  let mode := match to_upper (get "ssl-mode") with "" => "PREFERRED" | m => m end in
  let none := TLS "" "" "" None None mode in
  if String.eqb mode "DISABLED" then none
  else if (negb (String.eqb socket "") && String.eqb mode "PREFERRED")%bool then none
  else TLS (get "ssl-ca") (get "ssl-cert") (get "ssl-key") None None mode.

(** ParseMyCnf, mycnf.go 16-44.  It calls mysqlTLS for its effect (40), but mysqlTLS only
    returns a value, which is dropped: the TLS section of the result is empty. *)
Definition parse_mycnf (get : string -> string) : mysql :=
  let host := match get "port" with
              | "" => get "host"
              | port => get "host" ++ ":" ++ port
              end in
  MySQL "" "" host "" (get "password") "" (get "socket") "" empty_tls (get "user") None.

(** rdsAddr, factory.go 26 *)
Fixpoint ends_with (suf s : string) : bool :=
  (String.eqb suf s || match s with "" => false | String _ s' => ends_with suf s' end)%bool.
Definition is_rds (addr : string) : bool :=
  (ends_with "rds.amazonaws.com" addr || ends_with "rds.amazonaws.com" (strip_port addr))%bool.

(** What a registered tls.Config depends on: server name, InsecureSkipVerify and the files
    (file.go 671-707). *)
Record tlscfg := TlsCfg { l_server : string; l_skip : bool; l_ca : string; l_cert : string; l_key : string }.

(** The data source: the DSN and the TLS configuration registered as "benchmark" (factory.go
    122-124), if any. *)
Record source := Source { o_dsn : string; o_tls : option tlscfg }.

(** TLS.LoadTLS, file.go 671-707: [None] is an error. *)
Definition load_tls (F : fsys) (c : tls) (server : string) : option (option tlscfg) :=
  if negb (tls_set c) then Some None
  else if f_tls F (t_ca c) (t_cert c) (t_key c)
  then Some (Some (TlsCfg server (is_true (t_skip c)) (t_ca c) (t_cert c) (t_key c)))
  else None.

(** factory.setDSN, factory.go 63-169 *)
Definition set_dsn (F : fsys) (cfg0 : mysql) : option source :=
  match m_dsn cfg0 with
  | String _ _ => Some (Source (m_dsn cfg0) None)
  | "" =>
      match (match m_mycnf cfg0 with
             | "" => Some cfg0
             | file => match f_cnf F file with
                       | None => None
                       | Some get => Some (mysql_with cfg0 (parse_mycnf get))
                       end
             end) with
      | None => None
      | Some cfg =>
          let unix := negb (String.eqb (m_socket cfg) "") in
          let net := if unix then "unix" else "tcp" in
          let host := if unix then m_host cfg else or_default (m_host cfg) "127.0.0.1" in
          let addr := if unix then m_socket cfg else host in
          let t := m_tls cfg in
          let t1 := if (unix && tls_set t && String.eqb host "" && negb (is_true (t_skip t)))%bool
                    then TLS (t_ca t) (t_cert t) (t_key t) (Some true) (t_disable t) (t_mode t)
                    else t in
          match load_tls F t1 (strip_port host) with
          | None => None
          | Some tl =>
              let params :=
                "parseTime=true"
                ++ (match tl with Some _ => "&tls=benchmark" | None => "" end)
                ++ (if (is_rds addr && negb (is_true (m_noauto cfg))
                        && match tl with None => true | Some _ => false end)%bool
                    then "&tls=rds" else "") in
              match (match m_passfile cfg with
                     | "" => Some (m_pass cfg)
                     | pf => f_read F pf
                     end) with
              | None => None
              | Some password =>
                  let user := or_default (m_user cfg) "finch" in
                  let password1 :=
                    if (String.eqb (m_user cfg) "" && String.eqb (m_pass cfg) ""
                        && String.eqb password "")%bool
                    then "amazing" else password in
                  let cred := match password1 with "" => user | _ => user ++ ":" ++ password1 end in
                  Some (Source (cred ++ "@" ++ net ++ "(" ++ addr ++ ")/" ++ m_db cfg ++ "?" ++ params) tl)
              end
          end
      end
  end.

(** SetConfig and Make, factory.go 32-61: the factory keeps the configuration and the DSN of
    the first successful call (the empty DSN is "not set yet").  cfg is also updated in place by
    setDSN; that has no effect on a later setDSN (With keeps what is set) and is left out. *)
Record factory := Factory { a_cfg : mysql; a_src : option source }.
Definition set_config (cfg : mysql) (_ : factory) : factory := Factory cfg None.
Definition make (F : fsys) (f : factory) : factory * option source :=
  match a_src f with
  | Some s => (f, Some s)
  | None =>
      match set_dsn F (a_cfg f) with
      | Some s => (Factory (a_cfg f) (Some s), Some s)
      | None => (f, None)
      end
  end.
