(** What the MySQL driver reads from a DSN, and the DSN as it is logged.

    Code: dbconn/factory.go 44-61 ([Make]) and 225-232 ([RedactedDSN]).  They call ParseDSN and
    FormatDSN of github.com/go-sql-driver/mysql v1.7.1 (go.mod 10), which sql.Open uses, too; the
    driver is not part of /repo and is modelled from its documentation
    ([user[:password]@][net[(addr)]]/dbname[?param1=value1&...]) and source.  Simplified: the
    parameters after the question mark are only accepted or refused as a whole, and printed as
    some function of their text. *)
From Verif Require Import Prelude ConfigModel DsnModel.
#[local] Open Scope string_scope.

(** The text before and after the first, and the last [c]. *)
Fixpoint split_first (c : ascii) (s : string) : option (string * string) :=
  match s with
  | "" => None
  | String a s' =>
      if Ascii.eqb a c then Some ("", s')
      else match split_first c s' with Some (x, y) => Some (String a x, y) | None => None end
  end.
Fixpoint split_last (c : ascii) (s : string) : option (string * string) :=
  match s with
  | "" => None
  | String a s' =>
      match split_last c s' with
      | Some (x, y) => Some (String a x, y)
      | None => if Ascii.eqb a c then Some ("", s') else None
      end
  end.
Definition has (c : ascii) (s : string) : bool := match split_first c s with Some _ => true | None => false end.

(** The last character taken off, if it is [c]. *)
Definition chop (c : ascii) (s : string) : option string :=
  match split_last c s with Some (x, "") => Some x | _ => None end.

(** net.SplitHostPort succeeds (Go's net/ipsock.go). *)
Definition has_host_port (s : string) : bool :=
  match split_last ":" s with
  | None => false
  | Some (host, port) =>
      match s with
      | String "[" s' =>
          match split_first "]" s' with
          | None => false
          | Some (h, r) =>
              match r with
              | String ":" p => negb (has ":" p) && negb (has "[" s') && negb (has "]" r)
              | _ => false
              end
          end
      | _ => negb (has ":" host) && negb (has "[" s) && negb (has "]" s)
      end
  end.
(** Config.normalize, ensureHavePort and net.JoinHostPort: port 3306 by default. *)
Definition ensure_port (addr : string) : string :=
  if has_host_port addr then addr
  else (if has ":" addr then "[" ++ addr ++ "]" else addr) ++ ":3306".

(** The driver's Config. *)
Record dcfg := DCfg {
  v_user : string; v_pass : string; v_net : string; v_addr : string; v_db : string;
  v_params : option string }.

(** Config.normalize: defaults; [None]: "default addr for network unknown". *)
Definition normalize (c : dcfg) : option dcfg :=
  let net := match v_net c with "" => "tcp" | n => n end in
  match (match v_addr c with
         | "" => if String.eqb net "tcp" then Some "127.0.0.1:3306"
                 else if String.eqb net "unix" then Some "/tmp/mysql.sock" else None
         | a => Some (if String.eqb net "tcp" then ensure_port a else a)
         end) with
  | Some addr => Some (DCfg (v_user c) (v_pass c) net addr (v_db c) (v_params c))
  | None => None
  end.

Section driver.
  (** The parameters are accepted; how FormatDSN prints them. *)
  Context (params_ok : string -> bool) (params_text : option string -> string).

  (** ParseDSN (dsn.go); [None] is an error (and a nil Config). *)
  Definition parse_dsn (dsn : string) : option dcfg :=
    match split_last "/" dsn with
    | None => match dsn with "" => normalize (DCfg "" "" "" "" "" None) | _ => None end
    | Some (lft, rgt) =>
        let '(db, params) := match split_first "?" rgt with
                             | Some (a, b) => (a, Some b)
                             | None => (rgt, None)
                             end in
        let '(cred, rest) := match split_last "@" lft with
                             | Some (a, b) => (a, b)
                             | None => ("", lft)
                             end in
        let '(user, pass) := match split_first ":" cred with
                             | Some (a, b) => (a, b)
                             | None => (cred, "")
                             end in
        match (match split_first "(" rest with
               | Some (net, a) => match chop ")" a with Some addr => Some (net, addr) | None => None end
               | None => Some (rest, "")
               end) with
        | None => None
        | Some (net, addr) =>
            if match params with Some p => params_ok p | None => true end
            then normalize (DCfg user pass net addr db params)
            else None
        end
    end.

  (** FormatDSN (dsn.go). *)
  Definition format_dsn (c : dcfg) : string :=
    match v_user c with
    | "" => ""
    | u => u ++ match v_pass c with "" => "" | p => ":" ++ p end ++ "@"
    end ++
    match v_net c with
    | "" => ""
    | n => n ++ match v_addr c with "" => "" | a => "(" ++ a ++ ")" end
    end ++ "/" ++ v_db c ++ params_text (v_params c).

  (** RedactedDSN, factory.go 225-232.  The error of ParseDSN is ignored; its result is nil
      then, and the assignment to a field of it panics: [None]. *)
  Definition redacted_dsn (dsn : string) : option string :=
    match parse_dsn dsn with
    | Some c => Some (format_dsn (DCfg (v_user c) "..." (v_net c) (v_addr c) (v_db c) (v_params c)))
    | None => None
    end.

  (** Make, factory.go 44-61, on a fresh factory: an error of setDSN, a panic, or the pool's
      driver configuration and the text for the log (printed by stage/stage.go 60 and 63). *)
  Inductive made := MError | MPanic | MPool (c : dcfg) (log : string).
  Definition make_pool (F : fsys) (cfg : mysql) : made :=
    match set_dsn F cfg with
    | None => MError
    | Some src =>
        match redacted_dsn (o_dsn src), parse_dsn (o_dsn src) with
        | None, _ => MPanic
        | Some log, Some c => MPool c log
        | Some _, None => MError
        end
    end.
End driver.
