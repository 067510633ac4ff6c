(** Model of package config: loading stage files (config/config.go, config/file.go).

    YAML decoding, the file system, the environment, [human.ParseBytes] and
    [time.ParseDuration] are outside the model; they appear as the fields of [env].
    Strings are byte strings; the regular expressions of config.go 196-201 only name ASCII
    characters, so matching bytes and matching runes agree except for U+212A (KELVIN SIGN),
    which Go's [(?i:K)] also matches.  Every error is [None]: Load stops at the first one and
    returns it, so only its presence matters. *)
From Verif Require Import Prelude.
From Coq Require Import DecimalString.
#[local] Open Scope string_scope.
#[local] Open Scope list_scope.

(** Go [map[string]V] as an association list with distinct keys.  nil and empty maps are not
    distinguished: the code only ranges over, looks up in and (after checking for nil) sets
    keys of the maps below. *)
Definition smap (V : Type) := list (string * V).

Fixpoint sget {V} (k : string) (m : smap V) : option V :=
  match m with
  | [] => None
  | (k', v) :: m' => if String.eqb k k' then Some v else sget k m'
  end.

Fixpoint sset {V} (k : string) (v : V) (m : smap V) : smap V :=
  match m with
  | [] => [(k, v)]
  | (k', w) :: m' => if String.eqb k k' then (k, v) :: m' else (k', w) :: sset k v m'
  end.

Definition skeys {V} (m : smap V) : list string := map fst m.

(** What the code asks of its environment.
    [e_order n ks]: the order in which [range c.Params] visits the keys [ks] of the params of
    stage file number [n] (file.go 111); Go leaves map iteration order unspecified. *)
Record env := Env {
  e_getenv : string -> option string;          (* os.LookupEnv *)
  e_sys : string -> option string;             (* finch.SystemParams, finch.go 181-185 *)
  e_parse_bytes : string -> option N;          (* human.ParseBytes *)
  e_parse_duration : string -> option Z;       (* time.ParseDuration, nanoseconds *)
  e_exists : string -> bool;                   (* config.FileExists *)
  e_base : string -> string;                   (* filepath.Base *)
  e_order : nat -> list string -> list string  (* map iteration order *)
}.

(** ** Vars (config/config.go 196-275) *)

(** Longest prefix of characters satisfying [p], and the rest. *)
Fixpoint span (p : ascii -> bool) (s : string) : string * string :=
  match s with
  | "" => ("", "")
  | String c s' => if p c then let (a, b) := span p s' in (String c a, b) else ("", s)
  end.

Definition is_dollar (c : ascii) : bool := Ascii.eqb c "$".
Definition not_close (c : ascii) : bool := negb (Ascii.eqb c "}").
(** [\s] of Go regular expressions: tab, newline, form feed, carriage return, space. *)
Definition is_space (c : ascii) : bool :=
  let n := nat_of_ascii c in
  (Nat.eqb n 9 || Nat.eqb n 10 || Nat.eqb n 12 || Nat.eqb n 13 || Nat.eqb n 32)%bool.
(** the double and the single quote *)
Definition is_quote (c : ascii) : bool := (Nat.eqb (nat_of_ascii c) 34 || Nat.eqb (nat_of_ascii c) 39)%bool.
Definition bare_char (c : ascii) : bool := negb (is_space c || is_quote c).
Definition is_digit (c : ascii) : bool :=
  let n := nat_of_ascii c in (Nat.leb 48 n && Nat.leb n 57)%bool.
Definition digit_comma (c : ascii) : bool := (is_digit c || Ascii.eqb c ",")%bool.
(** [(?i:[MKGBI])] *)
Definition is_unit (c : ascii) : bool :=
  existsb (Ascii.eqb c) ["M"; "K"; "G"; "B"; "I"; "m"; "k"; "g"; "b"; "i"]%char.

(** A matcher takes the text at one position and returns the whole match (m[0]), the submatch
    (m[1]) and the text after the match. *)
Definition matcher := string -> option (string * string * string).

(** varRE[0] = [\${([^}]+)}], config.go 197 *)
Definition brace_at : matcher := fun s =>
  match s with
  | String d (String b t) =>
      if (Ascii.eqb d "$" && Ascii.eqb b "{")%bool then
        let (n, r) := span not_close t in
        match n, r with
        | "", _ => None
        | _, String _ r' => Some ("${" ++ n ++ "}", n, r')%string
        | _, "" => None
        end
      else None
  | _ => None
  end.

(** varRE[1], config.go 198: a dollar sign and at least one character that is neither white
    space nor a double or single quote. *)
Definition bare_at : matcher := fun s =>
  match s with
  | String d t =>
      if Ascii.eqb d "$" then
        let (n, r) := span bare_char t in
        match n with
        | "" => None
        | _ => Some ("$" ++ n, n, r)%string
        end
      else None
  | "" => None
  end.

(** [s] without its trailing commas, and those commas. *)
Fixpoint strip_commas (s : string) : string * string :=
  match s with
  | "" => ("", "")
  | String c s' =>
      let (a, b) := strip_commas s' in
      match a with
      | "" => if Ascii.eqb c "," then ("", String c b) else (String c "", b)
      | _ => (String c a, b)
      end
  end.

(** reHumanNumber, config.go 200: digits and commas ending with a digit, then any of the unit
    letters MKGBI in either case.  Leftmost-first greedy matching takes the longest run of digits
    and commas, up to its last digit, then the unit letters that follow that digit directly. *)
Definition human_at : matcher := fun s =>
  let (run, r) := span digit_comma s in
  let (num, commas) := strip_commas run in
  match num with
  | "" => None
  | _ =>
      match commas with
      | "" => let (u, r') := span is_unit r in Some (num ++ u, num ++ u, r')%string
      | _ => Some (num, num, commas ++ r)%string
      end
  end.

(** regexp.FindAllStringSubmatch(s, -1): successive non-overlapping leftmost matches.  The
    fuel bounds the number of positions; [String.length s] is enough. *)
Fixpoint find_all (m : matcher) (fuel : nat) (s : string) : list (string * string) :=
  match fuel with
  | O => []
  | S f =>
      match s with
      | "" => []
      | String _ s' =>
          match m s with
          | Some (w, n, r) => (w, n) :: find_all m f r
          | None => find_all m f s'
          end
      end
  end.

Fixpoint strip_prefix (p s : string) : option string :=
  match p, s with
  | "", _ => Some s
  | String a p', String b s' => if Ascii.eqb a b then strip_prefix p' s' else None
  | _, _ => None
  end.

(** The first pair, in argument order, whose old string is at the start of [s]. *)
Fixpoint first_old (pairs : list (string * string)) (s : string) : option (string * string) :=
  match pairs with
  | [] => None
  | (o, w) :: ps =>
      match strip_prefix o s with
      | Some r => Some (w, r)
      | None => first_old ps s
      end
  end.

(** strings.NewReplacer(pairs...).Replace(s): "Replacements are performed in the order they
    appear in the target string, without overlapping matches.  The old string comparisons are
    done in argument order."  Old strings are never empty here. *)
Fixpoint replace (pairs : list (string * string)) (fuel : nat) (s : string) : string :=
  match fuel with
  | O => s
  | S f =>
      match s with
      | "" => ""
      | String c s' =>
          match first_old pairs s with
          | Some (w, r) => (w ++ replace pairs f r)%string
          | None => String c (replace pairs f s')
          end
      end
  end.

Section vars.
  Context (E : env).

(** config.go 217-241: the value of the variable called [p]. *)
Definition var_value (params : smap string) (p : string) : option string :=
  match strip_prefix "params." p with
  | Some k => sget k params
  | None =>
      match strip_prefix "sys." p with
      | Some k => e_sys E k
      | None => e_getenv E p
      end
  end.

(** config.go 213-242: the replacement pairs. *)
Fixpoint var_pairs (params : smap string) (ms : list (string * string))
    : option (list (string * string)) :=
  match ms with
  | [] => Some []
  | (w, n) :: ms' =>
      match var_value params n with
      | None => None
      | Some v => option_map (cons (w, v)) (var_pairs params ms')
      end
  end.

(** One round of the loop of config.go 207-245. *)
Definition var_pass (params : smap string) (m : matcher) (s : string) : option string :=
  match find_all m (String.length s) s with
  | [] => Some s
  | ms =>
      match var_pairs params ms with
      | None => None
      | Some rep => Some (replace rep (String.length s) s)
      end
  end.

(** reAllDigits.MatchString, config.go 201 *)
Fixpoint all_digits (s : string) : bool :=
  match s with
  | "" => true
  | String c s' => (is_digit c && all_digits s')%bool
  end.

(** strconv.FormatUint(d, 10) *)
Definition format_uint (d : N) : string := NilZero.string_of_uint (N.to_uint d).

(** config.go 256-268 *)
Fixpoint number_pairs (ms : list (string * string)) : option (list (string * string)) :=
  match ms with
  | [] => Some []
  | (w, n) :: ms' =>
      if all_digits w then number_pairs ms'
      else
        match e_parse_bytes E n with
        | None => None
        | Some d => option_map (cons (w, format_uint d)) (number_pairs ms')
        end
  end.

(** config.go 251-274 *)
Definition number_pass (s : string) : option string :=
  match number_pairs (find_all human_at (String.length s) s) with
  | None => None
  | Some [] => Some s
  | Some rep => Some (replace rep (String.length s) s)
  end.

(** func Vars, config.go 206-275 *)
Definition vars (params : smap string) (numbers : bool) (s : string) : option string :=
  match var_pass params brace_at s with
  | None => None
  | Some s1 =>
      match var_pass params bare_at s1 with
      | None => None
      | Some s2 => if numbers then number_pass s2 else Some s2
      end
  end.

End vars.

(** ** Configuration structures (config/file.go) *)

(** type TLS, file.go 582-591 *)
Record tls := TLS {
  t_ca : string; t_cert : string; t_key : string;
  t_skip : option bool; t_disable : option bool; t_mode : string }.

(** type MySQL, file.go 483-496 *)
Record mysql := MySQL {
  m_db : string; m_dsn : string; m_host : string; m_mycnf : string; m_pass : string;
  m_passfile : string; m_socket : string; m_timeout : string; m_tls : tls; m_user : string;
  m_noauto : option bool }.

(** type Stats, file.go 711-715 *)
Record stats := Stats {
  st_disable : option bool; st_freq : string; st_report : smap (smap string) }.

(** type Base, file.go 17-21 *)
Record base := Base { b_mysql : mysql; b_params : smap string; b_stats : stats }.

(** type Compute, file.go 284-287 *)
Record compute := Compute { c_nolocal : bool; c_instances : string }.

(** type Data, file.go 336-341 *)
Record data := Data { d_name : string; d_gen : string; d_scope : string; d_params : smap string }.

(** type Trx, file.go 310-314 *)
Record trx := Trx { x_name : string; x_file : string; x_data : smap data }.

(** type ClientGroup, file.go 368-384 *)
Record cgroup := CGroup {
  g_clients : string; g_db : string; g_nostats : bool;
  g_iter : string; g_iter_c : string; g_iter_x : string; g_group : string;
  g_qps : string; g_qps_c : string; g_qps_x : string; g_runtime : string;
  g_tps : string; g_tps_c : string; g_tps_x : string; g_trx : list string }.

(** type Stage, file.go 35-51.  Id and Test are not set by this package and left out. *)
Record stage := Stage {
  s_compute : compute; s_disable : bool; s_file : string; s_name : string; s_mysql : mysql;
  s_n : nat; s_params : smap string; s_qps : string; s_runtime : string; s_stats : stats;
  s_tps : string; s_trx : list trx; s_workload : list cgroup }.

(** ** Base configuration (file.go 53-105, 501-531, 593-608; config.go 281-287) *)

(** setBool, config.go 281-287 *)
Definition set_bool (c b : option bool) : option bool :=
  match c, b with
  | None, Some v => Some v
  | _, _ => c
  end.

(** [if c == "" { c = def }]; the variants that also test [def != ""] do the same. *)
Definition or_default (c def : string) : string :=
  match c with "" => def | _ => c end.

(** TLS.With, file.go 593-608 *)
Definition tls_with (c def : tls) : tls :=
  TLS (or_default (t_ca c) (t_ca def)) (or_default (t_cert c) (t_cert def))
      (or_default (t_key c) (t_key def)) (set_bool (t_skip c) (t_skip def))
      (set_bool (t_disable c) (t_disable def)) (or_default (t_mode c) (t_mode def)).

(** MySQL.With, file.go 501-531 *)
Definition mysql_with (c def : mysql) : mysql :=
  MySQL (or_default (m_db c) (m_db def)) (or_default (m_dsn c) (m_dsn def))
        (or_default (m_host c) (m_host def)) (or_default (m_mycnf c) (m_mycnf def))
        (or_default (m_pass c) (m_pass def)) (or_default (m_passfile c) (m_passfile def))
        (or_default (m_socket c) (m_socket def)) (or_default (m_timeout c) (m_timeout def))
        (tls_with (m_tls c) (m_tls def)) (or_default (m_user c) (m_user def))
        (set_bool (m_noauto c) (m_noauto def)).

(** file.go 56-65: keys of [b] not yet in [c] are added. *)
Fixpoint add_missing (b c : smap string) : smap string :=
  match b with
  | [] => c
  | (k, v) :: b' =>
      add_missing b' (match sget k c with Some _ => c | None => sset k v c end)
  end.

(** Stage.With, file.go 53-82.  Stats.Freq is assigned unconditionally and Stats.Report is
    replaced by a copy of the base's if the base has one (71-80). *)
Definition stage_with (b : base) (c : stage) : stage :=
  Stage (s_compute c) (s_disable c) (s_file c) (s_name c)
        (mysql_with (s_mysql c) (b_mysql b)) (s_n c)
        (add_missing (b_params b) (s_params c)) (s_qps c) (s_runtime c)
        (Stats (set_bool (st_disable (s_stats c)) (st_disable (b_stats b)))
               (st_freq (b_stats b))
               (match st_report (b_stats b) with
                | [] => st_report (s_stats c)
                | r => r
                end))
        (s_tps c) (s_trx c) (s_workload c).

Definition cg_set_db (db : string) (g : cgroup) : cgroup :=
  CGroup (g_clients g) db (g_nostats g) (g_iter g) (g_iter_c g) (g_iter_x g) (g_group g)
         (g_qps g) (g_qps_c g) (g_qps_x g) (g_runtime g) (g_tps g) (g_tps_c g) (g_tps_x g)
         (g_trx g).

Definition mysql_set (dsn db : string) (m : mysql) : mysql :=
  MySQL db dsn (m_host m) (m_mycnf m) (m_pass m) (m_passfile m) (m_socket m) (m_timeout m)
        (m_tls m) (m_user m) (m_noauto m).

(** Stage.CommandLine, file.go 84-105 *)
Definition command_line (dsn db : string) (c : stage) : stage :=
  let m := s_mysql c in
  Stage (s_compute c) (s_disable c) (s_file c) (s_name c)
        (mysql_set (match dsn with "" => m_dsn m | _ => dsn end)
                   (match db with "" => m_db m | _ => db end) m)
        (s_n c) (s_params c) (s_qps c) (s_runtime c) (s_stats c) (s_tps c) (s_trx c)
        (match db with "" => s_workload c | _ => map (cg_set_db db) (s_workload c) end).

(** ** Interpolating a stage (file.go 107-155, 289-296, 316-364, 430-479, 533-567, 647-662,
    742-757) *)

Notation "'do' x <- e ; k" := (match e with Some x => k | None => None end)
  (at level 200, x name, e at level 100, k at level 200, only parsing).

Fixpoint map_opt {A B} (f : A -> option B) (l : list A) : option (list B) :=
  match l with
  | [] => Some []
  | a :: l' => do b <- f a; do bs <- map_opt f l'; Some (b :: bs)
  end.

(** The values of a map (with [range], in some order: no value depends on another). *)
Definition map_vals {A B} (f : A -> option B) (m : smap A) : option (smap B) :=
  map_opt (fun kv => do v <- f (snd kv); Some (fst kv, v)) m.

(** file.go 110-116: each param is interpolated with the map as it is at that moment. *)
Section vars_params.
  Context (E : env).
  Fixpoint vars_params (order : list string) (ps : smap string) : option (smap string) :=
    match order with
    | [] => Some ps
    | k :: ks =>
        match sget k ps with
        | None => vars_params ks ps
        | Some v => do v' <- vars E ps true v; vars_params ks (sset k v' ps)
        end
    end.
End vars_params.

Section vars_stage.
  Context (E : env) (ps : smap string).
  Let txt := vars E ps false.
  Let num := vars E ps true.

  (** Compute.Vars, file.go 289-296 *)
  Definition vars_compute (c : compute) : option compute :=
    do i <- num (c_instances c); Some (Compute (c_nolocal c) i).

  (** TLS.Vars, file.go 647-662 *)
  Definition vars_tls (c : tls) : option tls :=
    do cert <- txt (t_cert c); do key <- txt (t_key c); do ca <- txt (t_ca c);
    Some (TLS ca cert key (t_skip c) (t_disable c) (t_mode c)).

  (** MySQL.Vars, file.go 533-567 (Hostname and Socket are not interpolated) *)
  Definition vars_mysql (c : mysql) : option mysql :=
    do db <- txt (m_db c); do dsn <- txt (m_dsn c); do mycnf <- txt (m_mycnf c);
    do user <- txt (m_user c); do pass <- txt (m_pass c); do pf <- txt (m_passfile c);
    do tm <- txt (m_timeout c); do tl <- vars_tls (m_tls c);
    Some (MySQL db dsn (m_host c) mycnf pass pf (m_socket c) tm tl user (m_noauto c)).

  (** Stats.Vars, file.go 742-757 *)
  Definition vars_stats (c : stats) : option stats :=
    do f <- txt (st_freq c); do r <- map_vals (map_vals txt) (st_report c);
    Some (Stats (st_disable c) f r).

  (** Data.Vars, file.go 343-364 *)
  Definition vars_data (c : data) : option data :=
    do n <- txt (d_name c); do g <- txt (d_gen c); do s <- txt (d_scope c);
    do p <- map_vals num (d_params c); Some (Data n g s p).

  (** Trx.Vars, file.go 316-334 *)
  Definition vars_trx (c : trx) : option trx :=
    do n <- txt (x_name c); do f <- txt (x_file c); do d <- map_vals vars_data (x_data c);
    Some (Trx n f d).

  (** ClientGroup.Vars, file.go 430-479 (Iter, IterClients and IterExecGroup are not
      interpolated) *)
  Definition vars_cgroup (c : cgroup) : option cgroup :=
    do db <- txt (g_db c); do cl <- num (g_clients c);
    do q <- num (g_qps c); do qc <- num (g_qps_c c); do qx <- num (g_qps_x c);
    do t <- num (g_tps c); do tc <- num (g_tps_c c); do tx <- num (g_tps_x c);
    do r <- txt (g_runtime c); do g <- txt (g_group c); do xs <- map_opt txt (g_trx c);
    Some (CGroup cl db (g_nostats c) (g_iter c) (g_iter_c c) (g_iter_x c) g q qc qx r t tc tx xs).
End vars_stage.

(** Stage.Vars, file.go 107-155 *)
Definition stage_vars (E : env) (c : stage) : option stage :=
  do ps <- vars_params E (e_order E (s_n c) (skeys (s_params c))) (s_params c);
  do name <- vars E ps false (s_name c);
  do rt <- vars E ps false (s_runtime c);
  do q <- vars E ps true (s_qps c);
  do t <- vars E ps true (s_tps c);
  do cp <- vars_compute E ps (s_compute c);
  do my <- vars_mysql E ps (s_mysql c);
  do st <- vars_stats E ps (s_stats c);
  do xs <- map_opt (vars_trx E ps) (s_trx c);
  do gs <- map_opt (vars_cgroup E ps) (s_workload c);
  Some (Stage cp (s_disable c) (s_file c) name my (s_n c) ps q rt st t xs gs).

(** ** Validation (config.go 157-172, 289-295; file.go 157-280, 298-306, 386-428, 717-740) *)

Fixpoint digits_value (acc : N) (s : string) : option N :=
  match s with
  | "" => Some acc
  | String c s' =>
      if is_digit c then digits_value (acc * 10 + N.of_nat (nat_of_ascii c - 48))%N s' else None
  end.

(** strconv.ParseUint(s, 10, 32) without error *)
Definition parse_uint32 (s : string) : option N :=
  match s with
  | "" => None
  | _ =>
      match digits_value 0 s with
      | Some v => if (v <? 2 ^ 32)%N then Some v else None
      | None => None
      end
  end.

(** parseInt, config.go 289-295; true = nil error *)
Definition parse_int_ok (s : string) : bool :=
  match s with
  | "" => true
  | _ => match parse_uint32 s with Some _ => true | None => false end
  end.

(** ValidFreq, config.go 157-172; true = nil error *)
Definition valid_freq (E : env) (freq : string) : bool :=
  if String.eqb freq "" then true
  else if String.eqb freq "0" then false
  else match e_parse_duration E freq with
       | None => false
       | Some d => (0 <? d)%Z
       end.

(** The scopes of file.go 189-201 (finch.go 54-66). *)
Definition valid_scopes : list string :=
  [""; "global"; "stage"; "workload"; "exec-group"; "client-group"; "client"; "iter"; "trx";
   "statement"; "row"; "value"].

(** file.go 183-212 for one trx: the [seen] map after it, or an error. *)
Fixpoint check_data (seen : smap string) (ds : smap data) : option (smap string) :=
  match ds with
  | [] => Some seen
  | (k, d) :: ds' =>
      if String.eqb (d_gen d) "" then None
      else if negb (existsb (String.eqb (d_scope d)) valid_scopes) then None
      else match sget k seen with
           | None => check_data (sset k (d_scope d) seen) ds'
           | Some prev => if String.eqb prev (d_scope d) then check_data seen ds' else None
           end
  end.

(** file.go 170-213: trx with their names set. *)
Fixpoint check_trx (E : env) (seen : smap string) (xs : list trx) : option (list trx) :=
  match xs with
  | [] => Some []
  | x :: xs' =>
      if String.eqb (x_file x) "" then None
      else if negb (e_exists E (x_file x)) then None
      else
        let x1 := Trx (or_default (x_name x) (e_base E (x_file x))) (x_file x) (x_data x) in
        do seen' <- check_data seen (x_data x);
        do rest <- check_trx E seen' xs';
        Some (x1 :: rest)
  end.

(** ClientGroup.Validate, file.go 386-428 *)
Definition check_cgroup (E : env) (c : cgroup) : option cgroup :=
  if (parse_int_ok (g_clients c) && parse_int_ok (g_iter c) && parse_int_ok (g_iter_c c)
      && parse_int_ok (g_iter_x c) && parse_int_ok (g_qps c) && parse_int_ok (g_qps_c c)
      && parse_int_ok (g_qps_x c) && parse_int_ok (g_tps c) && parse_int_ok (g_tps_c c)
      && parse_int_ok (g_tps_x c) && valid_freq E (g_runtime c))%bool
  then Some (CGroup (or_default (g_clients c) "1") (g_db c) (g_nostats c)
               (g_iter c) (g_iter_c c) (g_iter_x c) (g_group c) (g_qps c) (g_qps_c c) (g_qps_x c)
               (g_runtime c) (g_tps c) (g_tps_c c) (g_tps_x c) (g_trx c))
  else None.

(** file.go 215-249.  [names]: the keys of the [names] map; [prev]: the group name of the
    previous client group; the result adds whether some group has trx and some has none. *)
Fixpoint check_workload (E : env) (xs : list trx) (names : list string) (prev : string)
    (gs : list cgroup) : option (list cgroup * (bool * bool)) :=
  match gs with
  | [] => Some ([], (false, false))
  | g :: gs' =>
      do g1 <- check_cgroup E g;
      let dup := (negb (String.eqb (g_group g) "") && existsb (String.eqb (g_group g)) names
                  && negb (String.eqb (g_group g) prev))%bool in
      if dup then None
      else
        let names' := if String.eqb (g_group g) "" then names else g_group g :: names in
        if negb (forallb (fun n => existsb (fun x => String.eqb n (x_name x)) xs) (g_trx g))
        then None
        else
          do r <- check_workload E xs names' (g_group g) gs';
          let '(gs1, (w, wo)) := r in
          match g_trx g with
          | [] => Some (g1 :: gs1, (w, true))
          | _ => Some (g1 :: gs1, (true, wo))
          end
  end.

(** Stats.Validate, file.go 717-740 *)
Definition check_stats (E : env) (c : stats) : option stats :=
  let report := match st_report c with
                | [] => [("stdout", [("each-instance", "true")])]
                | r => r
                end in
  match st_freq c with
  | "" => Some (Stats (st_disable c) "0s" report)
  | f => if valid_freq E f then Some (Stats (st_disable c) f report) else None
  end.

(** Stage.Validate, file.go 157-280; MySQL.Validate (569-571) accepts everything. *)
Definition stage_validate (E : env) (c : stage) : option stage :=
  if s_disable c then Some c
  else
    let name := or_default (s_name c) (e_base E (s_file c)) in
    match s_trx c with
    | [] => None
    | _ =>
        do xs <- check_trx E [] (s_trx c);
        do r <- check_workload E xs [] "" (s_workload c);
        let '(gs, (w, wo)) := r in
        if (w && wo)%bool then None
        else if negb (valid_freq E (s_runtime c)) then None
        else if negb (parse_int_ok (s_qps c)) then None
        else if negb (parse_int_ok (s_tps c)) then None
        else if negb (parse_int_ok (c_instances (s_compute c))) then None
        else
          do st <- check_stats E (s_stats c);
          Some (Stage (Compute (c_nolocal (s_compute c))
                         (or_default (c_instances (s_compute c)) "1"))
                      (s_disable c) (s_file c) name (s_mysql c) (s_n c) (s_params c) (s_qps c)
                      (s_runtime c) st (s_tps c) xs gs)
    end.

(** TLS.Validate, file.go 610-645; true = nil error.  Nothing calls it. *)
Definition tls_validate (E : env) (c : tls) : bool :=
  let set s := negb (String.eqb s "") in
  if (match t_disable c with Some true => true | _ => false end
      || negb (set (t_cert c) || set (t_key c) || set (t_ca c)))%bool then true
  else if (set (t_ca c) && negb (e_exists E (t_ca c)))%bool then false
  else if (set (t_cert c) && negb (e_exists E (t_cert c)))%bool then false
  else if (set (t_key c) && negb (e_exists E (t_key c)))%bool then false
  else if (set (t_ca c) && negb (set (t_cert c) || set (t_key c)))%bool then true
  else (set (t_cert c) && set (t_key c))%bool.

(** ** Load (config/config.go 36-141) *)

(** One stage file on the command line: its directory, and what decoding it gives ([None] if it
    cannot be read or decoded); File and N are set by Load. *)
Record stage_file := StageFile { f_dir : string; f_abs : string; f_stage : option stage }.

(** strings.SplitN(kv, "=", 2), config.go 53 *)
Fixpoint split_eq (s : string) : option (string * string) :=
  match s with
  | "" => None
  | String c s' =>
      if Ascii.eqb c "=" then Some ("", s')
      else match split_eq s' with
           | Some (k, v) => Some (String c k, v)
           | None => None
           end
  end.

(** config.go 51-59 *)
Fixpoint kv_params (kvs : list string) (ps : smap string) : smap string :=
  match kvs with
  | [] => ps
  | kv :: kvs' =>
      kv_params kvs' (match split_eq kv with Some (k, v) => sset k v ps | None => ps end)
  end.

(** config.go 85-93 *)
Definition base_params (params : smap string) (b : base) : base :=
  match b_params b with
  | [] => b
  | ps => Base (b_mysql b) (fold_left (fun m kv => sset (fst kv) (snd kv) m) params ps) (b_stats b)
  end.

Definition empty_tls : tls := TLS "" "" "" None None "".
Definition empty_mysql : mysql := MySQL "" "" "" "" "" "" "" "" empty_tls "" None.
Definition empty_base : base := Base empty_mysql [] (Stats None "" []).

(** config.go 107-113: the decoded stage with File and N set. *)
Definition set_file_n (file : string) (n : nat) (c : stage) : stage :=
  Stage (s_compute c) (s_disable c) file (s_name c) (s_mysql c) n (s_params c) (s_qps c)
        (s_runtime c) (s_stats c) (s_tps c) (s_trx c) (s_workload c).

(** config.go 61-139.  [bases dir]: [None] if the directory has no _all.yaml, [Some None] if it
    has one that cannot be read or decoded.  [cache]: the [base] map.  The working directory is
    changed to that of the file for validation (129); [e_exists] takes that as given. *)
Fixpoint load_files (E : env) (bases : string -> option (option base)) (params : smap string)
    (dsn db : string) (n : nat) (cache : smap base) (fs : list stage_file) : option (list stage) :=
  match fs with
  | [] => Some []
  | f :: fs' =>
      do bc <- (match sget (f_dir f) cache with
                | Some b => Some (b, cache)
                | None =>
                    match bases (f_dir f) with
                    | Some None => None
                    | Some (Some nb) =>
                        let b := base_params params nb in Some (b, sset (f_dir f) b cache)
                    | None =>
                        let b := base_params params empty_base in Some (b, sset (f_dir f) b cache)
                    end
                end);
      do c <- f_stage f;
      do c1 <- stage_vars E (command_line dsn db (stage_with (fst bc)
                                                   (set_file_n (f_abs f) (S n) c)));
      do c2 <- stage_validate E c1;
      do rest <- load_files E bases params dsn db (S n) (snd bc) fs';
      Some (c2 :: rest)
  end.

(** func Load, config.go 36-141 *)
Definition load (E : env) (bases : string -> option (option base)) (fs : list stage_file)
    (kvs : list string) (dsn db : string) : option (list stage) :=
  load_files E bases (kv_params kvs []) dsn db 0 [] fs.
