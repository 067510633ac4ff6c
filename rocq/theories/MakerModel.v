(** The reporters of a stage: stats/reporter.go 32-93 ([MakeReporters], [Register]), stats/csv.go 22-57, 59-122 (what is
    written to the file), stats/stdout.go 35-70, stats/remote.go 29-40, and where the reporters of a stage are made:
    compute/server.go 96-101 and compute/client.go 96-112.

    The file system has whole files with their lines.  What reporters print or send is left out but for the lines of csv files;
    those are given (ReportModel.v: [csv_line]).  Files are not removed by others meanwhile; writing to a file succeeds. *)
From Verif Require Import Prelude ConfigModel ReportModel.
From Verif Require ServeModel.
#[local] Open Scope list_scope.
#[local] Open Scope string_scope.

(** Files by path, with their lines. *)
Definition fsys := smap (list string).

(** What [Make] returns: stdout.go 25-32, csv.go 14-17, remote.go 18-24; [Custom]: another implementation of the interface. *)
Inductive reporter :=
| Stdout (each_combined : bool * bool) (names : list string) (ps : list pct)
| CSV (path : string) (ps : list pct)
| Server (server client stage_id : string)
| Custom (id : nat).

(** A [ReporterFactory]: that of reporter.go 79-93, or one given to [Register]. *)
Inductive factory := Builtin | Given (id : nat).

(** reporter.go 49-59, [Register]; [None]: the error. *)
Definition register (name : string) (f : factory) (reg : smap factory) : option (smap factory) :=
  match sget name reg with Some _ => None | None => Some (sset name f reg) end.

(** reporter.go 63-67 *)
Definition registry0 : smap factory := [("stdout", Builtin); ("server", Builtin); ("csv", Builtin)].

Section Maker.
(** The path of a file name in a working directory; whether a file can be created there if it does not exist; the name that
    os.CreateTemp takes (none: error); whether [Make] of a given factory succeeds. *)
Variables (path_of : string -> string -> string) (can_create : string -> bool) (temp : fsys -> option string)
          (given_ok : nat -> smap string -> bool).
(** The registered factories. *)
Variable reg : smap factory.

(** os.OpenFile with O_CREATE|O_EXCL, csv.go 31; os.CreateTemp, csv.go 29, opens its file likewise. *)
Definition create (p : string) (fs : fsys) : option fsys :=
  match sget p fs with
  | Some _ => None
  | None => if can_create p then Some (sset p [] fs) else None
  end.

(** Fprintln to an open file, csv.go 44-50, 121. *)
Definition append (p line : string) (fs : fsys) : fsys :=
  match sget p fs with Some ls => sset p (ls ++ [line])%list fs | None => fs end.

(** csv.go 22-57, [NewCSV]: the file is created before the percentiles are looked at. *)
Definition new_csv (cwd : string) (opts : smap string) (fs : fsys) : fsys * option reporter :=
  match (if String.eqb (opt "file" opts) "" then temp fs else Some (path_of cwd (opt "file" opts))) with
  | None => (fs, None)
  | Some p =>
      match create p fs with
      | None => (fs, None)
      | Some fs1 =>
          match parse_percentiles (opt "percentiles" opts) with
          | None => (fs1, None)
          | Some (names, ps) => (append p (header names) fs1, Some (CSV p ps))
          end
      end
  end.

(** stdout.go 35-70, [NewStdout]. *)
Definition new_stdout (opts : smap string) : option reporter :=
  match parse_percentiles (opt "percentiles" opts) with
  | None => None
  | Some (names, ps) => Some (Stdout (stdout_options opts) names ps)
  end.

(** remote.go 29-40, [NewServer]. *)
Definition new_server (opts : smap string) : reporter := Server (opt "server" opts) (opt "client" opts) (opt "stage-id" opts).

(** reporter.go 83-93, [factory.Make], and that of given factories. *)
Definition make (f : factory) (cwd name : string) (opts : smap string) (fs : fsys) : fsys * option reporter :=
  match f with
  | Given i => (fs, if given_ok i opts then Some (Custom i) else None)
  | Builtin =>
      if String.eqb name "stdout" then (fs, new_stdout opts)
      else if String.eqb name "server" then (fs, Some (new_server opts))
      else if String.eqb name "csv" then new_csv cwd opts fs
      else (fs, None)
  end.

(** reporter.go 32-47, [MakeReporters], for an order of the map. *)
Fixpoint make_reporters (cwd : string) (l : list (string * smap string)) (fs : fsys) : fsys * option (list reporter) :=
  match l with
  | [] => (fs, Some [])
  | (name, opts) :: l' =>
      match sget name reg with
      | None => (fs, None)
      | Some f =>
          match make f cwd name opts fs with
          | (fs1, None) => (fs1, None)
          | (fs1, Some r) =>
              match make_reporters cwd l' fs1 with
              | (fs2, None) => (fs2, None)
              | (fs2, Some rs) => (fs2, Some (r :: rs))
              end
          end
      end
  end.

(** The order in which the loop of stage number [i] goes over the map. *)
Variable order : nat -> smap (smap string) -> list (string * smap string).

(** server.go 96-101: the reporters of a stage, in the directory of its file (51-55); none if statistics are disabled. *)
Definition start (i : nat) (cwd : string) (c : stage) (fs : fsys) : fsys * option (list reporter) :=
  if ServeModel.stats_on c then make_reporters cwd (order i (st_report (s_stats c))) fs else (fs, Some []).

(** One report: csv.go 121; [text]: the line for the percentiles. *)
Definition report (text : list pct -> string) (rs : list reporter) (fs : fsys) : fsys :=
  fold_left (fun fs r => match r with CSV p ps => append p (text ps) fs | _ => fs end) rs fs.

(** The stages of a run one after the other (server.go 50-67), each with its directory and its reports; until reporters of a stage
    cannot be made ([false]). *)
Fixpoint stages_run (i : nat) (l : list (string * stage * list (list pct -> string))) (fs : fsys)
  : fsys * list (list reporter) * bool :=
  match l with
  | [] => (fs, [], true)
  | (cwd, c, texts) :: l' =>
      match start i cwd c fs with
      | (fs1, None) => (fs1, [], false)
      | (fs1, Some rs) =>
          let '(fs2, rss, ok) := stages_run (S i) l' (fold_left (fun fs t => report t rs fs) texts fs1) in
          (fs2, rs :: rss, ok)
      end
  end.

(** client.go 98-108: what a remote makes of the report section, whose address of the server is [addr], for stage [id]. *)
Definition remote_report (addr name id : string) (m : smap (smap string)) : smap (smap string) :=
  sset "server" [("server", addr); ("client", name); ("stage-id", id)] (filter (fun kv => String.eqb (fst kv) "stdout") m).

(** client.go 98-112: the reporters of a stage on a remote; whether statistics are disabled is not looked at. *)
Definition start_remote (i : nat) (cwd addr name id : string) (c : stage) (fs : fsys) : fsys * option (list reporter) :=
  make_reporters cwd (order i (remote_report addr name id (st_report (s_stats c)))) fs.
End Maker.
