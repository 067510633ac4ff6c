(** What C137 and C138 speak about. *)
From Coq Require Import Permutation.
From Verif Require Import Prelude ConfigModel ReportModel MakerModel.
#[local] Open Scope list_scope.
#[local] Open Scope string_scope.

(** What programs that use Finch as a library can make of the registered reporters by [Register]. *)
Inductive registered : smap factory -> Prop :=
| RInit : registered registry0
| RMore name i reg reg' : registered reg -> register name (Given i) reg = Some reg' -> registered reg'.

(** Statistics are not disabled. *)
Definition enabled (c : stage) : Prop := st_disable (s_stats c) <> Some true.

(** The [file] of the options of a csv reporter. *)
Definition csv_file (opts : smap string) (f : string) : Prop := sget "file" opts = Some f /\ f <> "".

(** The percentiles of the options. *)
Definition csv_columns (opts : smap string) (names : list string) (ps : list pct) : Prop :=
  parse_percentiles (match sget "percentiles" opts with Some s => s | None => "" end) = Some (names, ps).

(** The options of a configured reporter are valid. *)
Definition usable (given_ok : nat -> smap string -> bool) (reg : smap factory) (name : string) (opts : smap string) : Prop :=
  if (String.eqb name "stdout" || String.eqb name "csv")%bool then exists names ps, csv_columns opts names ps
  else if String.eqb name "server" then True
  else exists i, sget name reg = Some (Given i) /\ given_ok i opts = true.

(** [r] is the reporter that the entry asks for. *)
Definition made_for (path_of : string -> string -> string) (reg : smap factory) (cwd : string) (kv : string * smap string) (r : reporter) : Prop :=
  let (name, opts) := kv in
  if String.eqb name "stdout" then exists names ps, csv_columns opts names ps /\ r = Stdout (stdout_options opts) names ps
  else if String.eqb name "server" then
    r = Server (match sget "server" opts with Some s => s | None => "" end) (match sget "client" opts with Some s => s | None => "" end)
               (match sget "stage-id" opts with Some s => s | None => "" end)
  else if String.eqb name "csv" then
    exists p names ps, csv_columns opts names ps /\ r = CSV p ps /\ forall f, csv_file opts f -> p = path_of cwd f
  else exists i, sget name reg = Some (Given i) /\ r = Custom i.

(** The reporters of a stage are exactly those that its entries ask for. *)
Definition serves (path_of : string -> string -> string) (reg : smap factory) (cwd : string) (m : smap (smap string)) (rs : list reporter) : Prop :=
  exists l, Permutation l m /\ Forall2 (made_for path_of reg cwd) l rs.

(** The stages of a run write to csv file [p]: the number of the stage, its options and reports. *)
Definition writes_to (path_of : string -> string -> string) (l : list (string * stage * list (list pct -> string))) (a : nat) (p : string)
  (opts : smap string) (texts : list (list pct -> string)) : Prop :=
  exists cwd c f, nth_error l a = Some (cwd, c, texts) /\ enabled c /\ In ("csv", opts) (st_report (s_stats c)) /\ csv_file opts f /\ p = path_of cwd f.

(** Server.Run of ServeModel.v finds that the reporters of a stage can be made as MakerModel.v says: [made] are the reporters of the stages
    for which they could. *)
Definition agrees (stages : list stage) (collector_ok : stage -> bool) (made : list (list reporter)) : Prop :=
  forall a c, nth_error stages a = Some c -> enabled c -> collector_ok c = (a <? length made)%nat.
