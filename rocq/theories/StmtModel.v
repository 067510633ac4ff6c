(** The statement record produced by package trx and used by workload and client. *)
From Verif Require Import Prelude.

(** trx/trx.go 43-59, [Statement].  [st_insertId = ""] is "none" as in the code; [st_limit] is
    the identity of the data limiter attached to the statement, [None] = nil; [st_idle] is the
    [time.Duration] in nanoseconds, 0 = not an idle statement. *)
Record stmt := Stmt {
  st_trx : string; st_query : string; st_resultset : bool; st_prepare : bool;
  st_prepareMulti : nat; st_begin : bool; st_commit : bool; st_write : bool; st_ddl : bool;
  st_idle : Z; st_inputs : list string; st_outputs : list string; st_insertId : string;
  st_limit : option nat; st_calls : list bool }.

(** A plain statement with the given inputs, all implicit (for examples). *)
Definition plain_stmt (q : string) (ins : list string) : stmt :=
  Stmt "" q false false 0 false false false false 0%Z ins [] "" None (map (fun _ => false) ins).
