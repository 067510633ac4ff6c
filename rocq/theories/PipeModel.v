(** From the stage files to the clients: how the parts modelled in ConfigModel.v (config.Load),
    TrxModel.v (trx.Load) and WorkloadModel.v (workload.Allocator) are put together
    (stage/stage.go 46-116, [Stage.Prepare]; compute/server.go 86-194).

    The connection test (stage.go 51-65) and the database handles are not modelled. *)
From Verif Require Import Prelude ConfigModel TrxModel.
From Verif Require ScopeModel StmtModel WorkloadModel.
#[local] Open Scope string_scope.
#[local] Open Scope list_scope.

(** finch.go 54-66: the scope a string means; "" and (not accepted by config) other strings are
    no scope. *)
Definition scope_of (s : string) : option ScopeModel.scope :=
  if String.eqb s "global" then Some ScopeModel.SGlobal
  else if String.eqb s "stage" then Some ScopeModel.SStage
  else if String.eqb s "workload" then Some ScopeModel.SWorkload
  else if String.eqb s "exec-group" then Some ScopeModel.SExecGroup
  else if String.eqb s "client-group" then Some ScopeModel.SClientGroup
  else if String.eqb s "client" then Some ScopeModel.SClient
  else if String.eqb s "iter" then Some ScopeModel.SIter
  else if String.eqb s "trx" then Some ScopeModel.STrx
  else if String.eqb s "statement" then Some ScopeModel.SStatement
  else if String.eqb s "row" then Some ScopeModel.SRow
  else if String.eqb s "value" then Some ScopeModel.SValue
  else None.

(** The same [data.Key] in both models (data/scope.go 37-45); [n] is its Name. *)
Definition key_of (n : string) (k : key) : ScopeModel.key :=
  ScopeModel.Key n (match k_col k with Some c => Z.of_nat c | None => (-1)%Z end)
                 (scope_of (k_scope k)) (k_gen k).

(** The same [trx.Statement] in both models (trx/trx.go 43-59); [lid] is the identity of the
    limiter made for it, if any. *)
Definition stmt_of (lid : nat) (p : pstmt) : StmtModel.stmt :=
  StmtModel.Stmt (p_trx p) (p_query p) (p_resultset p) (p_prepare p) (N.to_nat (p_multi p))
    (p_begin p) (p_commit p) (p_write p) (p_ddl p) (p_idle p) (p_inputs p) (p_outputs p)
    (p_insert p) (match p_limits p with [] => None | _ => Some lid end) (p_calls p).

Fixpoint stmts_of (lid : nat -> nat) (i : nat) (ps : list pstmt) : list StmtModel.stmt :=
  match ps with
  | [] => []
  | p :: ps' => stmt_of (lid i) p :: stmts_of lid (S i) ps'
  end.

(** The same [trx.Set] in both models (trx/trx.go 35-40). *)
Definition trxset_of (lid : string -> nat -> nat) (set : tset) : WorkloadModel.trxset :=
  WorkloadModel.TrxSet (t_order set)
    (fun n => match sget n (t_stmts set) with Some ps => stmts_of (lid n) 0 ps | None => [] end)
    (fun n => match sget n (t_ddl set) with Some b => b | None => false end).

(** finch.go 176-179, [Uint]: [strconv.ParseUint(s, 10, 64)] with the error ignored; the result is
    0 for a string that is not a number and the largest number for one that is too large. *)
Definition uint (s : string) : N :=
  match s with
  | "" => 0%N
  | _ => match digits_value 0 s with
         | None => 0%N
         | Some v => N.min v (2 ^ 64 - 1)
         end
  end.

(** The same [config.ClientGroup] in both models (config/file.go 368-384). *)
Definition cgcfg_of (g : cgroup) : WorkloadModel.cgcfg :=
  WorkloadModel.CgCfg (g_group g) (g_trx g) (uint (g_clients g)) (g_db g) (g_nostats g)
    (uint (g_iter g)) (uint (g_iter_c g)) (uint (g_iter_x g))
    (uint (g_qps g)) (uint (g_qps_c g)) (uint (g_qps_x g))
    (uint (g_tps g)) (uint (g_tps_c g)) (uint (g_tps_x g)).

(** What Prepare asks of its environment: that of package trx (see [tenv]), the lines of the trx
    files as found from the directory of the stage file, and fresh limiters. *)
Record penv := PEnv {
  pe_env : env;
  pe_make : string -> string -> smap string -> option string;
  pe_order : list string -> list string;
  pe_row_order : list string -> list string;
  pe_read : string -> string -> option (list string);
  pe_lid : string -> nat -> nat }.

Definition tenv_of (P : penv) (c : stage) : tenv :=
  TEnv (pe_env P) (s_params c) (pe_make P) (pe_order P) (pe_row_order P).

(** stage/stage.go 72: trx.Load with the data scope's keys [keys]. *)
Definition load_stage (P : penv) (c : stage) (keys : smap key) : option tset :=
  load_trx (tenv_of P c) (pe_read P (s_file c)) (s_trx c) (TSet [] [] [] keys).

(** stage/stage.go 83-97: what the allocator is given. *)
Definition stage_of (P : penv) (c : stage) (set : tset) : WorkloadModel.stagecfg :=
  WorkloadModel.StageCfg (N.of_nat (s_n c))
    (fun n => option_map (key_of n) (sget n (t_keys set)))
    (trxset_of (pe_lid P) set)
    (match st_disable (s_stats c) with Some true => false | _ => true end)
    (map cgcfg_of (s_workload c)) (uint (s_qps c)) (uint (s_tps c)).

(** data/scope.go 125-135, [Scope.Reset], on the keys: only stage and global scoped keys are
    left for the next stage (compute/server.go 103). *)
Definition keys_left (keys : smap key) : smap key :=
  filter (fun kv => (String.eqb (k_scope (snd kv)) "stage" || String.eqb (k_scope (snd kv)) "global")%bool) keys.

(** The stages of a run, one after the other (compute/server.go 86-194), until one cannot be
    loaded. *)
Fixpoint load_stages (P : penv) (cs : list stage) (keys : smap key)
    : option (list (stage * tset)) :=
  match cs with
  | [] => Some []
  | c :: cs' =>
      do set <- load_stage P c keys;
      do rest <- load_stages P cs' (keys_left (t_keys set));
      Some ((c, set) :: rest)
  end.

(** Preparing all of them: [None] is a panic of the allocator. *)
Definition prepare_run (P : penv) (l : list (stage * tset))
    : option (WorkloadModel.wst * list (list (list (list WorkloadModel.client)))) :=
  WorkloadModel.prepare_all (map (fun x => stage_of P (fst x) (snd x)) l)
    (WorkloadModel.WSt ScopeModel.scopes_new 0).
