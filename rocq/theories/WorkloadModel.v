(** Model of workload/workload.go: exec groups, automatic workload and client allocation. *)
From Verif Require Import Prelude ScopeModel StmtModel.
From Coq Require Import Decimal DecimalString.

(** trx/trx.go 35-40, [Set], without the data scope (kept separately).  A name missing from
    [Statements] reads as the empty list, a name missing from [Meta] as no DDL. *)
Record trxset := TrxSet {
  ts_order : list string; ts_stmts : string -> list stmt; ts_ddl : string -> bool }.

(** config/file.go 368-384, [ClientGroup].  The numeric strings are the numbers [finch.Uint]
    makes of them (empty = 0); config.Validate has checked they are below 2^32.  [cg_group] is
    the exec group name, [""] when not set. *)
Record cgcfg := CgCfg {
  cg_group : string; cg_trx : list string; cg_clients : N; cg_db : string;
  cg_disableStats : bool;
  cg_iter : N; cg_iterClients : N; cg_iterExecGroup : N;
  cg_qps : N; cg_qpsClients : N; cg_qpsExecGroup : N;
  cg_tps : N; cg_tpsClients : N; cg_tpsExecGroup : N }.

Definition cg_with (c : cgcfg) (group : string) (trx : list string) (iter : N) : cgcfg :=
  CgCfg group trx (cg_clients c) (cg_db c) (cg_disableStats c) iter (cg_iterClients c)
        (cg_iterExecGroup c) (cg_qps c) (cg_qpsClients c) (cg_qpsExecGroup c)
        (cg_tps c) (cg_tpsClients c) (cg_tpsExecGroup c).

(** [config.ClientGroup{Clients: "1", Iter: iter, Trx: trx}] *)
Definition cg_auto (iter : N) (trx : list string) : cgcfg :=
  CgCfg "" trx 1 "" false iter 0 0 0 0 0 0 0 0.

(** workload.go 322-329, [hasDDL]. *)
Fixpoint has_ddl (ts : trxset) (names : list string) : bool :=
  match names with
  | [] => false
  | n :: names' => if ts_ddl ts n then true else has_ddl ts names'
  end.

(** [cg[len(cg)-1].Trx = append(cg[len(cg)-1].Trx, t)]; the empty list is the index panic. *)
Fixpoint append_last (cgs : list cgcfg) (t : string) : option (list cgcfg) :=
  match cgs with
  | [] => None
  | [c] => Some [cg_with c (cg_group c) (cg_trx c ++ [t]) (cg_iter c)]
  | c :: cgs' => match append_last cgs' t with Some l => Some (c :: l) | None => None end
  end.

(** workload.go 289-320, [AutoAssign]: [cg] and [prevHasDDL] are the loop variables. *)
Fixpoint auto_assign_loop (ts : trxset) (names : list string) (cg : list cgcfg)
         (prevHasDDL : bool) : option (list cgcfg) :=
  match names with
  | [] => Some cg
  | n :: names' =>
    if ts_ddl ts n then auto_assign_loop ts names' (cg ++ [cg_auto 1 [n]]) true
    else if prevHasDDL then auto_assign_loop ts names' (cg ++ [cg_auto 0 [n]]) false
    else match append_last cg n with
         | Some cg' => auto_assign_loop ts names' cg' false
         | None => None
         end
  end.
Definition auto_assign (ts : trxset) : option (list cgcfg) :=
  auto_assign_loop ts (ts_order ts) [] true.

(** [fmt.Sprintf("%d", n)] *)
Definition dec (n : nat) : string := NilEmpty.string_of_uint (Nat.to_uint n).

(** workload.go 56-91: fill in trx, iter and names.  [autoNo], [ddlNo], [prevHasDDL] and [prev]
    are the loop variables. *)
Fixpoint fill_groups (ts : trxset) (w : list cgcfg) (autoNo ddlNo : nat) (prevHasDDL : bool)
         (prev : string) : list cgcfg :=
  match w with
  | [] => []
  | c :: w' =>
    let trx := match cg_trx c with [] => ts_order ts | t => t end in
    let hasDDL := has_ddl ts trx in
    let iter := if hasDDL && (cg_iter c =? 0)%N then 1%N else cg_iter c in
    if negb (String.eqb (cg_group c) "") then
      cg_with c (cg_group c) trx iter :: fill_groups ts w' autoNo ddlNo prevHasDDL prev
    else if hasDDL then
      let name := ("ddl" ++ dec (S ddlNo))%string in
      cg_with c name trx iter :: fill_groups ts w' autoNo (S ddlNo) true name
    else if prevHasDDL then
      let name := ("dml" ++ dec (S autoNo))%string in
      cg_with c name trx iter :: fill_groups ts w' (S autoNo) ddlNo false name
    else
      cg_with c prev trx iter :: fill_groups ts w' autoNo ddlNo prevHasDDL prev
  end.

(** workload.go 93-104: group client group indexes by name.  [groups] is built left to right;
    [groups[groupNo]] with [groupNo = -1] (empty list) is the index panic. *)
Fixpoint append_to_last {A} (gs : list (list A)) (x : A) : option (list (list A)) :=
  match gs with
  | [] => None
  | [g] => Some [g ++ [x]]
  | g :: gs' => match append_to_last gs' x with Some l => Some (g :: l) | None => None end
  end.

Fixpoint group_loop (w : list cgcfg) (i : nat) (name : string) (groups : list (list nat))
  : option (list (list nat)) :=
  match w with
  | [] => Some groups
  | c :: w' =>
    let '(groups', name') :=
      if negb (String.eqb name (cg_group c)) then (groups ++ [[]], cg_group c)
      else (groups, name) in
    match append_to_last groups' i with
    | Some g => group_loop w' (S i) name' g
    | None => None
    end
  end.

(** workload.go 48-113, [Allocator.Groups]: returns the modified workload and the groups;
    [None] is a panic. *)
Definition groups (ts : trxset) (w : list cgcfg) : option (list cgcfg * list (list nat)) :=
  match (match w with [] => auto_assign ts | _ => Some w end) with
  | None => None
  | Some w0 =>
    let w1 := fill_groups ts w0 0 0 true "" in
    match group_loop w1 0 "" [] with
    | Some gs => Some (w1, gs)
    | None => None
    end
  end.

(* ------------------------------------------------------------------------------------ *)
(** * Clients *)

(** A rate limiter: a leaf made by [limit.NewRate] or an [And] node, each with the identity of
    its channel.  limit/rate.go 30-42 and 90-107 (behaviour in RateModel.v). *)
Inductive rate := RLeaf (id : nat) (perSecond : N) | RAnd (id : nat) (a b : rate).

(** client/client.go 63-68, [StatementData]: inputs are (generator, explicit call?). *)
Record sdata := SData {
  d_inputs : list (nat * bool); d_outputs : list (option nat); d_insertId : option nat;
  d_begin : bool; d_end : bool }.
Definition sdata_zero : sdata := SData [] [] None false false.

(** client/client.go 30-56, [Client]: the fields set by the allocator.  Counter pointers are
    identities of counters. *)
Record client := Client {
  c_rl : runlevel; c_defaultDb : string; c_iter : N;
  c_iterClients : N; c_iterClientsPtr : option nat;
  c_iterEg : N; c_iterEgPtr : option nat;
  c_qps : option rate; c_tps : option rate;
  c_stmts : list stmt; c_data : list sdata; c_stats : list (option string) }.

(** Allocation state: the shared data scope and a supply of identities for counters and
    limiters (each [var ...IterPtr uint32] and each [NewRate]/[And] is a new object). *)
Record wst := WSt { w_sc : scopes; w_next : nat }.

Definition u32 (n : N) : N := (n mod 2^32)%N.

(** limit/rate.go 30-42, [NewRate]: nil for 0. *)
Definition new_rate (w : wst) (perSecond : N) : wst * option rate :=
  if (perSecond =? 0)%N then (w, None)
  else (WSt (w_sc w) (S (w_next w)), Some (RLeaf (w_next w) perSecond)).

(** limit/rate.go 90-107, [And]. *)
Definition rate_and (w : wst) (a b : option rate) : wst * option rate :=
  match a, b with
  | None, None => (w, None)
  | None, Some r => (w, Some r)
  | Some r, None => (w, Some r)
  | Some ra, Some rb => (WSt (w_sc w) (S (w_next w)), Some (RAnd (w_next w) ra rb))
  end.

(** [limit.And(a, limit.NewRate(n))] *)
Definition and_new (w : wst) (a : option rate) (n : N) : wst * option rate :=
  let '(w1, r) := new_rate w n in rate_and w1 a r.

(** workload.go 228-244: the inputs of one statement.  nil generators are skipped. *)
Fixpoint walk_inputs (sc : scopes) (rl : runlevel) (ins : list string) (calls : list bool)
  : option (scopes * list (nat * bool)) :=
  match ins with
  | [] => Some (sc, [])
  | k :: ins' =>
    match scopes_copy sc k rl with
    | None => None
    | Some (sc1, None) =>
      walk_inputs sc1 rl ins' (tl calls)
    | Some (sc1, Some p) =>
      match calls with
      | [] => None                       (* stmt.Calls[ino]: index out of range *)
      | c :: calls' =>
        match walk_inputs sc1 rl ins' calls' with
        | Some (sc2, l) => Some (sc2, (p, c) :: l)
        | None => None
        end
      end
    end
  end.

(** workload.go 246-260: the outputs (saved columns); the insert id slot stays nil. *)
Fixpoint walk_outputs (sc : scopes) (rl : runlevel) (outs : list string) (insertId : string)
  : option (scopes * list (option nat)) :=
  match outs with
  | [] => Some (sc, [])
  | k :: outs' =>
    if String.eqb k insertId then
      match walk_outputs sc rl outs' insertId with
      | Some (sc2, l) => Some (sc2, None :: l)
      | None => None
      end
    else
      match scopes_copy sc k rl with
      | None => None
      | Some (sc1, p) =>
        match walk_outputs sc1 rl outs' insertId with
        | Some (sc2, l) => Some (sc2, p :: l)
        | None => None
        end
      end
  end.

(** workload.go 262-266: the insert id generator; [g.Id()] panics on a nil generator. *)
Definition walk_insert_id (sc : scopes) (rl : runlevel) (insertId : string)
  : option (scopes * option nat) :=
  if String.eqb insertId "" then Some (sc, None)
  else match scopes_copy sc insertId rl with
       | Some (sc1, Some p) => Some (sc1, Some p)
       | _ => None
       end.

(** workload.go 223-274: the statements of one trx; [n] is the statement number over all trx,
    [data] the client's Data array.  Each statement advances the run level's query number. *)
Fixpoint walk_stmts (sc : scopes) (rl : runlevel) (stmts : list stmt) (n : nat)
         (cst : list stmt) (data : list sdata)
  : option (scopes * runlevel * nat * list stmt * list sdata) :=
  match stmts with
  | [] => Some (sc, rl, n, cst, data)
  | s :: stmts' =>
    let rl1 := RL (rl_stage rl) (rl_eg rl) (rl_cg rl) (rl_client rl) (rl_trx rl)
                  (rl_query rl + 1) in
    match set_nth cst n s with
    | None => None
    | Some cst1 =>
      match walk_inputs sc rl1 (st_inputs s) (st_calls s) with
      | None => None
      | Some (sc1, ins) =>
        match walk_outputs sc1 rl1 (st_outputs s) (st_insertId s) with
        | None => None
        | Some (sc2, outs) =>
          match walk_insert_id sc2 rl1 (st_insertId s) with
          | None => None
          | Some (sc3, iid) =>
            match upd_nth data n (fun d => SData ins outs iid (d_begin d) (d_end d)) with
            | None => None
            | Some data1 => walk_stmts sc3 rl1 stmts' (S n) cst1 data1
            end
          end
        end
      end
    end
  end.

(** workload.go 210-276: the trx of one client. *)
Fixpoint walk_trx (ts : trxset) (withStats : bool) (sc : scopes) (rl : runlevel)
         (trx : list string) (n : nat) (cst : list stmt) (data : list sdata)
  : option (scopes * runlevel * list stmt * list sdata * list (option string)) :=
  match trx with
  | [] => Some (sc, rl, cst, data, [])
  | t :: trx' =>
    let rl1 := RL (rl_stage rl) (rl_eg rl) (rl_cg rl) (rl_client rl) (rl_trx rl + 1) 0 in
    match upd_nth data n (fun d => SData (d_inputs d) (d_outputs d) (d_insertId d) true (d_end d)) with
    | None => None
    | Some data1 =>
      match walk_stmts sc rl1 (ts_stmts ts t) n cst data1 with
      | None => None
      | Some (sc2, rl2, n2, cst2, data2) =>
        match n2 with
        | O => None                       (* c.Data[n-1] with n = 0 *)
        | S n1 =>
          match upd_nth data2 n1 (fun d => SData (d_inputs d) (d_outputs d) (d_insertId d) (d_begin d) true) with
          | None => None
          | Some data3 =>
            match walk_trx ts withStats sc2 rl2 trx' n2 cst2 data3 with
            | None => None
            | Some (sc4, rl4, cst4, data4, st) =>
              Some (sc4, rl4, cst4, data4, (if withStats then Some t else None) :: st)
            end
          end
        end
      end
    end
  end.

(** A statement value used to pre-fill the Statements array (Go: nil pointers). *)
Definition stmt_nil : stmt := plain_stmt "" [].

(** workload.go 198-201: number of statements of all trx of the group. *)
Definition count_stmts (ts : trxset) (trx : list string) : nat :=
  fold_left (fun n t => n + length (ts_stmts ts t))%nat trx 0.

(** workload.go 168-281: the clients [k], [k+1], ... of one client group.  [rl] carries the run
    level variable, which the code never resets except for the fields shown. *)
Fixpoint walk_clients (ts : trxset) (withStats : bool) (cg : cgcfg) (clientsPtr egPtr : nat)
         (clientsQPS clientsTPS : option rate) (w : wst) (rl : runlevel)
         (k : N) (todo : nat) : option (wst * runlevel * list client) :=
  match todo with
  | O => Some (w, rl, [])
  | S todo' =>
    let rl1 := RL (rl_stage rl) (rl_eg rl) (rl_cg rl) (k + 1) (rl_trx rl) (rl_query rl) in
    let '(w1, qps) := and_new w clientsQPS (cg_qps cg) in
    let '(w2, tps) := and_new w1 clientsTPS (cg_tps cg) in
    let total := count_stmts ts (cg_trx cg) in
    let rl2 := RL (rl_stage rl1) (rl_eg rl1) (rl_cg rl1) (rl_client rl1) 0 (rl_query rl1) in
    match walk_trx ts (withStats && negb (cg_disableStats cg)) (w_sc w2) rl2 (cg_trx cg) 0
                   (repeat stmt_nil total) (repeat sdata_zero total) with
    | None => None
    | Some (sc3, rl3, cst, data, st) =>
      let c := Client rl1 (cg_db cg) (cg_iter cg)
                 (if (0 <? cg_iterClients cg)%N then u32 (cg_iterClients cg) else 0)
                 (if (0 <? cg_iterClients cg)%N then Some clientsPtr else None)
                 (if (0 <? cg_iterExecGroup cg)%N then u32 (cg_iterExecGroup cg) else 0)
                 (if (0 <? cg_iterExecGroup cg)%N then Some egPtr else None)
                 qps tps cst data st in
      match walk_clients ts withStats cg clientsPtr egPtr clientsQPS clientsTPS
                         (WSt sc3 (w_next w2)) rl3 (k + 1) todo' with
      | None => None
      | Some (w4, rl4, cs) => Some (w4, rl4, c :: cs)
      end
    end
  end.

(** workload.go 146-283: the client groups of one exec group; [refs] are indexes into the
    workload.  The database handle is not modelled. *)
Fixpoint walk_cgs (ts : trxset) (withStats : bool) (wl : list cgcfg) (egPtr : nat)
         (egQPS egTPS : option rate) (w : wst) (rl : runlevel) (cgNo : nat) (refs : list nat)
  : option (wst * runlevel * list (list client)) :=
  match refs with
  | [] => Some (w, rl, [])
  | r :: refs' =>
    let rl1 := RL (rl_stage rl) (rl_eg rl) (N.of_nat (cgNo + 1)) (rl_client rl) (rl_trx rl)
                  (rl_query rl) in
    match nth_error wl r with
    | None => None
    | Some cg =>
      let '(w1, clientsQPS) := and_new w egQPS (cg_qpsClients cg) in
      let '(w2, clientsTPS) := and_new w1 egTPS (cg_tpsClients cg) in
      let clientsPtr := w_next w2 in
      let w3 := WSt (w_sc w2) (S (w_next w2)) in
      match walk_clients ts withStats cg clientsPtr egPtr clientsQPS clientsTPS w3 rl1 0
                         (N.to_nat (cg_clients cg)) with
      | None => None
      | Some (w4, rl4, cs) =>
        match walk_cgs ts withStats wl egPtr egQPS egTPS w4 rl4 (S cgNo) refs' with
        | None => None
        | Some (w5, rl5, css) => Some (w5, rl5, cs :: css)
        end
      end
    end
  end.

(** workload.go 131-284: the exec groups. *)
Fixpoint walk_egs (ts : trxset) (withStats : bool) (wl : list cgcfg) (stageQPS stageTPS : option rate)
         (w : wst) (rl : runlevel) (egNo : nat) (gs : list (list nat))
  : option (wst * runlevel * list (list (list client))) :=
  match gs with
  | [] => Some (w, rl, [])
  | g :: gs' =>
    let rl1 := RL (rl_stage rl) (N.of_nat (egNo + 1)) (rl_cg rl) (rl_client rl) (rl_trx rl)
                  (rl_query rl) in
    match g with
    | [] => None                          (* groups[egNo][0] *)
    | r0 :: _ =>
      match nth_error wl r0 with
      | None => None
      | Some cgFirst =>
        let '(w1, egQPS) := and_new w stageQPS (cg_qpsExecGroup cgFirst) in
        let '(w2, egTPS) := and_new w1 stageTPS (cg_tpsExecGroup cgFirst) in
        let egPtr := w_next w2 in
        let w3 := WSt (w_sc w2) (S (w_next w2)) in
        match walk_cgs ts withStats wl egPtr egQPS egTPS w3 rl1 0 g with
        | None => None
        | Some (w4, rl4, css) =>
          match walk_egs ts withStats wl stageQPS stageTPS w4 rl4 (S egNo) gs' with
          | None => None
          | Some (w5, rl5, csss) => Some (w5, rl5, css :: csss)
          end
        end
      end
    end
  end.

(** workload.go 115-287, [Allocator.Clients]: exec groups of client groups of clients. *)
Definition clients (ts : trxset) (withStats : bool) (stage : N) (wl : list cgcfg)
           (stageQPS stageTPS : option rate) (gs : list (list nat)) (w : wst)
  : option (wst * list (list (list client))) :=
  match walk_egs ts withStats wl stageQPS stageTPS w (RL stage 0 0 0 0 0) 0 gs with
  | Some (w', _, out) => Some (w', out)
  | None => None
  end.

(** stage/stage.go 86-97: stage limiters, Groups, then Clients. *)
Definition allocate (ts : trxset) (withStats : bool) (stage : N) (wl : list cgcfg)
           (stageQPS stageTPS : N) (w : wst) : option (wst * list (list (list client))) :=
  let '(w1, q) := new_rate w stageQPS in
  let '(w2, t) := new_rate w1 stageTPS in
  match groups ts wl with
  | None => None
  | Some (wl', gs) => clients ts withStats stage wl' q t gs w2
  end.

(* ------------------------------------------------------------------------------------ *)
(** * Several stages of one run *)

(** trx/trx.go 462-492 and 524-569: loading the trx files of a stage adds the keys that are not
    yet there; [ks] are the keys of the files. *)
Definition load_keys (s : scopes) (ks : string -> option key) : scopes :=
  Scopes (fun k => match s_keys s k with Some x => Some x | None => ks k end)
         (s_copyOf s) (s_copiedAt s) (s_copyCount s) (s_noop s) (s_heap s).

(** What a stage contributes to allocation. *)
Record stagecfg := StageCfg {
  sg_N : N; sg_keys : string -> option key; sg_ts : trxset; sg_stats : bool;
  sg_wl : list cgcfg; sg_qps : N; sg_tps : N }.

(** compute/server.go 103 ([gds.Reset]) and stage/stage.go 46-116 ([Prepare]) for one stage. *)
Definition prepare_stage (st : stagecfg) (w : wst) : option (wst * list (list (list client))) :=
  allocate (sg_ts st) (sg_stats st) (sg_N st) (sg_wl st) (sg_qps st) (sg_tps st)
           (WSt (load_keys (scopes_reset (w_sc w)) (sg_keys st)) (w_next w)).

(** compute/server.go 86-194: the stages in order, all with the same data scope. *)
Fixpoint prepare_all (sts : list stagecfg) (w : wst) : option (wst * list (list (list (list client)))) :=
  match sts with
  | [] => Some (w, [])
  | st :: sts' =>
    match prepare_stage st w with
    | None => None
    | Some (w1, out) =>
      match prepare_all sts' w1 with
      | None => None
      | Some (w2, outs) => Some (w2, out :: outs)
      end
    end
  end.
