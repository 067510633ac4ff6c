(** One client executing its statements: client/client.go. *)
From Verif Require Import Prelude ScopeModel StmtModel WorkloadModel.

(* ------------------------------------------------------------------------------------ *)
(** * Errors *)

(** An error value: its MySQL error code as given by [myerr.MySQLErrorCode] (0 if it is not a MySQL
    error) and whether [errors.Is] finds context.Canceled or context.DeadlineExceeded in it.
    [er_root] is not data of the program: it tells whether the cause of the error was the end of
    the run's context (runtime elapsed, CTRL-C). *)
Record err := Err { er_code : N; er_cancel : bool; er_root : bool }.
(** [fmt.Errorf("...%s", err)]: the text of the error only. *)
Definition err_text (e : err) : err := Err 0 false (er_root e).
Definition err_ctx : err := Err 0 true true.

(** finch.go 187-193.  (iota is 1 in the line of Ereconnect.) *)
Definition Eabort : N := 0.
Definition Ereconnect : N := 2.
Definition Econtinue : N := 4.
Definition Esilent : N := 8.
Definition Erollback : N := 16.

(** finch.go 195-205, [MySQLErrorHandling]. *)
Definition error_handling (code : N) : option N :=
  match code with
  | 1046 => Some Eabort
  | 1062 => Some Eabort
  | 1064 => Some Eabort
  | 1146 => Some Eabort
  | 1205 => Some (N.lor Erollback Econtinue)
  | 1213 => Some Econtinue
  | 1290 => Some (N.lor Erollback Econtinue)
  | 1317 => Some Econtinue
  | 1836 => Some (N.lor Erollback Econtinue)
  | _ => None
  end%N.

(* ------------------------------------------------------------------------------------ *)
(** * What can be observed *)

(** stats/stats.go: the classes of queries. *)
Inductive qclass := READ | WRITE | COMMIT | TOTAL.

(** How a client stops. *)
Inductive stop := StopLimit | StopErr (e : err) | StopPanic.

Section Client.
  Context {V : Type}.

  Inductive event :=
    | EvConnect (conn : nat)                       (* new connection *)
    | EvClose (conn : nat)
    | EvUse (conn : nat)                           (* USE default db *)
    | EvPrepare (i : nat) (conn : nat)             (* statement i prepared on conn *)
    | EvRollback (conn : nat)                      (* ROLLBACK executed on conn *)
    | EvTps | EvQps                                (* permit taken *)
    | EvExec (i : nat) (prepared : option nat) (conn : nat) (rc : runcount)
             (vals : list (option V)) (res : option err) (ctx : bool)
        (* statement i executed; prepared on which connection, if; the client's connection;
           counters; values; result; context done when the result is handled *)
    | EvRecord (slot : nat) (c : qclass)           (* Stats[slot].Record *)
    | EvError (slot : nat) (code : N)              (* Stats[slot].Error *)
    | EvAffected (i : nat)                         (* Limit.Affected *)
    | EvSaved (i : nat)                            (* columns or insert id saved *)
    | EvDone (s : stop) (reported : option err).   (* client sent to DoneChan with Error; why it stopped *)

  (** The environment of one call of [Connect]. *)
  Record cenv := CEnv {
    ce_ctx0 : bool;             (* context done at entry *)
    ce_rollback : option err;   (* error of ROLLBACK *)
    ce_conn : bool;             (* a connection is obtained before the context is done *)
    ce_ctx1 : bool;             (* context done after the loop *)
    ce_use : option err;        (* error of USE *)
    ce_prep : nat -> option err (* error of preparing statement i *) }.

  (** The environment of the execution of one statement: the values its inputs return, the answer
      of its data limit ([None]: it panics), the error of the query, of scanning its rows, context
      done when the error is handled, and then [Connect]. *)
  Record senv := SEnv {
    v_inputs : list (list V);
    v_more : option bool;
    v_res : option err;
    v_scan : option err;
    v_ctx : bool;
    v_conn : cenv }.

  (** The variables of the client: client.go 51-55 and the locals of [Run] (202-220).  [s_ps]:
      prepared statements, with the connection each was prepared on.  [s_values]: the values
      arrays, [None] being nil. *)
  Record cst := CSt {
    s_conn : option nat; s_next : nat; s_ps : list (option nat);
    s_values : list (list (option V)); s_rc : runcount; s_trxNo : Z; s_active : bool }.

  (** client.go 70-80, [Init]; 202-209 (counters; CONN is set to 1 after the first connection). *)
  Definition client_init (c : client) : cst :=
    CSt None 0 (map (fun _ => None) (c_stmts c))
        (map (fun s => repeat None (length (st_inputs s))) (c_stmts c))
        (RC 0 0 0 1 (rl_client (c_rl c)) (rl_cg (c_rl c)) (rl_eg (c_rl c)) (rl_stage (c_rl c))) (-1) false.

  (** client.go 149-169: prepare what is not prepared. *)
  Inductive presult := PDoneOk | PDoneErr (e : err) | PDonePanic.
  Fixpoint copies_ps (ps : list (option nat)) (i : nat) (p : option nat) (j n : nat) : option (list (option nat)) :=
    match n with
    | O => Some ps
    | S n' => match set_nth ps (i + j) p with Some ps' => copies_ps ps' i p (S j) n' | None => None end
    end.
  Fixpoint prepare_stmts (conn : nat) (prep : nat -> option err) (i : nat) (stmts : list stmt) (ps : list (option nat))
    : list (option nat) * list event * presult :=
    match stmts with
    | [] => (ps, [], PDoneOk)
    | s :: stmts' =>
      if negb (st_prepare s) then prepare_stmts conn prep (S i) stmts' ps
      else
        match nth_error ps i with
        | None => (ps, [], PDonePanic)
        | Some (Some _) => prepare_stmts conn prep (S i) stmts' ps
        | Some None =>
          match prep i with
          | Some e => (ps, [], PDoneErr (err_text e))
          | None =>
            match set_nth ps i (Some conn) with
            | None => (ps, [], PDonePanic)
            | Some ps1 =>
              match copies_ps ps1 i (Some conn) 1 (st_prepareMulti s - 1) with
              | None => (ps1, [EvPrepare i conn], PDonePanic)
              | Some ps2 =>
                let '(ps3, evs, r) := prepare_stmts conn prep (S i) stmts' ps2 in
                (ps3, EvPrepare i conn :: evs, r)
              end
            end
          end
        end
    end.

  (** client.go 117-169: get a new connection. *)
  Definition reconnect (c : client) (st : cst) (ce : cenv) : cst * list event * presult :=
    let ev0 := match s_conn st with Some k => [EvClose k] | None => [] end in
    let mk conn next ps := CSt conn next ps (s_values st) (s_rc st) (s_trxNo st) (s_active st) in
    if negb (ce_conn ce) then (mk None (s_next st) (s_ps st), ev0, PDoneErr err_ctx)
    else
      let k := s_next st in
      let ev1 := ev0 ++ [EvConnect k] in
      if ce_ctx1 ce then (mk (Some k) (S k) (s_ps st), ev1, PDoneErr err_ctx)
      else
        let usedb := negb (String.eqb (c_defaultDb c) "") in
        match (if usedb then ce_use ce else None) with
        | Some e => (mk (Some k) (S k) (s_ps st), ev1, PDoneErr e)
        | None =>
          let ev2 := ev1 ++ (if usedb then [EvUse k] else []) in
          let '(ps, evs, r) := prepare_stmts k (ce_prep ce) 0 (c_stmts c) (s_ps st) in
          (mk (Some k) (S k) ps, ev2 ++ evs, r)
        end.

  (** client.go 82-171, [Connect]; [cerr] is the error and [i] the number of the failed
      statement, [None] for the first connection. *)
  Definition connect (c : client) (st : cst) (cerr : option (err * nat)) (ce : cenv)
    : cst * list event * presult :=
    if ce_ctx0 ce then (st, [], PDoneErr err_ctx)
    else
      match cerr with
      | None => reconnect c st ce
      | Some (e, i) =>
        let h := error_handling (er_code e) in
        match nth_error (c_stmts c) i with
        | None => (st, [], PDonePanic)
        | Some s =>
          if (st_ddl s && match h with None => true | Some _ => false end)%bool then (st, [], PDoneErr (err_text e))
          else
            match h with
            | None => reconnect c st ce
            | Some fl =>
              if negb (N.land fl Eabort =? 0)%N then (st, [], PDoneErr e)
              else if (negb (N.land fl Erollback =? 0)%N && s_active st)%bool then
                match s_conn st with
                | None => (st, [], PDonePanic)
                | Some k =>
                  match ce_rollback ce with
                  | Some e' => (st, [EvRollback k], PDoneErr (err_text e'))
                  | None =>
                    if negb (N.land fl Econtinue =? 0)%N then (st, [EvRollback k], PDoneOk)
                    else let '(st', evs, r) := reconnect c st ce in (st', EvRollback k :: evs, r)
                  end
                end
              else if negb (N.land fl Econtinue =? 0)%N then (st, [], PDoneOk)
              else reconnect c st ce
            end
        end
      end.

  (** client.go 268-275: [d += copy(c.values[i][d:], f(rc))]; [None] if [d] is beyond the end (it
      never is). *)
  Fixpoint copy_at (vals : list (option V)) (d : nat) (new : list V) : list (option V) * nat :=
    match vals, d, new with
    | _, _, [] => (vals, 0)
    | [], _, _ => ([], 0)
    | v :: vals', S d', _ => let '(r, n) := copy_at vals' d' new in (v :: r, n)
    | _ :: vals', O, x :: new' => let '(r, n) := copy_at vals' 0 new' in (Some x :: r, S n)
    end.
  Fixpoint fill_values (vals : list (option V)) (d : nat) (ins : list (list V)) : list (option V) :=
    match ins with
    | [] => vals
    | new :: ins' => let '(vals', n) := copy_at vals d new in fill_values vals' (d + n) ins'
    end.

  Inductive next := NStmt | NIter | NStop (s : stop).

  Definition with_rc (st : cst) (rc : runcount) : cst :=
    CSt (s_conn st) (s_next st) (s_ps st) (s_values st) rc (s_trxNo st) (s_active st).

  (** c.Stats[trxNo] (a negative or too large index panics) *)
  Definition stats_slot (c : client) (trxNo : Z) : option (option nat) :=
    if (trxNo <? 0)%Z then None
    else match nth_error (c_stats c) (Z.to_nat trxNo) with
         | None => None
         | Some None => Some None
         | Some (Some _) => Some (Some (Z.to_nat trxNo))
         end.

  (** client.go 347-356, ERROR. *)
  Definition handle_error (c : client) (st : cst) (i : nat) (slot : option nat) (e : err) (se : senv)
    : cst * list event * next :=
    let ev0 := match slot with
               | Some k => if v_ctx se then [] else [EvError k (er_code e)]
               | None => []
               end in
    let '(st1, evs, r) := connect c st (Some (e, i)) (v_conn se) in
    match r with
    | PDoneOk =>
      let rc := s_rc st1 in
      (with_rc st1 (RC (rc_statement rc) (rc_trx rc) (rc_iter rc) (rc_conn rc + 1) (rc_client rc) (rc_cg rc) (rc_eg rc) (rc_stage rc)),
       ev0 ++ evs, NIter)
    | PDoneErr e' => (st1, ev0 ++ evs, NStop (StopErr e'))
    | PDonePanic => (st1, ev0 ++ evs, NStop StopPanic)
    end.

  (** The class under which a statement is recorded: client.go 287-289, 321-332. *)
  Definition class_of (s : stmt) : qclass :=
    if st_resultset s then READ else if st_write s then WRITE else if st_commit s then COMMIT else TOTAL.

  (** client.go 240-357: statement [i] of the loop. *)
  Definition exec_stmt (c : client) (st : cst) (i : nat) (se : senv) : cst * list event * next :=
    match nth_error (c_stmts c) i, nth_error (c_data c) i, nth_error (s_values st) i, nth_error (s_ps st) i with
    | Some s, Some d, Some vals, Some ps =>
      if negb (st_idle s =? 0)%Z then (st, [], NStmt)
      else
        (* 247-256 *)
        let rc := s_rc st in
        let '(trx1, trxNo1, active1) :=
          if d_begin d then ((rc_trx rc + 1)%N, (s_trxNo st + 1)%Z, true)
          else (rc_trx rc, s_trxNo st, if d_end d then false else s_active st) in
        (* 258-266 *)
        let ev1 := (if (match c_tps c with Some _ => true | None => false end && st_begin s)%bool then [EvTps] else [])
                   ++ (if match c_qps c with Some _ => true | None => false end then [EvQps] else []) in
        (* 268-275 *)
        let rc1 := RC (rc_statement rc + 1) trx1 (rc_iter rc) (rc_conn rc) (rc_client rc) (rc_cg rc) (rc_eg rc) (rc_stage rc) in
        let vals1 := fill_values vals 0 (v_inputs se) in
        match set_nth (s_values st) i vals1, s_conn st with
        | Some values1, Some k =>
          let st1 := CSt (s_conn st) (s_next st) (s_ps st) values1 rc1 trxNo1 active1 in
          (* 310-314 *)
          match (if st_resultset s then Some true
                 else match st_limit s with None => Some true | Some _ => v_more se end) with
          | None => (st1, ev1, NStop StopPanic)
          | Some false => (st1, ev1, NStop StopLimit)
          | Some true =>
            (* 277-305, 315-335: the result includes the error of scanning the rows *)
            let scan := if (st_resultset s && match d_outputs d with [] => false | _ => true end)%bool
                        then v_scan se else None in
            let res := match v_res se with Some e => Some e | None => scan end in
            let ev2 := ev1 ++ [EvExec i ps k rc1 vals1 res (v_ctx se)] in
            match stats_slot c trxNo1 with
            | None => (st1, ev2, NStop StopPanic)
            | Some slot =>
              let ev3 := ev2 ++ match slot with Some n => [EvRecord n (class_of s)] | None => [] end in
              match res with
              | Some e =>
                let '(st2, evs, nx) := handle_error c st1 i slot e se in (st2, ev3 ++ evs, nx)
              | None =>
                (* 293-304, 336-343 *)
                let ev4 := ev3 ++
                  (if st_resultset s then match d_outputs d with [] => [] | _ => [EvSaved i] end
                   else (match st_limit s with Some _ => [EvAffected i] | None => [] end)
                        ++ match d_insertId d with Some _ => [EvSaved i] | None => [] end) in
                (st1, ev4, NStmt)
              end
            end
          end
        | _, _ => (st, ev1, NStop StopPanic)
        end
    | _, _, _, _ => (st, [], NStop StopPanic)
    end.

  (** Where the client is: about to connect, before the checks of an iteration, before a statement,
      finished. *)
  Inductive cpc := PcStart | PcIter | PcStmt (i : nat) | PcDone.

  (** What the environment does next.  [IGo]: the iteration limits (lines 227-235, see
      IterModel.v) let the client go on; [IStop]: they do not. *)
  Inductive cinput := IConnect (ce : cenv) | IGo | IStop | IStmt (se : senv).

  (** client.go 176-196: the deferred function.  Closes the connection and reports. *)
  Definition reported (s : stop) : option err :=
    match s with
    | StopLimit => None
    | StopErr e => if er_cancel e then None else Some e
    | StopPanic => Some (Err 0 false false)
    end.
  Definition finish (st : cst) (s : stop) : list event :=
    match s_conn st with Some k => [EvClose k] | None => [] end ++ [EvDone s (reported s)].

  Definition stmt_pc (c : client) (i : nat) : cpc := if (i <? length (c_stmts c))%nat then PcStmt i else PcIter.

  Definition cstep (c : client) (st : cst) (pc : cpc) (inp : cinput) : option (cst * cpc * list event) :=
    match pc, inp with
    | PcStart, IConnect ce =>
      let '(st1, evs, r) := connect c st None ce in
      match r with
      | PDoneOk => Some (st1, PcIter, evs)
      | PDoneErr e => Some (st1, PcDone, evs ++ finish st1 (StopErr e))
      | PDonePanic => Some (st1, PcDone, evs ++ finish st1 StopPanic)
      end
    | PcIter, IStop => Some (st, PcDone, finish st StopLimit)
    | PcIter, IGo =>
      let rc := s_rc st in
      let st1 := CSt (s_conn st) (s_next st) (s_ps st) (s_values st)
        (RC (rc_statement rc) (rc_trx rc) (rc_iter rc + 1) (rc_conn rc) (rc_client rc) (rc_cg rc) (rc_eg rc) (rc_stage rc))
        (-1) false in
      Some (st1, stmt_pc c 0, [])
    | PcStmt i, IStmt se =>
      let '(st1, evs, nx) := exec_stmt c st i se in
      match nx with
      | NStmt => Some (st1, stmt_pc c (S i), evs)
      | NIter => Some (st1, PcIter, evs)
      | NStop s => Some (st1, PcDone, evs ++ finish st1 s)
      end
    | _, _ => None
    end.

  Fixpoint crun (c : client) (st : cst) (pc : cpc) (inps : list cinput) : option (cst * cpc * list event) :=
    match inps with
    | [] => Some (st, pc, [])
    | inp :: inps' =>
      match cstep c st pc inp with
      | None => None
      | Some (st1, pc1, evs) =>
        match crun c st1 pc1 inps' with
        | None => None
        | Some (st2, pc2, evs2) => Some (st2, pc2, evs ++ evs2)
        end
      end
    end.

  Definition client_run (c : client) (inps : list cinput) : option (cst * cpc * list event) :=
    crun c (client_init c) PcStart inps.
End Client.
Arguments event : clear implicits.
Arguments senv : clear implicits.
Arguments cinput : clear implicits.
Arguments cst : clear implicits.
