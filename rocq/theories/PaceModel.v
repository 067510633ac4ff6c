(** The clients of a stage running concurrently with the rate limiters: client/client.go 225-357 joined with
    limit/rate.go. *)
From Verif Require Import Prelude ScopeModel StmtModel WorkloadModel ClientModel IterModel RateModel RateSpec LoopModel.

Section Pace.
  Context {V : Type}.

  (** The clients (LoopModel.v), the limiters (RateModel.v), and for each client which permits it has received for the
      statement it is about to execute: it is between lines 258 and 268 of client.go. *)
  Record pst := PSt { p_loop : lst V; p_q : qstate; p_tps : nat -> bool; p_qps : nat -> bool }.

  Definition pace_init (cs : list client) : pst := PSt (loop_init cs) qinit (fun _ => false) (fun _ => false).

  (** [PLim e]: a goroutine of the limiters makes step [e].  [PPermit q i]: client [i] receives from its QPS ([q] is true) or
      TPS limiter.  [PLoop i inp]: any other step of client [i]. *)
  Inductive pevent := PLim (e : qevent) | PPermit (q : bool) (i : nat) | PLoop (i : nat) (inp : linput V).

  (** client.go 240-245: the statement the client is about to execute, unless it is an idle time. *)
  Definition at_query (k : lcl V) : option stmt :=
    match l_pc k with
    | PcStmt n => match nth_error (c_stmts (l_c k)) n with
                  | Some s => if (st_idle s =? 0)%Z then Some s else None
                  | None => None end
    | _ => None
    end.

  (** client.go 258-266: the limiter to wait for, if any. *)
  Definition waits (q : bool) (c : client) (s : stmt) : option rate :=
    if q then c_qps c else if st_begin s then c_tps c else None.

  Definition got (st : pst) (q : bool) (i : nat) : bool := if q then p_qps st i else p_tps st i.
  Definition granted (st : pst) (q : bool) (i : nat) (k : lcl V) (s : stmt) : bool :=
    match waits q (l_c k) s with None => true | Some _ => got st q i end.

  (** client.go 258-266: TPS first, then QPS; both are plain receives, which block while the channel is empty. *)
  Definition pace_permit (nw : net) (st : pst) (q : bool) (i : nat) : option pst :=
    match nth_error (l_cls (p_loop st)) i with
    | None => None
    | Some k =>
      match at_query k with
      | None => None
      | Some s =>
        match waits q (l_c k) s with
        | None => None
        | Some r =>
          if (got st q i || (q && negb (granted st false i k s)))%bool then None
          else match qstep nw (p_q st) (QRecv (rid r) i) with
               | None => None
               | Some s' => Some (if q then PSt (p_loop st) s' (p_tps st) (natupd (p_qps st) i true)
                                  else PSt (p_loop st) s' (natupd (p_tps st) i true) (p_qps st))
               end
        end
      end
    end.

  (** A statement is executed (268-357) only after both waits; the other steps do not wait. *)
  Definition pace_loop (st : pst) (i : nat) (inp : linput V) : option (pst * list (event V)) :=
    match nth_error (l_cls (p_loop st)) i with
    | None => None
    | Some k =>
      let ready := match inp, at_query k with
                   | LStmt _, Some s => (granted st false i k s && granted st true i k s)%bool
                   | _, _ => true end in
      if ready then
        match loop_step (p_loop st) i inp with
        | None => None
        | Some (l', evs) => Some (PSt l' (p_q st) (natupd (p_tps st) i false) (natupd (p_qps st) i false), evs)
        end
      else None
    end.

  Definition pace_step (nw : net) (st : pst) (e : pevent) : option (pst * list (nat * event V)) :=
    match e with
    | PLim (QRecv _ _) => None
    | PLim e => match qstep nw (p_q st) e with
                | None => None
                | Some s' => Some (PSt (p_loop st) s' (p_tps st) (p_qps st), [])
                end
    | PPermit q i => match pace_permit nw st q i with None => None | Some st' => Some (st', []) end
    | PLoop i inp => match pace_loop st i inp with
                     | None => None
                     | Some (st', evs) => Some (st', map (fun ev => (i, ev)) evs) end
    end.

  Fixpoint pace_run (nw : net) (st : pst) (tr : list pevent) : option (pst * list (nat * event V)) :=
    match tr with
    | [] => Some (st, [])
    | e :: tr' =>
      match pace_step nw st e with
      | None => None
      | Some (st1, evs) => match pace_run nw st1 tr' with
                           | None => None
                           | Some (st2, evs') => Some (st2, evs ++ evs') end
      end
    end.
End Pace.
Arguments pst : clear implicits.
Arguments pevent : clear implicits.
