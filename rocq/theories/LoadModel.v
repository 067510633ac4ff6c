(** The clients of a stage executing statements with data limits: client/client.go 225-357 joined with
    limit/data.go. *)
From Verif Require Import Prelude ScopeModel StmtModel WorkloadModel ClientModel LoopModel.
From Verif Require LimitModel LimitSpec PipeModel TrxModel.
Module L := LimitModel.

Section Load.
  Context {V : Type}.

  (** The clients (LoopModel.v); the data limits by identity, with where each client is in its use of them (LimitModel.v;
      [None]: the limit has a nil pointer); the limit whose count of affected rows the client has to update. *)
  Record dst := DSt { d_loop : lst V; d_lims : nat -> option L.lstate; d_busy : nat -> option nat }.

  Definition load_init (lims : nat -> option (list L.leaf)) (cs : list client) : dst :=
    DSt (loop_init cs) (fun l => option_map L.linit (lims l)) (fun _ => None).

  (** [DCheck i c]: client [i] checks the next single limit (limit/data.go 58, 108-116, 175-257), [c] being what the database
      answers.  [DLoop i inp w]: another step of client [i]; if it executes a statement, it affects [w] rows.
      [DCount i]: it counts them in the next single limit (53-56, 90-106). *)
  Inductive devent := DCheck (i : nat) (c : L.conn) | DLoop (i : nat) (inp : linput V) (w : Z) | DCount (i : nat).

  (** client.go 240-245, 284, 310-314: the limit to check before the next statement; statements with a result set are
      not limited. *)
  Definition limited (k : lcl V) : option nat :=
    match l_pc k with
    | PcStmt n => match nth_error (c_stmts (l_c k)) n with
                  | Some s => if ((st_idle s =? 0)%Z && negb (st_resultset s))%bool then st_limit s else None
                  | None => None end
    | _ => None
    end.

  (** client.go 310-314: [Limit.More].  Simplification: the other effects of the client's step before (counters, permits,
      values: 247-275) are made with the execution; they concern this client only. *)
  Definition load_check (st : dst) (i : nat) (c : L.conn) : option dst :=
    match nth_error (l_cls (d_loop st)) i, d_busy st i with
    | Some k, None =>
      match limited k with
      | Some l =>
        match d_lims st l with
        | Some s =>
          let s1 := match L.l_ph s i with L.LIdle => L.lstep s i L.LStart | _ => Some s end in
          match s1 with
          | Some s1 => match L.lstep s1 i (L.LMore c) with
                       | Some s2 => Some (DSt (d_loop st) (natupd (d_lims st) l (Some s2)) (d_busy st))
                       | None => None end
          | None => None
          end
        | None => None
        end
      | None => None
      end
    | _, _ => None
    end.

  (** Whether [Limit.Affected] is called (client.go 336-339; not after an error or a panic). *)
  Definition calls_affected (evs : list (event V)) : bool := existsb (fun e => match e with EvAffected _ => true | _ => false end) evs.
  (** The statement has been executed without error. *)
  Definition executed_ok (evs : list (event V)) : bool :=
    existsb (fun e => match e with EvExec _ _ _ _ _ None _ => true | _ => false end) evs.

  (** client.go 310-357: the statement is executed if the limit allows it, and the client returns if it does not; the
      answer given to the client ([v_more]) is that of the limit, a panic if there is a nil pointer. *)
  Definition load_loop (st : dst) (i : nat) (inp : linput V) (w : Z) : option (dst * list (event V)) :=
    match nth_error (l_cls (d_loop st)) i, d_busy st i with
    | Some k, None =>
      let go lims busy := match loop_step (d_loop st) i inp with
                          | Some (l', evs) => Some (DSt l' (lims evs) (busy evs), evs)
                          | None => None end in
      match inp, limited k with
      | LStmt se, Some l =>
        match d_lims st l, v_more se with
        | None, None => go (fun _ => d_lims st) (fun _ => d_busy st)
        | Some s, Some b =>
          match L.l_ph s i, b with
          | L.LGone, false => go (fun _ => d_lims st) (fun _ => d_busy st)
          | L.LCheck j, true =>
            match loop_step (d_loop st) i inp with
            | Some (l', evs) =>
              match L.lstep s i (L.LExec (if executed_ok evs then Some w else None)) with
              | Some s' => Some (DSt l' (natupd (d_lims st) l (Some s')) (if calls_affected evs then natupd (d_busy st) i (Some l) else d_busy st), evs)
              | None => None
              end
            | None => None
            end
          | _, _ => None
          end
        | _, _ => None
        end
      | _, _ => go (fun _ => d_lims st) (fun _ => d_busy st)
      end
    | _, _ => None
    end.

  (** client.go 336-339: [Limit.Affected]. *)
  Definition load_count (st : dst) (i : nat) : option dst :=
    match d_busy st i with
    | Some l =>
      match d_lims st l with
      | Some s =>
        match L.lstep s i L.LAffected with
        | Some s' => Some (DSt (d_loop st) (natupd (d_lims st) l (Some s'))
                             (match L.l_ph s' i with L.LIdle => natupd (d_busy st) i None | _ => d_busy st end))
        | None => None
        end
      | None => None
      end
    | None => None
    end.

  Definition load_step (st : dst) (e : devent) : option (dst * list (nat * event V * Z)) :=
    match e with
    | DCheck i c => match load_check st i c with Some st' => Some (st', []) | None => None end
    | DCount i => match load_count st i with Some st' => Some (st', []) | None => None end
    | DLoop i inp w => match load_loop st i inp w with
                       | Some (st', evs) => Some (st', map (fun ev => (i, ev, w)) evs)
                       | None => None end
    end.

  Fixpoint load_run (st : dst) (tr : list devent) : option (dst * list (nat * event V * Z)) :=
    match tr with
    | [] => Some (st, [])
    | e :: tr' =>
      match load_step st e with
      | None => None
      | Some (st1, evs) => match load_run st1 tr' with
                           | None => None
                           | Some (st2, evs') => Some (st2, evs ++ evs') end
      end
    end.
End Load.
Arguments dst : clear implicits.
Arguments devent : clear implicits.

(** trx/trx.go 271-299, as in LimitModel.v. *)
Definition mod_of (l : TrxModel.lim) : L.limit_mod :=
  match l with
  | TrxModel.LRows max off => L.ModRows max off
  | TrxModel.LSize max _ db tbl => if String.eqb db "" then L.ModTable tbl max else L.ModDatabase db max
  end.

(** trx/trx.go 271-299: the limits of the statements of a stage, each made when the trx file is loaded.  [lid]: the identity of
    the limit of the j-th statement of a trx. *)
Definition limits_of (P : PipeModel.penv) (set : TrxModel.tset) (lims : nat -> option (list L.leaf)) : Prop :=
  forall name ss j p, ConfigModel.sget name (TrxModel.t_stmts set) = Some ss -> nth_error ss j = Some p ->
    TrxModel.p_limits p <> [] ->
    lims (PipeModel.pe_lid P name j) = match L.stmt_limit (map mod_of (TrxModel.p_limits p)) with
                                       | Some d => LimitSpec.leaves_of_data d
                                       | None => None end.
