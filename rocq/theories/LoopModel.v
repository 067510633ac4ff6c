(** The clients of a stage running concurrently: the loop of Client.Run, client/client.go 225-238,
    joined from the head of the loop (IterModel.v) and the execution of statements
    (ClientModel.v). *)
From Verif Require Import Prelude ScopeModel StmtModel WorkloadModel ClientModel IterModel.

Section Loop.
  Context {V : Type}.

  (** One client: its (fixed) fields, its variables, where it is, and, at the head of the loop, how
      many of the three checks it has passed. *)
  Record lcl := LCl { l_c : client; l_st : cst V; l_pc : cpc; l_chk : nat }.

  (** The shared iteration counters by identity, and the clients. *)
  Record lst := LSt { l_cnt : nat -> N; l_cls : list lcl }.

  (** stage/stage.go 148-174 and client.go 173-220: all clients are started; all counters are 0. *)
  Definition loop_init (cs : list client) : lst :=
    LSt (fun _ => 0%N) (map (fun c => LCl c (client_init c) PcStart 0) cs).

  (** What a client does next: call [Connect] (198), one check (227-238), one statement (240-357). *)
  Inductive linput := LConnect (ce : cenv) | LCheck | LStmt (se : senv V).

  (** client.go 227-238: one check of client [k]: the counters afterwards, and whether the client
      returns ([Some false]), goes on to the next check ([None]) or starts an iteration
      ([Some true]).  Simplification: with a nil pointer the check would panic; here the client
      returns (no client of an allocated workload has one: C26). *)
  Definition loop_check (cnt : nat -> N) (k : lcl) : (nat -> N) * option bool :=
    match l_chk k with
    | O => let '(cnt', ret) := shared_check cnt (c_iterEg (l_c k)) (c_iterEgPtr (l_c k)) in
           (cnt', if ret then Some false else None)
    | S O => let '(cnt', ret) := shared_check cnt (c_iterClients (l_c k)) (c_iterClientsPtr (l_c k)) in
             (cnt', if ret then Some false else None)
    | _ => (cnt, Some (negb ((0 <? c_iter (l_c k)) && (rc_iter (s_rc (l_st k)) =? c_iter (l_c k)))%N%bool))
    end.

  (** One step of client [i]: the state afterwards and what can be observed. *)
  Definition loop_step (st : lst) (i : nat) (inp : linput) : option (lst * list (event V)) :=
    match nth_error (l_cls st) i with
    | None => None
    | Some k =>
      let put cnt k' evs := match set_nth (l_cls st) i k' with Some l => Some (LSt cnt l, evs) | None => None end in
      let go cnt ci :=
        match cstep (l_c k) (l_st k) (l_pc k) ci with
        | None => None
        | Some (s, pc, evs) => put cnt (LCl (l_c k) s pc 0) evs
        end in
      match inp with
      | LConnect ce => go (l_cnt st) (IConnect ce)
      | LStmt se => go (l_cnt st) (IStmt se)
      | LCheck =>
        match l_pc k with
        | PcIter =>
          match loop_check (l_cnt st) k with
          | (cnt, None) => put cnt (LCl (l_c k) (l_st k) PcIter (S (l_chk k))) []
          | (cnt, Some true) => go cnt IGo
          | (cnt, Some false) => go cnt IStop
          end
        | _ => None
        end
      end
    end.

  (** Any interleaving: the state afterwards and the events, each with its client. *)
  Fixpoint loop_run (st : lst) (sched : list (nat * linput)) : option (lst * list (nat * event V)) :=
    match sched with
    | [] => Some (st, [])
    | (i, inp) :: sched' =>
      match loop_step st i inp with
      | None => None
      | Some (st1, evs) =>
        match loop_run st1 sched' with
        | None => None
        | Some (st2, tr) => Some (st2, map (fun e => (i, e)) evs ++ tr)
        end
      end
    end.
End Loop.
Arguments lcl : clear implicits.
Arguments lst : clear implicits.
Arguments linput : clear implicits.
