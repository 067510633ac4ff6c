(** Iteration limits: the head of the loop of Client.Run for clients running concurrently,
    client/client.go 225-238.  The counters are shared through pointers
    (workload/workload.go 137-208) and updated atomically; every other step is local. *)
From Verif Require Import Prelude ScopeModel StmtModel WorkloadModel.

(** Where a client is in its loop: before the check of the exec group's counter, of the client
    group's counter, of its own limit, executing statements, finished. *)
Inductive iphase := AtEg | AtClients | AtIter | Running | Finished.

(** One client: its (fixed) fields, its place, its iterations so far ([rc[ITER]]). *)
Record icl := ICl { ic_c : client; ic_ph : iphase; ic_n : N }.

(** The counters by identity, and the clients. *)
Record ist := ISt { is_cnt : nat -> N; is_cls : list icl }.

(** [var ...IterPtr uint32]: all counters start at 0.  Clients start after connecting. *)
Definition iter_init (cs : list client) : ist :=
  ISt (fun _ => 0%N) (map (fun c => ICl c AtEg 0) cs).

(** client.go 227-229 and 230-232: [lim > 0 && atomic.AddUint32(ptr, 1) > lim]: the counters
    afterwards and whether the client returns.  A nil pointer panics (recovered by the deferred
    function: the client finishes). *)
Definition shared_check (cnt : nat -> N) (lim : N) (ptr : option nat) : (nat -> N) * bool :=
  if (0 <? lim)%N then
    match ptr with
    | None => (cnt, true)
    | Some p => let v := u32 (cnt p + 1) in (natupd cnt p v, (lim <? v)%N)
    end
  else (cnt, false).

(** One step of client [i]: a check or, with [Running], either the end of the iteration or (with
    [stop]) the client's end by an error, a data limit or cancellation. *)
Definition iter_step (st : ist) (i : nat) (stop : bool) : option ist :=
  match nth_error (is_cls st) i with
  | None => None
  | Some k =>
    let put cnt ph n :=
      match set_nth (is_cls st) i (ICl (ic_c k) ph n) with Some l => Some (ISt cnt l) | None => None end in
    match ic_ph k with
    | AtEg =>
      let '(cnt, ret) := shared_check (is_cnt st) (c_iterEg (ic_c k)) (c_iterEgPtr (ic_c k)) in
      put cnt (if ret then Finished else AtClients) (ic_n k)
    | AtClients =>
      let '(cnt, ret) := shared_check (is_cnt st) (c_iterClients (ic_c k)) (c_iterClientsPtr (ic_c k)) in
      put cnt (if ret then Finished else AtIter) (ic_n k)
    | AtIter =>
      if ((0 <? c_iter (ic_c k)) && (ic_n k =? c_iter (ic_c k)))%N%bool
      then put (is_cnt st) Finished (ic_n k)
      else put (is_cnt st) Running (ic_n k + 1)%N
    | Running => put (is_cnt st) (if stop then Finished else AtEg) (ic_n k)
    | Finished => None
    end
  end.

(** Any interleaving. *)
Fixpoint iter_run (st : ist) (sched : list (nat * bool)) : option ist :=
  match sched with
  | [] => Some st
  | (i, stop) :: sched' =>
    match iter_step st i stop with Some st' => iter_run st' sched' | None => None end
  end.
