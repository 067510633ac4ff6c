(** Specification vocabulary for the statistics of a whole stage. *)
From Verif Require Import Prelude StmtModel WorkloadModel WorkloadSpec ClientModel ClientSpec StatsModel StatsSpec CollectorModel CollectorSpec.
#[local] Open Scope list_scope.

Definition sumN (l : list N) : N := fold_right N.add 0%N l.

(** The statement is in class [q]; every statement is in [TOTAL]. *)
Definition in_class (q : qclass) (s : stmt) : bool :=
  match q with
  | TOTAL => true
  | READ => st_resultset s
  | WRITE => (negb (st_resultset s) && st_write s)%bool
  | COMMIT => (negb (st_resultset s) && negb (st_write s) && st_commit s)%bool
  end.

Section Played.
  Context {V : Type}.

  (** A client, the lengths of its trx and what it did. *)
  Record played := Played { pl_c : client; pl_lens : list nat; pl_evs : list (event V) }.

  (** [e] executes a statement of class [q] of the client's trx [name]. *)
  Definition executes (p : played) (name : string -> bool) (q : qclass) (e : event V) : bool :=
    match nth_error (c_stmts (pl_c p)) (ex_stmt e), nth_error (c_stats (pl_c p)) (block_index (pl_lens p) (ex_stmt e)) with
    | Some s, Some (Some x) => (name x && in_class q s)%bool
    | _, _ => false
    end.
  (** [e] fails with error [code], when the run is not over. *)
  Definition fails_with (code : N) (e : event V) : bool :=
    match e with EvExec _ _ _ _ _ (Some er) false => N.eqb (er_code er) code | _ => false end.

  (** The number of executions by clients [ps] in the trx called [name]: of class [q]; that failed with [code]. *)
  Definition executed (ps : list played) (name : string -> bool) (q : qclass) : N :=
    sumN (map (fun p => cntN (executes p name q) (execs (pl_evs p))) ps).
  Definition failed (ps : list played) (name : string -> bool) (code : N) : N :=
    sumN (map (fun p => cntN (fun e => (executes p name TOTAL e && fails_with code e)%bool) (execs (pl_evs p))) ps).

  (** What the client does to its statistics number [k]. *)
  Definition at_slot (k : nat) (e : event V) : bool :=
    match e with EvRecord j _ | EvError j _ => Nat.eqb j k | _ => false end.
  Definition same_act (e : event V) (x : sev) : Prop :=
    match e, x with
    | EvRecord _ q, SRec q' d => q = q' /\ (0 <= d)%Z
    | EvError _ k, SErr k' => k = k'
    | _, _ => False
    end.
  Definition loads (a : list (swact sev)) : list sev := flat_map (fun x => match x with ALoad e => [e] | _ => [] end) a.

  (** The client ran; what happens to its statistics [acts] are its recordings, interleaved with [n] collections. *)
  Definition ran (n : nat) (p : played) (acts : list (list (swact sev))) : Prop :=
    trx_start_with_query (pl_c p) (pl_lens p) /\ c_stmts (pl_c p) <> [] /\
    (exists inps st pc, client_run (pl_c p) inps = Some (st, pc, pl_evs p)) /\
    List.length acts = List.length (filter (fun s => match s with Some _ => true | None => false end) (c_stats (pl_c p))) /\
    forall k a, nth_error acts k = Some a ->
      Forall2 same_act (filter (at_slot k) (pl_evs p)) (loads a) /\
      exists s, sw_run sw_init a = Some s /\ List.length (sw_reported s) = n.

  (** Of an allocated client group: its clients have its trx, and statistics unless disabled. *)
  Definition of_group (p : played) : Prop := has_trx (pl_c p) (pl_lens p) /\ (stats_on (pl_c p) \/ stats_off (pl_c p)).

  (** The client is done before the one collection. *)
  Definition done_before (acts : list (list (swact sev))) : Prop :=
    Forall (fun a => exists es, a = flat_map (fun e => [ALoad e; AWrite]) es ++ [AReset; AStore; ARead]) acts.

  (** The last collection is made after the client is done. *)
  Definition collected_last (a : list (swact sev)) : Prop := exists b s, a = b ++ [AReset; AStore; ARead] /\ sw_run sw_init b = Some s /\
    sw_client s = None /\ sw_coll s = CIdle.
End Played.
Arguments played : clear implicits.

(** Of a report: the number of executions of class [q], of errors [code], in total or for a trx. *)
Definition total_n (r : stats * list (string * stats)) (q : qclass) : N := ce_n (cell_of (fst r) q).
Definition trx_n (name : string) (r : stats * list (string * stats)) (q : qclass) : N :=
  match trx_get (snd r) name with Some t => ce_n (cell_of t q) | None => 0%N end.
Definition total_err (r : stats * list (string * stats)) (code : N) : N := err_get (s_errs (fst r)) code.
Definition trx_err (name : string) (r : stats * list (string * stats)) (code : N) : N :=
  match trx_get (snd r) name with Some t => err_get (s_errs t) code | None => 0%N end.
