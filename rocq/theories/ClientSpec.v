(** Specification vocabulary for the execution of a client. *)
From Verif Require Import Prelude ListAux ScopeModel StmtModel WorkloadModel WorkloadSpec ClientModel.

(** A client executing trx with [lens] statements each, in order: its statements are marked so
    (C26), and it has a statistics slot for each trx. *)
Definition marks (lens : list nat) : list (bool * bool) :=
  concat (map (fun L => map (fun j => (Nat.eqb j 0, Nat.eqb (S j) L)) (seq 0 L)) lens).
Definition has_trx (c : client) (lens : list nat) : Prop :=
  Forall (fun L => 0 < L)%nat lens /\
  length (c_stmts c) = list_sum lens /\
  map (fun d => (d_begin d, d_end d)) (c_data c) = marks lens /\
  length (c_stats c) = length lens.

(** Position [i] is the first (last) statement of its trx. *)
Definition first_of_trx (lens : list nat) (i : nat) : bool :=
  match i with O => true | S j => negb (Nat.eqb (block_index lens j) (block_index lens i)) end.
Definition last_of_trx (lens : list nat) (i : nat) : bool :=
  negb (Nat.eqb (block_index lens (S i)) (block_index lens i)).

Definition is_idle (s : stmt) : bool := negb (st_idle s =? 0)%Z.

(** The first statement of each trx is not an idle time. *)
Definition trx_start_with_query (c : client) (lens : list nat) : Prop :=
  forall i s, nth_error (c_stmts c) i = Some s -> first_of_trx lens i = true -> is_idle s = false.

Definition stats_on (c : client) : Prop := Forall (fun s => s <> None) (c_stats c).
Definition stats_off (c : client) : Prop := Forall (fun s => s = None) (c_stats c).

(** Documented classes: SELECT is a read; INSERT, UPDATE, DELETE, REPLACE a write; COMMIT; anything
    else counts in the total only. *)
Definition class_is (s : stmt) (q : qclass) : Prop :=
  match q with
  | READ => st_resultset s = true
  | WRITE => st_resultset s = false /\ st_write s = true
  | COMMIT => st_resultset s = false /\ st_write s = false /\ st_commit s = true
  | TOTAL => st_resultset s = false /\ st_write s = false /\ st_commit s = false
  end.

Section Events.
  Context {V : Type}.
  Notation event := (event V).

  Definition is_exec (e : event) : bool := match e with EvExec _ _ _ _ _ _ _ => true | _ => false end.
  Definition execs (evs : list event) : list event := filter is_exec evs.
  Definition is_stat (e : event) : bool :=
    match e with EvExec _ _ _ _ _ _ _ | EvRecord _ _ | EvError _ _ => true | _ => false end.
  Definition is_permit (e : event) : bool := match e with EvTps | EvQps => true | _ => false end.
  Definition is_done (e : event) : bool := match e with EvDone _ _ => true | _ => false end.
  Definition is_connect (e : event) : bool := match e with EvConnect _ => true | _ => false end.
  Definition conn_event (e : event) : bool :=
    match e with EvConnect _ | EvClose _ | EvUse _ | EvPrepare _ _ => true | _ => false end.

  (** The number and result of the executed statement. *)
  Definition ex_stmt (e : event) : nat := match e with EvExec i _ _ _ _ _ _ => i | _ => 0 end.
  Definition ex_rc (e : event) : runcount := match e with EvExec _ _ _ rc _ _ _ => rc | _ => RC 0 0 0 0 0 0 0 0 end.
  Definition starts_trx (lens : list nat) (e : event) : bool := (is_exec e && first_of_trx lens (ex_stmt e))%bool.

  (** What each execution must leave in the statistics: itself recorded once under its class in
      its trx, and its error counted unless the run was cancelled. *)
  Definition in_stats (c : client) (lens : list nat) (e : event) (out : list event) : Prop :=
    match e with
    | EvExec i _ _ _ _ res ctx =>
      exists s q, nth_error (c_stmts c) i = Some s /\ class_is s q /\
        out = e :: EvRecord (block_index lens i) q ::
              match res with
              | Some er => if ctx then [] else [EvError (block_index lens i) (er_code er)]
              | None => []
              end
    | _ => False
    end.

  (** [parts] are such blocks, one for each execution. *)
  Definition stats_of (c : client) (lens : list nat) (exs : list event) (out : list event) : Prop :=
    exists parts, Forall2 (in_stats c lens) exs parts /\ out = concat parts.

  (** Permits to be taken before the execution of statement [i]. *)
  Definition permits_for (c : client) (i : nat) : list event :=
    (match c_tps c, nth_error (c_stmts c) i with
     | Some _, Some s => if st_begin s then [EvTps] else []
     | _, _ => [] end) ++
    (match c_qps c with Some _ => [EvQps] | None => [] end).

  (** Value of each placeholder: a data key's first value, and the following ones for each @PREV
      after it. *)
  Fixpoint placed (ins : list string) (vs : list (list V)) (cur : list V) : list (option V) :=
    match ins with
    | [] => []
    | k :: ins' =>
      if String.eqb k PREV then
        match cur with
        | x :: cur' => Some x :: placed ins' vs cur'
        | [] => None :: placed ins' vs []
        end
      else
        match vs with
        | (x :: cur') :: vs' => Some x :: placed ins' vs' cur'
        | [] :: vs' => None :: placed ins' vs' []
        | [] => None :: placed ins' [] []
        end
    end.

  (** Number of placeholders of each data key: itself and the @PREV after it.  [n] are the @PREV
      before the first key. *)
  Fixpoint arities (ins : list string) : nat * list nat :=
    match ins with
    | [] => (0, [])
    | k :: ins' =>
      let '(n, l) := arities ins' in
      if String.eqb k PREV then (S n, l) else (0, S n :: l)
    end%nat.
End Events.

(** Number of events. *)
Definition cntN {A} (f : A -> bool) (l : list A) : N := N.of_nat (length (filter f l)).
Definition failed_exec {V} (e : event V) : bool :=
  match e with EvExec _ _ _ _ _ (Some _) _ => true | _ => false end.

(** Prepared statement copies stay within the client's statements (trx files are loaded with the
    copies directly after their statement). *)
Definition multi_fits (c : client) : Prop :=
  forall i s, nth_error (c_stmts c) i = Some s -> (i + st_prepareMulti s <= length (c_stmts c))%nat.

(** Errors of the environment: [errors.Is] recognizes the end of the context in errors caused by
    it; a query fails for that cause only if the context is done. *)
Definition real_err (e : err) : Prop := er_cancel e = er_root e.
Definition real_cenv (ce : cenv) : Prop :=
  (forall e, ce_use ce = Some e -> real_err e) /\
  (forall e, ce_rollback ce = Some e -> real_err e) /\
  (forall i e, ce_prep ce i = Some e -> real_err e).
Definition real_input {V} (inp : cinput V) : Prop :=
  match inp with
  | IConnect ce => real_cenv ce
  | IStmt se => real_cenv (v_conn se) /\
      (forall e, v_res se = Some e \/ v_scan se = Some e -> real_err e /\ (er_root e = true -> ce_ctx0 (v_conn se) = true))
  | _ => True
  end.

(** The run does not end while a statement is being prepared or rolled back. *)
Definition quiet_setup (ce : cenv) : Prop :=
  (forall e, ce_rollback ce = Some e -> er_root e = false) /\
  (forall i e, ce_prep ce i = Some e -> er_root e = false).
Definition quiet_input {V} (inp : cinput V) : Prop :=
  match inp with
  | IConnect ce => quiet_setup ce
  | IStmt se => quiet_setup (v_conn se)
  | _ => True
  end.

(** A limit, or the end of the run's context. *)
Definition regular_stop (s : stop) : Prop :=
  match s with StopLimit => True | StopErr e => er_root e = true | StopPanic => False end.

(** A connection attempt that succeeds. *)
Definition connects (ce : cenv) : Prop :=
  ce_ctx0 ce = false /\ ce_conn ce = true /\ ce_ctx1 ce = false /\ ce_use ce = None /\
  (forall i, ce_prep ce i = None).

(** What follows a successful execution of statement [i]. *)
Definition after_success {V} (c : client) (i : nat) : list (event V) :=
  match nth_error (c_stmts c) i, nth_error (c_data c) i with
  | Some s, Some d =>
    if st_resultset s then match d_outputs d with [] => [] | _ => [EvSaved i] end
    else (match st_limit s with Some _ => [EvAffected i] | None => [] end) ++
         (match d_insertId d with Some _ => [EvSaved i] | None => [] end)
  | _, _ => []
  end.
Definition is_save {V} (e : event V) : bool :=
  match e with EvSaved _ | EvAffected _ => true | _ => false end.
