(** Specification vocabulary for data scopes. *)
From Verif Require Import Prelude ScopeModel.

(** A place where a data key is used by a running configuration: the [p_slot]-th data key slot
    of statement [p_stmt] (counted over all trx of the client) of client [p_client] of client
    group [p_cg] of exec group [p_eg] of stage number [p_stage]; [p_trx] tells which of the
    client's trx the statement belongs to.  All positions count from 0 except the stage number. *)
Record place := Place {
  p_stage : N; p_eg : nat; p_cg : nat; p_client : nat; p_trx : nat; p_stmt : nat; p_slot : nat }.

(** When do two places lie in the same instance of a scope?  (docs: a statement, a trx, a
    client, ... ; iter is an iteration of one client; workload is the workload of one stage; row
    is per statement.) *)
Definition same_instance (s : scope) (a b : place) : Prop :=
  match s with
  | SValue => a = b
  | SRow | SStatement =>
      p_stage a = p_stage b /\ p_eg a = p_eg b /\ p_cg a = p_cg b /\ p_client a = p_client b /\
      p_trx a = p_trx b /\ p_stmt a = p_stmt b
  | STrx =>
      p_stage a = p_stage b /\ p_eg a = p_eg b /\ p_cg a = p_cg b /\ p_client a = p_client b /\
      p_trx a = p_trx b
  | SIter | SClient =>
      p_stage a = p_stage b /\ p_eg a = p_eg b /\ p_cg a = p_cg b /\ p_client a = p_client b
  | SClientGroup => p_stage a = p_stage b /\ p_eg a = p_eg b /\ p_cg a = p_cg b
  | SExecGroup => p_stage a = p_stage b /\ p_eg a = p_eg b
  | SWorkload | SStage => p_stage a = p_stage b
  | SGlobal => True
  end.

(* ------------------------------------------------------------------------------------ *)
(** * When the generator of a data key is called, and what each use returns *)

(** The counter that delimits one iteration of a single client scope (docs: statement executes,
    trx count increases, iter count increases, client connects). *)
Definition scope_counter (s : scope) (rc : runcount) : N :=
  match s with
  | STrx => rc_trx rc
  | SIter => rc_iter rc
  | SClient => rc_conn rc
  | _ => rc_statement rc
  end.

Definition single_client (s : scope) : Prop :=
  s = SStatement \/ s = STrx \/ s = SIter \/ s = SClient.

Section Calls.
  Context {V : Type} (counter : runcount -> N).

  (** A use calls the generator if it is explicit or no earlier use was in this scope iteration. *)
  Definition new_call (seen : list N) (u : bool * runcount) : bool :=
    fst u || negb (existsb (N.eqb (counter (snd u))) seen).

  (** The uses that call the generator. *)
  Fixpoint calling (seen : list N) (us : list (bool * runcount)) : list runcount :=
    match us with
    | [] => []
    | u :: us' =>
      let rest := calling (counter (snd u) :: seen) us' in
      if new_call seen u then snd u :: rest else rest
    end.

  (** What every use returns when the calls return [vs], in order: the newest value. *)
  Fixpoint returns (seen : list N) (newest : list V) (us : list (bool * runcount))
           (vs : list (list V)) : list (list V) :=
    match us with
    | [] => []
    | u :: us' =>
      let seen' := counter (snd u) :: seen in
      if new_call seen u then
        match vs with
        | v :: vs' => v :: returns seen' v us' vs'
        | [] => []
        end
      else newest :: returns seen' newest us' vs
    end.

  (** Counters do not decrease and start at 1. *)
  Definition counting (us : list (bool * runcount)) : Prop :=
    (forall u, In u us -> (1 <= counter (snd u))%N) /\
    (forall i j u u', (i < j)%nat -> nth_error us i = Some u -> nth_error us j = Some u' ->
       (counter (snd u) <= counter (snd u'))%N).
End Calls.

(** Calling a generator for a list of callers. *)
Fixpoint gen_run {G V} (gvalues : G -> runcount -> G * list V) (g : G) (cs : list runcount)
  : G * list (list V) :=
  match cs with
  | [] => (g, [])
  | c :: cs' =>
    let '(g1, v) := gvalues g c in
    let '(g2, vs) := gen_run gvalues g1 cs' in
    (g2, v :: vs)
  end.

(** A use of a data key, explicit or implicit, as the model's input. *)
Definition to_use (u : bool * runcount) : use := Use (fst u) (snd u).

(** ** Concurrent clients: what one client sees *)
Section PerClient.
  Context {V : Type}.
  (** the uses client [t] made, the values generated for it, and what its uses returned *)
  Definition uses_by (t : nat) (tr : list (mevent V)) : list (bool * runcount) :=
    flat_map (fun e => match e with EvUse t' ex c => if Nat.eqb t' t then [(ex, c)] else [] | _ => [] end) tr.
  Definition calls_by (t : nat) (tr : list (mevent V)) : list (runcount * list V) :=
    flat_map (fun e => match e with EvCall t' c v => if Nat.eqb t' t then [(c, v)] else [] | _ => [] end) tr.
  Definition rets_by (t : nat) (tr : list (mevent V)) : list (list V) :=
    flat_map (fun e => match e with EvRet t' v => if Nat.eqb t' t then [v] else [] | _ => [] end) tr.
  (** all generator calls in order *)
  Definition all_calls (tr : list (mevent V)) : list runcount :=
    flat_map (fun e => match e with EvCall _ c _ => [c] | _ => [] end) tr.
  Definition all_values (tr : list (mevent V)) : list (list V) :=
    flat_map (fun e => match e with EvCall _ _ v => [v] | _ => [] end) tr.
  (** Requirement on the callers: client [t] has client number [num t], and its iteration
      counter does not decrease. *)
  Definition trace_ok (num : nat -> N) (tr : list (mevent V)) : Prop :=
    (forall t ex c, In (ex, c) (uses_by t tr) -> rc_client c = num t) /\
    (forall t i j u u', (i < j)%nat -> nth_error (uses_by t tr) i = Some u ->
       nth_error (uses_by t tr) j = Some u' -> (rc_iter (snd u) <= rc_iter (snd u'))%N).
End PerClient.
