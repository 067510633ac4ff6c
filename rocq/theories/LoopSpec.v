(** Specification vocabulary for clients running their loops. *)
From Verif Require Import Prelude ListAux ScopeModel StmtModel WorkloadModel WorkloadSpec ClientModel ClientSpec.
From Verif Require Import IterModel IterSpec LoopModel.

(** The queries of a client: the numbers of its statements which are not idle times, in order. *)
Definition queries (c : client) : list nat :=
  filter (fun i => match nth_error (c_stmts c) i with Some s => negb (is_idle s) | None => false end)
         (seq 0 (length (c_stmts c))).

(** No statement has a data limit. *)
Definition no_data_limit (c : client) : Prop := Forall (fun s => st_limit s = None) (c_stmts c).

Section Spec.
  Context {V : Type}.

  (** The last one failed. *)
  Definition ends_failed (it : list (event V)) : Prop := exists it' e, it = it' ++ [e] /\ failed_exec e = true.

  (** [it] are the executions of iteration number [n]: the first queries of the client, in order; only the
      last one may have failed. *)
  Definition iteration (c : client) (n : N) (it : list (event V)) (rest : list nat) : Prop :=
    queries c = map ex_stmt it ++ rest /\ Forall (fun e => rc_iter (ex_rc e) = n) it /\
    forall a e b, it = a ++ e :: b -> failed_exec e = true -> b = [].

  (** Events of client [i]. *)
  Definition events_of (i : nat) (tr : list (nat * event V)) : list (event V) :=
    map snd (filter (fun x => Nat.eqb (fst x) i) tr).

  (** How often query [q] was executed. *)
  Definition times (q : nat) (evs : list (event V)) : N := cntN (fun e => Nat.eqb (ex_stmt e) q) (execs evs).
End Spec.

(** Client [c] stopped otherwise than by an iteration limit. *)
Definition other_stop {V} (c : client) (evs : list (event V)) : Prop :=
  exists s r, In (EvDone s r) evs /\ (s <> StopLimit \/ ~ no_data_limit c).

(** The client reported that it reached a limit. *)
Definition reached_limit {V} (evs : list (event V)) : Prop := exists r, In (EvDone StopLimit r) evs.

(** No execution failed. *)
Definition no_failure {V} (evs : list (event V)) : Prop := Forall (fun e => failed_exec e = false) (execs evs).

(** How often a client executed its first query. *)
Definition starts {V} (c : client) (evs : list (event V)) : N :=
  match queries c with [] => 0%N | q :: _ => times q evs end.

(** Sum over the clients (numbered from [j]) of the client groups selected by [sel]. *)
Fixpoint total {V} (sel : nat -> nat -> bool) (f : client -> list (event V) -> N) (ls : list (nat * nat * client)) (j : nat)
    (tr : list (nat * event V)) : N :=
  match ls with
  | [] => 0%N
  | (e, g, c) :: ls' => ((if sel e g then f c (events_of j tr) else 0) + total sel f ls' (S j) tr)%N
  end.

(** The texts of the executed queries, in order. *)
Definition executed {V} (c : client) (evs : list (event V)) : list string :=
  map (fun e => match nth_error (c_stmts c) (ex_stmt e) with Some s => st_query s | None => EmptyString end) (execs evs).
