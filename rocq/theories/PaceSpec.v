(** Specification vocabulary for clients running with rate limiters. *)
From Verif Require Import Prelude ListAux ScopeModel StmtModel WorkloadModel WorkloadSpec ClientModel ClientSpec.
From Verif Require Import IterSpec RateModel RateSpec LoopModel PaceModel.

(** [nw] contains the limiters of these clients. *)
Definition limiters_in (nw : net) (cs : list client) : Prop :=
  forall q c r, In c cs -> limiter q c = Some r -> present nw r.

(** The steps of the limiters, with their times. *)
Definition limiter_steps {V} (tr : list (Z * pevent V)) : list (Z * qevent) :=
  concat (map (fun x => match snd x with PLim e => [(fst x, e)] | _ => [] end) tr).

(** The times do not decrease and are between [t0] and [t1]. *)
Fixpoint within {V} (t0 t1 : Z) (tr : list (Z * pevent V)) : Prop :=
  match tr with [] => (t0 <= t1)%Z | (t, _) :: tr' => (t0 <= t)%Z /\ within t t1 tr' end.

(** Every limiter of rate n ticks at intervals of at least 10^9/n ns (x/time/rate with burst 1). *)
Definition rates_kept {V} (cs : list client) (tr : list (Z * pevent V)) : Prop :=
  forall q c x n, In c cs -> In (x, n) (leaves_of (limiter q c)) ->
    spaced x (10 ^ 9 / Z.of_N n) None (limiter_steps tr).

(** An execution that counts: for qps ([q] is true) every one, for tps those of BEGIN statements. *)
Definition counts {V} (q : bool) (c : client) (e : event V) : bool :=
  (is_exec e && (q || match nth_error (c_stmts c) (ex_stmt e) with Some s => st_begin s | None => false end))%bool.

(** The number of executions that count, of the clients [sel]. *)
Definition executions {V} (q : bool) (ls : list (nat * nat * client)) (sel : nat -> nat -> nat -> bool)
    (tr : list (nat * event V)) : Z :=
  Z.of_nat (length (filter (fun x => match nth_error ls (fst x) with
                                     | Some (e, g, c) => (sel e g (fst x) && counts q c (snd x))%bool
                                     | None => false end) tr)).

(** At most [n] per second from time [t0] on, and one more. *)
Definition at_most (n : N) (t0 t1 : Z) : Z := ((t1 - t0) / (10 ^ 9 / Z.of_N n) + 1)%Z.
