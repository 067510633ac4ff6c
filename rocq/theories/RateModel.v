(** Rate limiters at run time: limit/rate.go, the goroutines behind the channels. *)
From Verif Require Import Prelude ScopeModel StmtModel WorkloadModel.

(** The limiter objects that exist, by the identity of their channel: made by [NewRate]
    (limit/rate.go 30-42) or by [And] (90-107) of two others.  Limiters are never stopped
    (lines 52-53). *)
Inductive nkind := KLeaf | KAnd (a b : nat).
Definition net := nat -> option nkind.

(** [q_buf]: the channel (capacity 1) holds a permit.  [q_a], [q_b]: the variables a and b of
    [and.run] (lines 134-155). *)
Record qstate := QState { q_buf : nat -> bool; q_a : nat -> bool; q_b : nat -> bool }.
Definition qinit : qstate := QState (fun _ => false) (fun _ => false) (fun _ => false).

(** One step of some goroutine.  [QTick x]: [Wait] of the x/time/rate limiter of leaf [x] returns
    (lines 62-72).  [QTakeA y], [QTakeB y]: And node [y] receives from its first, second limiter
    (141-146).  [QRecv y c]: client [c] receives from [y] (client/client.go 258-266). *)
Inductive qevent := QTick (x : nat) | QTakeA (y : nat) | QTakeB (y : nat) | QRecv (y : nat) (c : nat).

(** Non-blocking send on [y]'s channel (lines 66-72 and 147-152): dropped if it is full. *)
Definition q_send (s : qstate) (y : nat) : qstate := QState (natupd (q_buf s) y true) (q_a s) (q_b s).
(** Receive from [y]'s channel; blocks ([None]) if empty. *)
Definition q_take (s : qstate) (y : nat) : option qstate :=
  if q_buf s y then Some (QState (natupd (q_buf s) y false) (q_a s) (q_b s)) else None.
(** Lines 146-155: if both have allowed it, allow and start over. *)
Definition q_both (s : qstate) (y : nat) : qstate :=
  if q_a s y && q_b s y then
    let s1 := q_send s y in QState (q_buf s1) (natupd (q_a s1) y false) (natupd (q_b s1) y false)
  else s.

Definition qstep (nw : net) (s : qstate) (e : qevent) : option qstate :=
  match e with
  | QTick x => match nw x with Some KLeaf => Some (q_send s x) | _ => None end
  | QTakeA y =>
    match nw y with
    | Some (KAnd a _) =>
      match q_take s a with
      | None => None
      | Some s1 => Some (q_both (QState (q_buf s1) (natupd (q_a s1) y true) (q_b s1)) y)
      end
    | _ => None
    end
  | QTakeB y =>
    match nw y with
    | Some (KAnd _ b) =>
      match q_take s b with
      | None => None
      | Some s1 => Some (q_both (QState (q_buf s1) (q_a s1) (natupd (q_b s1) y true)) y)
      end
    | _ => None
    end
  | QRecv y _ => q_take s y
  end.

Fixpoint qrun (nw : net) (s : qstate) (tr : list qevent) : option qstate :=
  match tr with
  | [] => Some s
  | e :: tr' => match qstep nw s e with Some s' => qrun nw s' tr' | None => None end
  end.
