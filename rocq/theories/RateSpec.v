(** Specification vocabulary for rate limiters at run time. *)
From Verif Require Import Prelude ScopeModel StmtModel WorkloadModel WorkloadSpec RateModel.

(** permits produced by leaf [x] *)
Definition is_tick (x : nat) (e : qevent) : bool := match e with QTick x' => x =? x' | _ => false end.
(** permits client code receives from [y] *)
Definition is_recv (y : nat) (e : qevent) : bool := match e with QRecv y' _ => y =? y' | _ => false end.
(** permits [y] releases to anybody, clients and And nodes *)
Definition is_release (nw : net) (y : nat) (e : qevent) : bool :=
  match e with
  | QTick _ => false
  | QRecv y' _ => y =? y'
  | QTakeA z => match nw z with Some (KAnd a _) => y =? a | _ => false end
  | QTakeB z => match nw z with Some (KAnd _ b) => y =? b | _ => false end
  end.
Definition count (f : qevent -> bool) (tr : list qevent) : nat := length (filter f tr).

(** [nw] contains the limiter [r] *)
Definition rid (r : rate) : nat := match r with RLeaf id _ => id | RAnd id _ _ => id end.
Fixpoint present (nw : net) (r : rate) : Prop :=
  match r with
  | RLeaf id _ => nw id = Some KLeaf
  | RAnd id a b => nw id = Some (KAnd (rid a) (rid b)) /\ present nw a /\ present nw b
  end.
(** [r] is [x], or contains it below [d] And nodes *)
Fixpoint contains (r : rate) (x : rate) (d : nat) : Prop :=
  r = x /\ d = 0 \/
  match r, d with RAnd _ a b, S d' => contains a x d' \/ contains b x d' | _, _ => False end.

(** Timed runs: the time of each event in ns, not decreasing; [gap] ns at least between two ticks
    of [x] (a limiter of rate r has gap 10^9/r: x/time/rate with burst 1). *)
Fixpoint sorted_from (t : Z) (tr : list (Z * qevent)) : Prop :=
  match tr with [] => True | (t', _) :: tr' => (t <= t')%Z /\ sorted_from t' tr' end.
Fixpoint spaced (x : nat) (gap : Z) (last : option Z) (tr : list (Z * qevent)) : Prop :=
  match tr with
  | [] => True
  | (t, e) :: tr' =>
    if is_tick x e then
      match last with None => True | Some l => (l + gap <= t)%Z end /\ spaced x gap (Some t) tr'
    else spaced x gap last tr'
  end.
