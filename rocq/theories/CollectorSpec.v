(** What the collector should do. *)
From Verif Require Import Prelude CollectorModel.
From Coq Require Import Permutation.

Section Swap.
  Context {E : Type}.
  (** The client is not between loading a buffer's pointer and writing to it when the collector
      reads that buffer. *)
  Definition no_overlap (s : swst E) (x : swact E) : Prop :=
    match x, sw_coll s, sw_client s with
    | ARead, CStored p, Some (p', _) => p' <> p
    | _, _, _ => True
    end.
  Fixpoint quiet (s : swst E) (l : list (swact E)) : Prop :=
    match l with
    | [] => True
    | x :: l' => no_overlap s x /\ match sw_step s x with Some s' => quiet s' l' | None => True end
    end.
  (** Recorded and not reported yet: in the buffer about to be read, and in the active one. *)
  Definition unread (s : swst E) : list E :=
    (match sw_coll s with CStored p => sw_buf s p | _ => [] end) ++ sw_buf s (sw_sp s).
End Swap.

Section Rounds.
  Context {D : Type}.
  (** Interval [k] delivered by [n] instances in some order: the local collection of [d], and the
      statistics of each remote instance once. *)
  Definition round_of (n : nat) (k : N) (round : list (cop D)) : Prop :=
    exists d ds, length ds = n - 1 /\ n <> 0 /\
      Permutation round (OCollect d :: map (fun hd => ORecv (fst hd) k (snd hd)) (List.combine (seq 1 (n - 1)) ds)).
  Fixpoint rounds_from (n : nat) (k : N) (rounds : list (list (cop D))) : Prop :=
    match rounds with [] => True | r :: rs => round_of n k r /\ rounds_from n (k + 1) rs end.
  (** The report of interval [k]: each instance's statistics, in the order delivered. *)
  Definition delivered (k : N) (round : list (cop D)) : report_t D :=
    map (fun o => match o with OCollect d => (0, k, d) | ORecv h i d => (h, i, d) end) round.
  Fixpoint all_delivered (k : N) (rounds : list (list (cop D))) : list (report_t D) :=
    match rounds with [] => [] | r :: rs => delivered k r :: all_delivered (k + 1) rs end.

  (** Remote instances' statistics arriving during the wait, between wake-ups. *)
  Definition arrivals (l : list (wev D)) : list (nat * N * D) :=
    flat_map (fun w => match w with WRecv h i d => [(h, i, d)] | _ => [] end) l.
  Definition no_timeout (l : list (wev D)) : Prop := ~ In WTimeout l.
End Rounds.

(** Numbering a list of intervals from [i]. *)
Fixpoint number {D} (i : N) (l : list D) : list (N * D) :=
  match l with [] => [] | d :: l' => (i, d) :: number (i + 1)%N l' end.
