(** Vocabulary for C132: what the reports of a stage have to count, by what its clients did. *)
From Verif Require Import Prelude ListAux ScopeModel StmtModel WorkloadModel WorkloadSpec ClientModel ClientSpec StatsModel StatsSpec CollectorModel CollectorSpec TotalModel TotalSpec.
From Verif Require Import IterSpec LoopModel LoopSpec WholeModel WholeSpec TallySpec.
#[local] Open Scope list_scope.

Section Ledger.
  Context {V : Type}.
  (** The client group of client [x]. *)
  Definition group_of (c : C.stage) (out : list (list (list client))) (x : G.client) : option (C.cgroup * client) :=
    match nth_error (labelled out) (idx out x) with
    | Some (e, g, cl) =>
      match nth_error (C.s_workload c) (list_sum (map (@length _) (firstn e out)) + g) with Some grp => Some (grp, cl) | None => None end
    | None => None
    end.
  (** In the trace, a client of a group with statistics executes a statement [f] of a trx [sel]; the execution is [h]. *)
  Definition does (c : C.stage) (out : list (list (list client))) (sel : string -> bool) (f : stmt -> bool) (h : event V -> bool) (w : wevent V) : bool :=
    match w with
    | WC x (EvExec i _ _ _ _ _ _ as e) =>
      match group_of c out x with
      | Some (grp, cl) =>
        match nth_error (c_stmts cl) i with Some s => (with_stats c grp && sel (st_trx s) && f s && h e)%bool | None => false end
      | None => false
      end
    | _ => false
    end.
  (** Executions of class [q] in the trx [sel]; those that failed with [code] before the context was done. *)
  Definition sent (c : C.stage) (out : list (list (list client))) (tr : list (wevent V)) (sel : string -> bool) (q : qclass) : N :=
    cntN (does c out sel (in_class q) (fun _ => true)) tr.
  Definition errors (c : C.stage) (out : list (list (list client))) (tr : list (wevent V)) (sel : string -> bool) (code : N) : N :=
    cntN (does c out sel (fun _ => true) (fails_with code)) tr.
  (** Clients of the groups with statistics. *)
  Definition counted (c : C.stage) (out : list (list (list client))) : N :=
    cntN (fun x => match nth_error (C.s_workload c) (list_sum (map (@length _) (firstn (fst (fst x)) out)) + snd (fst x)) with
                   | Some grp => with_stats c grp | None => false end) (labelled out).
  (** [acts]: what happens to the statistics of client [p]: its recordings, interleaved with [n] collections. *)
  Definition collected (n : nat) (p : played V) (acts : list (list (swact sev))) : Prop :=
    length acts = length (filter (fun s => match s with Some _ => true | None => false end) (c_stats (pl_c p))) /\
    forall k a, nth_error acts k = Some a -> Forall2 same_act (filter (at_slot k) (pl_evs p)) (loads a) /\
      exists s, sw_run sw_init a = Some s /\ length (sw_reported s) = n.
End Ledger.
