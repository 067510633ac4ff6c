(** Vocabulary for C130: what the report of a stage has to count. *)
From Verif Require Import Prelude ListAux WorkloadModel WorkloadSpec ClientModel ClientSpec StatsModel StatsSpec CollectorModel CollectorSpec TotalModel TotalSpec.
From Verif Require Import IterSpec LoopModel LoopSpec WholeModel WholeSpec.
From Verif Require TrxModel PipeModel.
Module T := TrxModel.
Module P := PipeModel.
#[local] Open Scope list_scope.

(** The statement of a trx file is a query of class [q]. *)
Definition counts (q : qclass) (p : T.pstmt) : bool :=
  ((T.p_idle p =? 0)%Z &&
   match q with
   | TOTAL => true
   | READ => T.p_resultset p
   | WRITE => negb (T.p_resultset p) && T.p_write p
   | COMMIT => negb (T.p_resultset p) && negb (T.p_write p) && T.p_commit p
   end)%bool.

(** [ss] is read from the file of trx [x]. *)
Definition file_stmts (Pe : P.penv) (c : C.stage) (x : C.trx) (ss : list T.pstmt) : Prop :=
  exists ls keys f, P.pe_read Pe (C.s_file c) (C.x_file x) = Some ls /\
    T.load_file (P.tenv_of Pe c) (C.x_name x) ls keys (C.x_data x) = Some (ss, f).

(** The client group has statistics. *)
Definition with_stats (c : C.stage) (grp : C.cgroup) : bool :=
  match C.st_disable (C.s_stats c) with Some true => false | _ => negb (C.g_nostats grp) end.
Definition group_trx (c : C.stage) (grp : C.cgroup) : list string :=
  match C.g_trx grp with [] => map C.x_name (C.s_trx c) | l => l end.

(** Queries of class [q] in the trx [sel] of a client group, if it has statistics. *)
Definition per_iteration (c : C.stage) (ss : string -> list T.pstmt) (sel : string -> bool) (q : qclass) (grp : C.cgroup) : N :=
  if with_stats c grp then sumN (map (fun t => if sel t then cntN (counts q) (ss t) else 0%N) (group_trx c grp)) else 0%N.
(** All queries of class [q] in the trx [sel] of the workload; [ns]: clients and iterations of each client group. *)
Definition expected (c : C.stage) (ns : list (N * N)) (ss : string -> list T.pstmt) (sel : string -> bool) (q : qclass) : N :=
  sumN (map (fun x => (fst (snd x) * snd (snd x) * per_iteration c ss sel q (fst x))%N) (List.combine (C.s_workload c) ns)).

Section Report.
  Context {V : Type}.
  (** The clients of a stage, the lengths of their trx and what they did. *)
  Definition players (set : T.tset) (c : C.stage) (out : list (list (list client))) (tr : list (wevent V)) : list (played V) :=
    mapi_from (fun j x => Played (snd x)
      (match nth_error (C.s_workload c) (list_sum (map (@length _) (firstn (fst (fst x)) out)) + snd (fst x)) with
       | Some grp => map (fun t => match C.sget t (T.t_stmts set) with Some ps => length ps | None => 0%nat end) (group_trx c grp)
       | None => [] end)
      (events_of j (numbered out tr))) 0 (labelled out).
  (** [acts]: what happens to the statistics of client [p]: its recordings, and one collection when it is done. *)
  Definition collected_once (p : played V) (acts : list (list (swact sev))) : Prop :=
    length acts = length (filter (fun s => match s with Some _ => true | None => false end) (c_stats (pl_c p))) /\
    forall k a, nth_error acts k = Some a -> exists es, Forall2 same_act (filter (at_slot k) (pl_evs p)) es /\
      a = flat_map (fun e => [ALoad e; AWrite]) es ++ [AReset; AStore; ARead].
End Report.
