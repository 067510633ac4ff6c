(** The statistics of a whole stage: which statistics the collector watches (stats/collector.go 98-128,
    stage/stage.go 99-113), what is done to them (stats/stats.go 190-231), and what each collection merges
    (collector.go 292-332). *)
From Verif Require Import Prelude ClientModel StatsModel StatsSpec CollectorModel.
#[local] Open Scope list_scope.

(* ------------------------------------------------------------------------------------ *)
(** * [Collector.Watch] *)

(** [wt_clients] is [c.local.Clients], [wt_trx] the names of [c.trx], [wt_local] is [c.local.Trx]. *)
Record watching := Watching { wt_clients : N; wt_trx : list (list string); wt_local : list (string * stats) }.

(** collector.go 75-96: a new collector. *)
Definition watch_new : watching := Watching 0 [] [].

(** collector.go 118-127: the loop over the client's statistics from index [i]; [n] is the length of the new
    arrays.  [None]: index out of range. *)
Fixpoint watch_loop (n i : nat) (slots : list (option string)) (names : list string) (local : list (string * stats))
  : option (list string * list (string * stats)) :=
  match slots with
  | [] => Some (names, local)
  | None :: slots' => watch_loop n (S i) slots' names local
  | Some x :: slots' =>
    if (i <? n)%nat then
      watch_loop n (S i) slots' (names ++ [x])
        (match trx_get local x with Some _ => local | None => local ++ [(x, stats_new)] end)
    else None
  end.

(** collector.go 100-128; [slots]: the client's [Stats], by the names of the trx. *)
Definition watch (w : watching) (slots : list (option string)) : option watching :=
  let n := List.length (filter (fun s => match s with Some _ => true | None => false end) slots) in
  if Nat.eqb n 0 then Some w
  else
    match watch_loop n 0 slots [] (wt_local w) with
    | None => None
    | Some (names, local) => Some (Watching (wt_clients w + 1) (wt_trx w ++ [names]) local)
    end.

(** stage.go 101-113: every client. *)
Fixpoint watch_all (w : watching) (l : list (list (option string))) : option watching :=
  match l with
  | [] => Some w
  | s :: l' => match watch w s with Some w' => watch_all w' l' | None => None end
  end.

(* ------------------------------------------------------------------------------------ *)
(** * The statistics of one trx of one client *)

Section Objects.
  Variable flog : Z -> bool * N.

  (** stats.go 210-216: [Trx.Record] and [Trx.Error], on the loaded statistics. *)
  Definition put (s : stats) (e : sev) : option stats :=
    match e with SRec q d => record flog s q d | SErr k => Some (error s k) end.

  (** As [CollectorModel.swst], with the statistics themselves in place of lists of events. *)
  Record obst := ObSt {
    o_a : stats; o_b : stats; o_onA : bool; o_sp : bool;
    o_client : option (bool * sev); o_coll : cphase; o_swapped : list stats }.

  (** stats.go 198-208, [NewTrx]. *)
  Definition ob_init : obst := ObSt stats_new stats_new true true None CIdle [].

  Definition ob_step (s : obst) (x : swact sev) : option obst :=
    match x with
    | ALoad e =>  (* 211 and 215, [t.sp.Load()] *)
      match o_client s with
      | None => Some (ObSt (o_a s) (o_b s) (o_onA s) (o_sp s) (Some (o_sp s, e)) (o_coll s) (o_swapped s))
      | Some _ => None
      end
    | AWrite =>   (* 211 and 215, into the loaded statistics *)
      match o_client s with
      | None => None
      | Some (p, e) =>
        match put (if p then o_a s else o_b s) e with
        | None => None
        | Some t => Some (ObSt (if p then t else o_a s) (if p then o_b s else t) (o_onA s) (o_sp s) None (o_coll s) (o_swapped s))
        end
      end
    | AReset =>   (* 221 and 227 *)
      match o_coll s with
      | CIdle => Some (ObSt (if o_onA s then o_a s else reset (o_a s)) (if o_onA s then reset (o_b s) else o_b s) (o_onA s) (o_sp s)
                            (o_client s) CReset (o_swapped s))
      | _ => None
      end
    | AStore =>   (* 222-224 and 228-230 *)
      match o_coll s with
      | CReset => Some (ObSt (o_a s) (o_b s) (negb (o_onA s)) (negb (o_onA s)) (o_client s) (CStored (o_onA s)) (o_swapped s))
      | _ => None
      end
    | ARead =>    (* collector.go 329-330 *)
      match o_coll s with
      | CStored p => Some (ObSt (o_a s) (o_b s) (o_onA s) (o_sp s) (o_client s) CIdle (o_swapped s ++ [if p then o_a s else o_b s]))
      | _ => None
      end
    end.

  Fixpoint ob_run (s : obst) (l : list (swact sev)) : option obst :=
    match l with [] => Some s | x :: l' => match ob_step s x with Some s' => ob_run s' l' | None => None end end.

  (** What the collections take from each of the watched statistics.  [acts]: what happens to each. *)
  Fixpoint swaps (acts : list (list (swact sev))) : option (list (list stats)) :=
    match acts with
    | [] => Some []
    | a :: acts' =>
      match ob_run ob_init a, swaps acts' with
      | Some o, Some l => Some (o_swapped o :: l)
      | _, _ => None
      end
    end.

  (** collector.go 308-332: collection number [k] merges what it took from every watched trx. *)
  Definition taken {A} (names : list string) (sw : list (list A)) (k : nat) : list (string * A) :=
    flat_map (fun x => match nth_error (snd x) k with Some s => [(fst x, s)] | None => [] end) (List.combine names sw).

  (** The [n] collections of a stage, on the statistics of the local instance. *)
  Definition stage_reports (w : watching) (acts : list (list (swact sev))) (n : nat)
    : option (list (stats * list (string * stats))) :=
    match swaps acts with
    | None => None
    | Some sw => collects (stats_new, wt_local w) (map (taken (concat (wt_trx w)) sw) (seq 0 n))
    end.
End Objects.
