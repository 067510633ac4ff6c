(** Swapping statistics (stats/stats.go 190-231) and the collector of several instances
    (stats/collector.go 163-395). *)
From Verif Require Import Prelude.

(* ------------------------------------------------------------------------------------ *)
(** * [Trx]: recording and swapping concurrently *)

Section Swap.
  (** A recorded event.  A buffer is the list of events recorded in it since it was last reset;
      [Stats.Record] itself is one step, which is only used when no swap happens during it. *)
  Context {E : Type}.

  (** The collector's place in [Swap] and [Collect]. *)
  Inductive cphase := CIdle | CReset | CStored (old : bool).
  (** [true] is buffer [a], [false] buffer [b].  [sw_client] is the client between loading the
      pointer and writing; [sw_reported] what the collector read, [sw_recorded] what the client
      finished recording (both for the specification only). *)
  Record swst := SwSt {
    sw_a : list E; sw_b : list E; sw_onA : bool; sw_sp : bool;
    sw_client : option (bool * E); sw_coll : cphase;
    sw_reported : list (list E); sw_recorded : list E }.

  (** stats.go 198-208, [NewTrx]. *)
  Definition sw_init : swst := SwSt [] [] true true None CIdle [] [].

  Inductive swact := ALoad (e : E) | AWrite | AReset | AStore | ARead.

  Definition sw_buf (s : swst) (p : bool) : list E := if p then sw_a s else sw_b s.

  Definition sw_step (s : swst) (x : swact) : option swst :=
    match x with
    | ALoad e =>  (* 211 and 215, [t.sp.Load()] *)
      match sw_client s with
      | None => Some (SwSt (sw_a s) (sw_b s) (sw_onA s) (sw_sp s) (Some (sw_sp s, e)) (sw_coll s) (sw_reported s) (sw_recorded s))
      | Some _ => None
      end
    | AWrite =>   (* 211 and 215, into the loaded buffer *)
      match sw_client s with
      | None => None
      | Some (p, e) =>
        Some (SwSt (if p then sw_a s ++ [e] else sw_a s) (if p then sw_b s else sw_b s ++ [e]) (sw_onA s) (sw_sp s)
                   None (sw_coll s) (sw_reported s) (sw_recorded s ++ [e]))
      end
    | AReset =>   (* 221 and 227 *)
      match sw_coll s with
      | CIdle => Some (SwSt (if sw_onA s then sw_a s else []) (if sw_onA s then [] else sw_b s) (sw_onA s) (sw_sp s)
                            (sw_client s) CReset (sw_reported s) (sw_recorded s))
      | _ => None
      end
    | AStore =>   (* 222-224 and 228-230 *)
      match sw_coll s with
      | CReset => Some (SwSt (sw_a s) (sw_b s) (negb (sw_onA s)) (negb (sw_onA s)) (sw_client s) (CStored (sw_onA s)) (sw_reported s) (sw_recorded s))
      | _ => None
      end
    | ARead =>    (* collector.go 329-330 *)
      match sw_coll s with
      | CStored p => Some (SwSt (sw_a s) (sw_b s) (sw_onA s) (sw_sp s) (sw_client s) CIdle (sw_reported s ++ [sw_buf s p]) (sw_recorded s))
      | _ => None
      end
    end.

  Fixpoint sw_run (s : swst) (l : list swact) : option swst :=
    match l with [] => Some s | x :: l' => match sw_step s x with Some s' => sw_run s' l' | None => None end end.
End Swap.

(* ------------------------------------------------------------------------------------ *)
(** * [Collector]: intervals of several instances *)

(** The kinds of reporter, as far as they can crash: csv.go 61 ([from[0]]), remote.go 43-45 (not
    exactly one instance), stdout.go 72-85 (never: [Combine] only with two instances or more). *)
Inductive reporter := RStdout | RCsv | RServer.
Definition reporter_ok (r : reporter) (n : nat) : bool :=
  match r with RStdout => true | RCsv => (0 <? n)%nat | RServer => (n =? 1)%nat end.

Section Collector.
  (** Statistics of one instance for one interval. *)
  Context {D : Type}.

  (** collector.go 20-28: an element of [c.interval].  Instance 0 is the local one.  Copying
      [c.local] (336) copies the pointers [Total] and [Trx], not the statistics: [None] stands for
      "what the collector's local statistics are now". *)
  Record centry := CEntry { en_host : nat; en_ival : N; en_data : option D }.

  (** collector.go 55-73.  [c_buf] is [c.interval[0:c.n]]; the capacity is [c_ninst]. *)
  Record coll := Coll {
    c_ninst : nat; c_reps : list reporter;
    c_no : N; c_buf : list centry; c_lival : N; c_ldata : D }.

  (** One report: for each instance its number, the interval number it carries, the statistics. *)
  Definition report_t : Type := list (nat * N * D).

  (** collector.go 75-96, [NewCollector]; [d0]: no statistics. *)
  Definition coll_new (n : nat) (reps : list reporter) (d0 : D) : coll := Coll n reps 1 [] 0 d0.

  Definition resolve (ld : D) (e : centry) : nat * N * D :=
    (en_host e, en_ival e, match en_data e with Some d => d | None => ld end).

  (** collector.go 379-395, [Report].  [None]: a reporter crashes. *)
  Definition c_report (c : coll) (force : bool) : option (coll * list report_t * bool) :=
    if (negb force && (length (c_buf c) <? c_ninst c)%nat)%bool then Some (c, [], false)
    else if forallb (fun r => reporter_ok r (length (c_buf c))) (c_reps c)
    then Some (Coll (c_ninst c) (c_reps c) (c_no c + 1) [] (c_lival c) (c_ldata c), [map (resolve (c_ldata c)) (c_buf c)], true)
    else None.

  Definition c_push (c : coll) (e : centry) : option coll :=
    if (length (c_buf c) <? c_ninst c)%nat
    then Some (Coll (c_ninst c) (c_reps c) (c_no c) (c_buf c ++ [e]) (c_lival c) (c_ldata c)) else None.

  (** collector.go 292-339, [Collect]; [d] is what [StatsModel.collect] gives. *)
  Definition c_collect (c : coll) (d : D) : option (coll * list report_t * bool) :=
    let c1 := Coll (c_ninst c) (c_reps c) (c_no c) (c_buf c) (c_lival c + 1) d in
    match c_push c1 (CEntry 0 (c_lival c1) None) with
    | None => None
    | Some c2 => c_report c2 false
    end.

  (** collector.go 343-373, [Recv]. *)
  Definition c_recv (c : coll) (h : nat) (ival : N) (d : D) : option (coll * list report_t) :=
    if (ival <? c_no c)%N then Some (c, [])
    else if (c_no c <? ival)%N then
      match c_report c true with
      | None => None
      | Some (c1, out, _) =>
        if (0 <? c_ninst c1)%nat
        then Some (Coll (c_ninst c1) (c_reps c1) (c_no c1) [CEntry h ival (Some d)] (c_lival c1) (c_ldata c1), out)
        else None
      end
    else
      match c_push c (CEntry h ival (Some d)) with
      | None => None
      | Some c1 => match c_report c1 false with Some (c2, out, _) => Some (c2, out) | None => None end
      end.

  (** What can happen while a stage runs (the mutex makes each one step). *)
  Inductive cop := OCollect (d : D) | ORecv (h : nat) (ival : N) (d : D).
  Definition c_step (c : coll) (o : cop) : option (coll * list report_t) :=
    match o with
    | OCollect d => match c_collect c d with Some (c', out, _) => Some (c', out) | None => None end
    | ORecv h i d => c_recv c h i d
    end.
  Fixpoint c_run (c : coll) (l : list cop) : option (coll * list report_t) :=
    match l with
    | [] => Some (c, [])
    | o :: l' =>
      match c_step c o with
      | None => None
      | Some (c1, out) => match c_run c1 l' with Some (c2, out') => Some (c2, out ++ out') | None => None end
      end
    end.

  (** collector.go 260-276: the wait for the final report.  What happens meanwhile: a remote's
      statistics arrive, the loop wakes up, the timeout.  The result: finished or still waiting. *)
  Inductive wev := WRecv (h : nat) (ival : N) (d : D) | WPoll | WTimeout.
  Fixpoint c_wait (c : coll) (l : list wev) : option (coll * list report_t * bool) :=
    match l with
    | [] => Some (c, [], false)
    | WRecv h i d :: l' =>
      match c_recv c h i d with
      | None => None
      | Some (c1, out) => match c_wait c1 l' with Some (c2, out', b) => Some (c2, out ++ out', b) | None => None end
      end
    | WPoll :: l' =>
      match c_report c false with
      | None => None
      | Some (c1, out, true) => Some (c1, out, true)
      | Some (c1, out, false) => match c_wait c1 l' with Some (c2, out', b) => Some (c2, out ++ out', b) | None => None end
      end
    | WTimeout :: _ => match c_report c true with Some (c1, out, _) => Some (c1, out, true) | None => None end
    end.

  (** collector.go 229-288, [Stop].  [periodic]: [c.Freq > 0]; [recent]: the last report was less
      than half the frequency ago (248; never with frequency 0); [d]: what the clients recorded
      since the last collection. *)
  Definition c_stop (c : coll) (periodic recent : bool) (d : D) (l : list wev) : option (coll * list report_t * bool) :=
    if (periodic && recent)%bool then Some (c, [], true)
    else
      match c_collect c d with
      | None => None
      | Some (c1, out, true) => Some (c1, out, true)
      | Some (c1, out, false) => match c_wait c1 l with Some (c2, out', b) => Some (c2, out ++ out', b) | None => None end
      end.
End Collector.
Arguments cop : clear implicits.
Arguments wev : clear implicits.
Arguments coll : clear implicits.
Arguments centry : clear implicits.
Arguments report_t : clear implicits.
Arguments swst : clear implicits.
Arguments swact : clear implicits.

(* ------------------------------------------------------------------------------------ *)
(** * [Server]: sending statistics from a remote instance *)

Section Remote.
  Context {D : Type}.
  (** stats/remote.go 18-40 with the remote's collector (one instance, reporter [Server]): what is
      in [statsChan] are copies of [c.local], whose statistics are pointers: only the interval
      number is in the queue, the statistics are those of the collector when they are sent. *)
  Record remote := Remote { rm_ival : N; rm_data : D; rm_queue : list N }.
  Inductive rop := RTick (d : D) | RSend.
  (** collector.go 292-339 then remote.go 53-57 (capacity 5, else dropped); remote.go 73-74. *)
  Definition rm_step (r : remote) (o : rop) : remote * list (N * D) :=
    match o with
    | RTick d =>
      let i := (rm_ival r + 1)%N in
      (Remote i d (if (length (rm_queue r) <? 5)%nat then rm_queue r ++ [i] else rm_queue r), [])
    | RSend =>
      match rm_queue r with
      | [] => (r, [])
      | i :: q => (Remote (rm_ival r) (rm_data r) q, [(i, rm_data r)])
      end
    end.
  Fixpoint rm_run (r : remote) (l : list rop) : remote * list (N * D) :=
    match l with
    | [] => (r, [])
    | o :: l' => let '(r1, o1) := rm_step r o in let '(r2, o2) := rm_run r1 l' in (r2, o1 ++ o2)
    end.
End Remote.
Arguments rop : clear implicits.
