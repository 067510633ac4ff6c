(** Model of the client-server protocol: the server's API (compute/api.go), the loop of
    Server.run (compute/server.go 70-194) and stage IDs (proto/proto.go 107-119).

    Every handler of the API is a thread.  A step of a thread is what it does between two points
    at which other goroutines can interfere: a section under the locks, a read or write of a
    client's state (which the code does without a lock), an operation on a channel.  Requests,
    bodies, write errors and the schedule are chosen freely, as [action]s.  Logging, JSON and the
    contents of files and statistics are left out. *)
From Verif Require Import Prelude ConfigModel TrxModel.
#[local] Open Scope string_scope.
#[local] Open Scope list_scope.

(** delete(m, k) *)
Definition sdel {A} (k : string) (m : smap A) : smap A := filter (fun kv => negb (String.eqb (fst kv) k)) m.

(** A map from numbers (pointers) with one value replaced. *)
Definition upd {A} (f : nat -> A) (i : nat) (x : A) : nat -> A := fun j => if Nat.eqb j i then x else f j.

(** api.go 28-33 *)
Inductive rstate := Ready | Booting | Runnable | Running.
Definition rstate_eqb (a b : rstate) : bool :=
  match a, b with
  | Ready, Ready | Booting, Booting | Runnable, Runnable | Running, Running => true
  | _, _ => false
  end.

(** type ack, server.go 33-36: [None] is the local instance. *)
Definition ack := (option string * bool)%type.   (* name, error *)

(** type stageMeta, api.go 35-46.  [g_inst]: the number of instances, the capacity of both
    channels; [g_need]: nRemotes; [g_run]: runChan is closed; [g_trx]: the trx files.  cfg.Test is
    not part of the model because nothing ever sets it (config/file.go 48, api.go 116). *)
Record meta := Meta {
  g_id : string; g_inst : N; g_need : N; g_local : bool; g_trx : list string;
  g_bootq : list ack; g_run : bool; g_doneq : list ack;
  g_booted : bool; g_done : bool; g_clients : smap nat }.

(** type client, api.go 48-52 *)
Record rc := Rc { r_name : string; r_stage : option nat; r_state : rstate }.

Inductive method := GET | POST | OTHER.
Inductive path := PBoot | PFile | PRun | PStats | PPing.
(** A request; a parameter that is not in the URL is [None]. *)
Record request := Req {
  q_method : method; q_path : path; q_name : option string; q_sid : option string;
  q_stage : option string; q_i : option string }.

(** Where a handler is. *)
Inductive pc :=
| GetBootCheck | GetBootWait
| PostBootCheck | PostBootRead | PostBootSet (err : bool) | PostBootAck (err : bool)
| FileCheck (stage i : option string)
| GetRunCheck | GetRunWait | GetRunDone | GetRunWrite | GetRunSet
| PostRunCheck | PostRunRead | PostRunDelete (err : bool) | PostRunAck (err : bool) | PostRunReady
| StatsCheck | StatsRead | PingDone.

(** Where Server.run is.  [Stage1]-[Stage4]: in API.Stage, which then continues with [k]. *)
Inductive server :=
| Idle
| Stage1 (next : option nat) (k : server)
| Stage2 (old : nat) (next : option nat) (k : server)
| Stage3 (old : nat) (next : option nat) (k : server)
| Stage4 (next : option nat) (k : server)
| Boot (m : nat) (n : N)
| SetBooted (m : nat) (n : N)
| RunStart (m : nat) (n : N)
| RunWait (m : nat) (n : N)
| Hung
| Stopped.

Record state := St {
  s_cur : option nat; s_metas : nat -> meta; s_nmetas : nat; s_rcs : nat -> rc; s_nrcs : nat;
  s_threads : nat -> option (nat * pc); s_nthreads : nat; s_server : server; s_locals : list nat;
  s_cancelled : bool }.

(** What can be observed. *)
Inductive event :=
| EResp (name : string) (p : path) (get : bool) (code : nat)
| EAssigned (m : nat) (name : string) (sent : bool)  (* the remote has a place in the stage *)
| EBooted (m : nat) (name : string)                  (* the remote reported a successful boot *)
| EFailed (m : nat) (name : string)                  (* the remote reported a boot error *)
| EFile (m : nat) (name file : string)               (* the remote got the file *)
| ERun (m : nat) (name : string)                     (* the run signal was written to the remote *)
| EDone (m : nat) (name : string)                    (* the remote reported it is done *)
| EStats (m : nat) (name : string)                   (* statistics of the remote passed on *)
| ECount (m : nat) (who : option string)             (* the server counts a booted instance *)
| ELocal (m : nat)                                   (* the local instance starts running *)
| ELocalDone (m : nat)                               (* the local instance has run *)
| EFinished (m : nat) (who : option string)          (* the server counts a finished instance *)
| EEnd (m : nat).                                    (* the stage has ended *)

Inductive action :=
| ARequest (q : request)
| AThread (i : nat) (body : option string) (ok : bool)  (* [None]: reading fails; [ok]: writing *)
| ANewStage (id : string) (inst : N) (disable_local : bool) (trx : list string) (local_ok : bool)
| AServer (done : bool)                                 (* [true]: takes the ctxFinch branch *)
| ALocalDone (m : nat)
| ACancel.

(** clean, api.go 499-503 *)
Fixpoint clean (s : string) : string :=
  match s with
  | "" => ""
  | String c s' =>
      let n := nat_of_ascii c in
      if (Nat.eqb n 10 || Nat.eqb n 13)%bool then clean s' else String c (clean s')
  end.

Definition set_clients (g : meta) (c : smap nat) : meta :=
  Meta (g_id g) (g_inst g) (g_need g) (g_local g) (g_trx g) (g_bootq g) (g_run g) (g_doneq g)
       (g_booted g) (g_done g) c.
Definition set_bootq (g : meta) (l : list ack) : meta :=
  Meta (g_id g) (g_inst g) (g_need g) (g_local g) (g_trx g) l (g_run g) (g_doneq g)
       (g_booted g) (g_done g) (g_clients g).
Definition set_doneq (g : meta) (l : list ack) : meta :=
  Meta (g_id g) (g_inst g) (g_need g) (g_local g) (g_trx g) (g_bootq g) (g_run g) l
       (g_booted g) (g_done g) (g_clients g).
Definition set_run (g : meta) : meta :=
  Meta (g_id g) (g_inst g) (g_need g) (g_local g) (g_trx g) (g_bootq g) true (g_doneq g)
       (g_booted g) (g_done g) (g_clients g).
Definition set_booted (g : meta) : meta :=
  Meta (g_id g) (g_inst g) (g_need g) (g_local g) (g_trx g) (g_bootq g) (g_run g) (g_doneq g)
       true (g_done g) (g_clients g).
Definition set_done (g : meta) : meta :=
  Meta (g_id g) (g_inst g) (g_need g) (g_local g) (g_trx g) (g_bootq g) (g_run g) (g_doneq g)
       (g_booted g) true (g_clients g).

Definition with_meta (s : state) (m : nat) (g : meta) : state :=
  St (s_cur s) (upd (s_metas s) m g) (s_nmetas s) (s_rcs s) (s_nrcs s) (s_threads s) (s_nthreads s)
     (s_server s) (s_locals s) (s_cancelled s).
Definition with_rc (s : state) (c : nat) (r : rc) : state :=
  St (s_cur s) (s_metas s) (s_nmetas s) (upd (s_rcs s) c r) (s_nrcs s) (s_threads s) (s_nthreads s)
     (s_server s) (s_locals s) (s_cancelled s).
Definition with_thread (s : state) (i : nat) (t : option (nat * pc)) : state :=
  St (s_cur s) (s_metas s) (s_nmetas s) (s_rcs s) (s_nrcs s) (upd (s_threads s) i t) (s_nthreads s)
     (s_server s) (s_locals s) (s_cancelled s).
Definition with_server (s : state) (v : server) : state :=
  St (s_cur s) (s_metas s) (s_nmetas s) (s_rcs s) (s_nrcs s) (s_threads s) (s_nthreads s)
     v (s_locals s) (s_cancelled s).
Definition with_cur (s : state) (m : option nat) : state :=
  St m (s_metas s) (s_nmetas s) (s_rcs s) (s_nrcs s) (s_threads s) (s_nthreads s)
     (s_server s) (s_locals s) (s_cancelled s).
Definition with_locals (s : state) (l : list nat) : state :=
  St (s_cur s) (s_metas s) (s_nmetas s) (s_rcs s) (s_nrcs s) (s_threads s) (s_nthreads s)
     (s_server s) l (s_cancelled s).

Definition no_meta : meta := Meta "" 0 0 false [] [] false [] false false [].
Definition no_rc : rc := Rc "" None Ready.
Definition init : state :=
  St None (fun _ => no_meta) 0 (fun _ => no_rc) 0 (fun _ => None) 0 Idle [] false.

(** API.client, api.go 409-497: refused with a status, or the client the request is for. *)
Inductive admission := Refused (code : nat) | New (name : string) | Known (c : nat).
Definition api_client (s : state) (q : request) : admission :=
  match q_method q with
  | OTHER => Refused 405
  | _ =>
      match q_name q with
      | None => Refused 400
      | Some name0 =>
          let name := clean name0 in
          match q_sid q with
          | None => Refused 400
          | Some sid0 =>
              let sid := clean sid0 in
              match s_cur s with
              | None => Refused 410
              | Some m =>
                  let g := s_metas s m in
                  match sget name (g_clients g) with
                  | None =>
                      match q_method q, q_path q with
                      | GET, PBoot => New name
                      | _, _ => Refused 410
                      end
                  | Some c =>
                      if (negb (g_done g) && negb (String.eqb (g_id g) sid))%bool then Refused 410 else Known c
                  end
              end
          end
      end
  end.

Definition is_get (q : request) : bool := match q_method q with GET => true | _ => false end.

(** The handlers, api.go 154-405, after API.client. *)
Definition first_pc (q : request) : pc :=
  match q_path q with
  | PBoot => if is_get q then GetBootCheck else PostBootCheck
  | PFile => FileCheck (q_stage q) (q_i q)
  | PRun => if is_get q then GetRunCheck else PostRunCheck
  | PStats => StatsCheck
  | PPing => PingDone
  end.

Definition add_thread (s : state) (c : nat) (p : pc) : state :=
  St (s_cur s) (s_metas s) (s_nmetas s) (s_rcs s) (s_nrcs s) (upd (s_threads s) (s_nthreads s) (Some (c, p)))
     (S (s_nthreads s)) (s_server s) (s_locals s) (s_cancelled s).
Definition add_rc (s : state) (r : rc) : state :=
  St (s_cur s) (s_metas s) (s_nmetas s) (upd (s_rcs s) (s_nrcs s) r) (S (s_nrcs s)) (s_threads s) (s_nthreads s)
     (s_server s) (s_locals s) (s_cancelled s).

Definition request_step (s : state) (q : request) : state * list event :=
  match api_client s q with
  | Refused code =>
      (s, [EResp (match q_name q with Some n => clean n | None => "" end) (q_path q) (is_get q) code])
  | New name => (add_thread (add_rc s (Rc name None Ready)) (s_nrcs s) (first_pc q), [])
  | Known c => (add_thread s c (first_pc q), [])
  end.

(** len(stage.clients) == int(stage.nRemotes), api.go 179; nRemotes of 2^63 or more is negative. *)
Definition full (g : meta) : bool :=
  ((g_need g <? 2 ^ 63) && (N.of_nat (List.length (g_clients g)) =? g_need g))%N%bool.

Definition not_empty (b : option string) : bool :=
  match b with Some b => negb (String.eqb b "") | None => false end.

Definition thread_step (s : state) (i c : nat) (p : pc) (body : option string) (ok : bool)
    : option (state * list event) :=
  let r := s_rcs s c in
  let n := r_name r in
  let goto p' := Some (with_thread s i (Some (c, p')), []) in
  let stop path get code es := Some (with_thread s i None, es ++ [EResp n path get code]) in
  let m := match r_stage r with Some m => m | None => 0%nat end in
  let g := s_metas s m in
  match p with
  (* GET /boot, api.go 160-199 *)
  | GetBootCheck =>
      if rstate_eqb (r_state r) Ready then goto GetBootWait else stop PBoot true 412%nat []
  | GetBootWait =>
      match s_cur s with
      | None => Some (s, [])
      | Some m =>
          let g := s_metas s m in
          if (g_done g || g_booted g || full g)%bool then Some (s, [])
          else
            Some (with_thread (with_rc (with_meta s m (set_clients g (sset n c (g_clients g)))) c (Rc n (Some m) Booting)) i None,
                  [EAssigned m n ok; EResp n PBoot true 200])
      end
  (* POST /boot, api.go 200-228 *)
  | PostBootCheck =>
      if rstate_eqb (r_state r) Booting then goto PostBootRead else stop PBoot false 412%nat []
  | PostBootRead =>
      match body with
      | None => stop PBoot false 200%nat []
      | Some b => goto (PostBootSet (negb (String.eqb b "")))
      end
  | PostBootSet err =>
      if err then Some (with_thread s i (Some (c, PostBootAck true)), [EFailed m n])
      else Some (with_thread (with_rc s c (Rc n (r_stage r) Runnable)) i (Some (c, PostBootAck false)), [EBooted m n])
  | PostBootAck err =>
      if (N.of_nat (List.length (g_bootq g)) <? g_inst g)%N
      then Some (with_thread (with_meta s m (set_bootq g (g_bootq g ++ [(Some n, err)]))) i None, [EResp n PBoot false 200])
      else None
  (* /file, api.go 232-291 *)
  | FileCheck stage i0 =>
      if negb (rstate_eqb (r_state r) Booting) then stop PFile true 412%nat []
      else
        match stage, i0 with
        | Some _, Some i1 =>
            match atoi (clean i1) with
            | None => stop PFile true 400%nat []
            | Some z =>
                if (z <? 0)%Z then stop PFile true 400%nat []
                else
                  match nth_error (g_trx g) (Z.to_nat z) with
                  | None => stop PFile true 400%nat []
                  | Some f => if ok then stop PFile true 200%nat [EFile m n f] else stop PFile true 500%nat []
                  end
            end
        | _, _ => stop PFile true 400%nat []
        end
  (* GET /run, api.go 299-327 *)
  | GetRunCheck =>
      if rstate_eqb (r_state r) Runnable then goto GetRunWait else stop PRun true 412%nat []
  | GetRunWait => if g_run g then goto GetRunDone else None
  | GetRunDone =>
      if g_done g
      then Some (with_thread (with_meta s m (set_clients g (sdel n (g_clients g)))) i None, [EResp n PRun true 205])
      else goto GetRunWrite
  | GetRunWrite =>
      if ok then Some (with_thread s i (Some (c, GetRunSet)), [ERun m n; EResp n PRun true 200])
      else Some (with_thread s i None, [])
  | GetRunSet => Some (with_thread (with_rc s c (Rc n (r_stage r) Running)) i None, [])
  (* POST /run, api.go 328-355 *)
  | PostRunCheck =>
      if rstate_eqb (r_state r) Running then goto PostRunRead else stop PRun false 412%nat []
  | PostRunRead => goto (PostRunDelete (not_empty body))
  | PostRunDelete err =>
      Some (with_thread (with_meta s m (set_clients g (sdel n (g_clients g)))) i (Some (c, PostRunAck err)), [])
  | PostRunAck err =>
      if (N.of_nat (List.length (g_doneq g)) <? g_inst g)%N
      then Some (with_thread (with_meta s m (set_doneq g (g_doneq g ++ [(Some n, err)]))) i (Some (c, PostRunReady)), [EDone m n])
      else None
  | PostRunReady =>
      Some (with_thread (with_rc s c (Rc n (r_stage r) Ready)) i None, [EResp n PRun false 200])
  (* /stats, api.go 358-389 *)
  | StatsCheck =>
      if rstate_eqb (r_state r) Running then goto StatsRead else stop PStats false 412%nat []
  | StatsRead =>
      match body with
      | None => stop PStats false 200%nat []
      | Some _ => stop PStats false 200%nat [EStats m n]
      end
  (* /ping, api.go 391-405 *)
  | PingDone => stop PPing true (if g_done g then 205 else 200)%nat []
  end.

(** ** Server.run *)
Section server.
  Context (test : bool).   (* --test *)

  (** server.go 74-115: a new stage, until API.Stage is called.  With 0 instances and a local one
      the send on the unbuffered bootChan blocks forever. *)
  Definition new_stage (s : state) (id : string) (inst : N) (dl : bool) (trx : list string) (local_ok : bool) : state :=
    let m := s_nmetas s in
    let need := if dl then inst else ((inst + 2 ^ 64 - 1) mod 2 ^ 64)%N in
    let g := Meta id inst need (negb dl) trx (if dl then [] else [(None, false)]) false [] false false [] in
    let next := if (need =? 0)%N then Boot m 0 else Stage1 (Some m) (Boot m 0) in
    let v := if dl then next
             else if negb local_ok then Stopped
             else if (inst =? 0)%N then Hung else next in
    St (s_cur s) (upd (s_metas s) m g) (S m) (s_rcs s) (s_nrcs s) (s_threads s) (s_nthreads s) v
       (s_locals s) (s_cancelled s).

  (** One step of the server.  API.Stage (api.go 95-152) polls until the clients have left: the
      break in its select does not leave the loop. *)
  Definition server_step (s : state) (done : bool) : option (state * list event) :=
    let go v := Some (with_server s v, []) in
    match s_server s with
    | Stage1 next k =>
        match s_cur s with
        | None => Some (with_server (with_cur s next) k, [])
        | Some old => go (Stage2 old next k)
        end
    | Stage2 old next k => Some (with_server (with_meta s old (set_done (s_metas s old))) (Stage3 old next k), [])
    | Stage3 old next k => match g_clients (s_metas s old) with [] => go (Stage4 next k) | _ => Some (s, []) end
    | Stage4 next k => Some (with_server (with_cur s next) k, [])
    | Boot m n =>
        let g := s_metas s m in
        if (n =? g_inst g)%N then go (SetBooted m n)
        else if done then if s_cancelled s then go Stopped else None
        else
          match g_bootq g with
          | [] => None
          | (who, err) :: q =>
              let s1 := with_meta s m (set_bootq g q) in
              if err then Some (s1, []) else Some (with_server s1 (Boot m (n + 1)), [ECount m who])
          end
    | SetBooted m n =>
        Some (with_server (with_meta s m (set_booted (s_metas s m))) (if test then Idle else RunStart m n), [])
    | RunStart m n =>
        let g := s_metas s m in
        let s1 := with_server (with_meta s m (set_run g)) (RunWait m n) in
        if g_local g then Some (with_locals s1 (m :: s_locals s), [ELocal m]) else Some (s1, [])
    | RunWait m n =>
        let g := s_metas s m in
        if (n =? 0)%N then Some (with_server s Idle, [EEnd m])
        else if done then if s_cancelled s then go (Stage1 None (RunWait m n)) else None
        else
          match g_doneq g with
          | [] => None
          | (who, _) :: q => Some (with_server (with_meta s m (set_doneq g q)) (RunWait m (n - 1)), [EFinished m who])
          end
    | Idle | Hung | Stopped => None
    end.

  Fixpoint remove_one (m : nat) (l : list nat) : list nat :=
    match l with
    | [] => []
    | x :: l' => if Nat.eqb x m then l' else x :: remove_one m l'
    end.

  Definition step (s : state) (a : action) : option (state * list event) :=
    match a with
    | ARequest q => Some (request_step s q)
    | AThread i body ok =>
        match s_threads s i with
        | None => None
        | Some (c, p) => thread_step s i c p body ok
        end
    | ANewStage id inst dl trx local_ok =>
        match s_server s with
        | Idle => if s_cancelled s then None else Some (new_stage s id inst dl trx local_ok, [])
        | _ => None
        end
    | AServer done => server_step s done
    | ALocalDone m =>
        (* server.go 160-163: the goroutine of the local instance *)
        let g := s_metas s m in
        if (existsb (Nat.eqb m) (s_locals s) && (N.of_nat (List.length (g_doneq g)) <? g_inst g)%N)%bool
        then Some (with_locals (with_meta s m (set_doneq g (g_doneq g ++ [(None, false)]))) (remove_one m (s_locals s)), [ELocalDone m])
        else None
    | ACancel =>
        Some (St (s_cur s) (s_metas s) (s_nmetas s) (s_rcs s) (s_nrcs s) (s_threads s) (s_nthreads s)
                 (s_server s) (s_locals s) true, [])
    end.

  (** A whole schedule, for examples. *)
  Fixpoint run (s : state) (l : list action) : option (state * list event) :=
    match l with
    | [] => Some (s, [])
    | a :: l' =>
        match step s a with
        | None => None
        | Some (s1, es) => match run s1 l' with Some (s2, es') => Some (s2, es ++ es') | None => None end
        end
    end.
End server.
