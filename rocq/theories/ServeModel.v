(** Model of running the stages of the command line: Server.Run and Server.run
    (compute/server.go 50-194).

    The server, the instances and CTRL-C act concurrently; the schedule is chosen freely, as
    [action]s.  Remotes are seen through the acks the API passes on (their protocol is ApiModel's);
    API.Stage returns at once here (it may block, C53).  What Prepare and Run of the local instance
    do is left out: Prepare succeeds or fails, Run ends at any time.  Memory is not limited (the
    channels are allocated for any number of instances).  Logging is left out. *)
From Verif Require Import Prelude ConfigModel TrxModel.
#[local] Open Scope list_scope.

(** finch.Uint, finch.go 175-179: the error of strconv.ParseUint(s, 10, 64) is ignored; its value
    is then 0, or the greatest uint64 if the number is too big. *)
Definition uint_of (s : string) : N :=
  match s with
  | EmptyString => 0
  | _ => match digits_value 0 s with
         | Some v => if (v <? 2 ^ 64)%N then v else 2 ^ 64 - 1
         | None => 0
         end
  end%N.

(** The number of instances and of remotes, server.go 74-78; uint arithmetic. *)
Definition instances (c : stage) : N := uint_of (c_instances (s_compute c)).
Definition has_local (c : stage) : bool := negb (c_nolocal (s_compute c)).
Definition remotes (c : stage) : N :=
  if has_local c then ((instances c + 2 ^ 64 - 1) mod 2 ^ 64)%N else instances c.

(** Where Server.Run is.  [Top i]: at the head of its loop for stage number [i] (from 0);
    [Start i]: at the head of Server.run; [Boot], [Wait]: in its loops; [After i]: Server.run has
    returned nil. *)
Inductive phase :=
| Top (i : nat)
| Start (i : nat)
| Boot (i : nat) (booted : N)
| Wait (i : nat) (running : N)
| After (i : nat)
| Returned (err : bool)
| Hung (i : nat)
| Panicked (i : nat).

(** [None]: the local instance. *)
Definition who := option string.

(** [v_bootq], [v_doneq]: the channels of the stage; [v_locals]: the stages whose local instance
    runs (one that outlives its stage has its own, old channel); [v_cwd]: the working directory of the process. *)
Record state := St {
  v_phase : phase; v_bootq : list (who * bool); v_doneq : list who; v_locals : list nat;
  v_cancelled : bool; v_cwd : string }.

Inductive event :=
| EDir (i : nat) (dir : string)                          (* os.Chdir *)
| EPrepare (i : nat) (c : stage) (cwd : string) (stats : bool)  (* Stage.Prepare; with a collector? *)
| EPublish (i : nat)                                     (* remotes can get the stage *)
| EBooted (i : nat) (w : who)                            (* counted as booted *)
| EFailed (i : nat) (w : who)                            (* a boot error was received *)
| ERun (i : nat)                                         (* the remotes are signalled to run *)
| ELocal (i : nat)                                       (* Stage.Run of the local instance starts *)
| ELocalEnd (i : nat)                                    (* and has returned *)
| EFinished (i : nat) (w : who)                          (* counted as finished *)
| EStop (i : nat)                                        (* the remotes are told to stop *)
| EEnd (i : nat)                                         (* all instances have run *)
| ETested (i : nat)                                      (* all instances booted; --test *)
| EAbort (i : nat)                                       (* CTRL-C while instances boot *)
| ECancel                                                (* CTRL-C *)
| EReturn (err : bool).

(** [AServer true]: a select takes the branch of ctxFinch. *)
Inductive action :=
| AServer (ctx : bool)
| ARemoteBoot (name : string) (err : bool)
| ARemoteDone (name : string)
| ALocalDone (i : nat)
| ACancel.

Section Serve.
(** --server given; --test given; the stages config.Load returned. *)
Variables (api test : bool) (stages : list stage).
(** filepath.Dir; whether os.Chdir succeeds; whether the reporters of the stage can be made
    (stats.NewCollector); whether Prepare succeeds. *)
Variables (dir_of : string -> string) (chdir_ok : string -> bool)
          (collector_ok prepare_ok : stage -> bool).

Definition with_phase (s : state) (p : phase) : state :=
  St p (v_bootq s) (v_doneq s) (v_locals s) (v_cancelled s) (v_cwd s).

Definition stats_on (c : stage) : bool :=
  match st_disable (s_stats c) with Some true => false | _ => true end.

(** server.go 74-122 *)
Definition start_stage (s : state) (i : nat) (c : stage) : state * list event :=
  if (stats_on c && negb (collector_ok c))%bool then (with_phase s (Returned true), [EReturn true])
  else
    let publish := (api && (0 <? remotes c)%N)%bool in
    let booting q := St (Boot i 0) q [] (v_locals s) (v_cancelled s) (v_cwd s) in
    let pub := if publish then [EPublish i] else [] in
    if has_local c then
      let prep := EPrepare i c (v_cwd s) (stats_on c) in
      match s_trx c with
      | [] => (with_phase s (Panicked i), [])                       (* stage.go 47-49 *)
      | _ =>
          if negb (prepare_ok c) then (with_phase s (Returned true), [prep; EReturn true])
          else if (instances c =? 0)%N then (with_phase s (Hung i), [prep])   (* 114: the channel is unbuffered *)
          else (booting [(None, false)], prep :: pub)
      end
    else (booting [], pub).

Definition server_step (s : state) (ctx : bool) : option (state * list event) :=
  match v_phase s with
  (* server.go 51-55, 66 *)
  | Top i =>
      match nth_error stages i with
      | None => Some (with_phase s (Returned false), [EReturn false])
      | Some c =>
          let d := dir_of (s_file c) in
          if chdir_ok d
          then Some (St (Start i) (v_bootq s) (v_doneq s) (v_locals s) (v_cancelled s) d, [EDir i d])
          else Some (with_phase s (Returned true), [EReturn true])
      end
  | Start i =>
      match nth_error stages i with
      | None => None
      | Some c => Some (start_stage s i c)
      end
  (* server.go 130-162 *)
  | Boot i n =>
      match nth_error stages i with
      | None => None
      | Some c =>
          if (n <? instances c)%N then
            if ctx then if v_cancelled s then Some (with_phase s (After i), [EAbort i]) else None
            else
              match v_bootq s with
              | [] => None
              | (w, err) :: q =>
                  let s1 b := St (Boot i b) q (v_doneq s) (v_locals s) (v_cancelled s) (v_cwd s) in
                  if err then Some (s1 n, [EFailed i w]) else Some (s1 (n + 1)%N, [EBooted i w])
              end
          else if test then Some (with_phase s (After i), [ETested i])
          else if has_local c
               then Some (St (Wait i n) (v_bootq s) (v_doneq s) (i :: v_locals s) (v_cancelled s) (v_cwd s), [ERun i; ELocal i])
               else Some (with_phase s (Wait i n), [ERun i])
      end
  (* server.go 166-191 *)
  | Wait i n =>
      if (n =? 0)%N then Some (with_phase s (After i), [EEnd i])
      else if ctx then
        if v_cancelled s then Some (s, if api then [EStop i] else []) else None
      else
        match v_doneq s with
        | [] => None
        | w :: q => Some (St (Wait i (n - 1)%N) (v_bootq s) q (v_locals s) (v_cancelled s) (v_cwd s), [EFinished i w])
        end
  (* server.go 61-64 *)
  | After i => if v_cancelled s then Some (with_phase s (Returned false), [EReturn false]) else Some (with_phase s (Top (S i)), [])
  | Returned _ | Hung _ | Panicked _ => None
  end.

(** Whether remotes got the stage (server.go 118-122). *)
Definition published (i : nat) : bool :=
  match nth_error stages i with Some c => (api && (0 <? remotes c)%N)%bool | None => false end.

Definition step (s : state) (a : action) : option (state * list event) :=
  match a with
  | AServer ctx => server_step s ctx
  | ARemoteBoot w err =>
      match v_phase s with
      | Boot i _ =>
          if published i
          then Some (St (v_phase s) (v_bootq s ++ [(Some w, err)]) (v_doneq s) (v_locals s) (v_cancelled s) (v_cwd s), [])
          else None
      | _ => None
      end
  | ARemoteDone w =>
      match v_phase s with
      | Wait i _ =>
          if published i
          then Some (St (v_phase s) (v_bootq s) (v_doneq s ++ [Some w]) (v_locals s) (v_cancelled s) (v_cwd s), [])
          else None
      | _ => None
      end
  (* server.go 159-163 *)
  | ALocalDone i =>
      if existsb (Nat.eqb i) (v_locals s)
      then Some (St (v_phase s) (v_bootq s)
                    (match v_phase s with Wait j _ => if Nat.eqb j i then v_doneq s ++ [None] else v_doneq s | _ => v_doneq s end)
                    (filter (fun j => negb (Nat.eqb j i)) (v_locals s)) (v_cancelled s) (v_cwd s), [ELocalEnd i])
      else None
  | ACancel => Some (St (v_phase s) (v_bootq s) (v_doneq s) (v_locals s) true (v_cwd s), [ECancel])
  end.

(** [cwd]: the working directory when Server.Run is called. *)
Definition init (cwd : string) : state := St (Top 0) [] [] [] false cwd.

Fixpoint run (s : state) (l : list action) : option (state * list event) :=
  match l with
  | [] => Some (s, [])
  | a :: l' =>
      match step s a with
      | None => None
      | Some (s1, es) => match run s1 l' with Some (s2, es') => Some (s2, es ++ es') | None => None end
      end
  end.
End Serve.
