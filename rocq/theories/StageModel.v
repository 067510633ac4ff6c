(** Model of running a stage: Stage.Run (stage/stage.go 118-235).

    The loop and its clients run concurrently; the schedule is chosen freely, as [action]s.  Of a client
    only its life is modelled: it runs, finishes (client.go 177-196) and sends itself to the channel
    doneChan, of capacity 1 (stage.go 42).  When it finishes is chosen freely: that depends on its
    iterations and its contexts, so client groups and their runtimes (stage.go 150-162) are left out,
    as are statistics, logging and errors. *)
From Verif Require Import Prelude.
#[local] Open Scope list_scope.

(** Client [i] of exec group [g]. *)
Definition client := (nat * nat)%type.
Definition client_eqb (a b : client) : bool := (Nat.eqb (fst a) (fst b) && Nat.eqb (snd a) (snd b))%bool.
(** The clients of exec group [g] that has [n] of them. *)
Definition clients (g n : nat) : list client := map (fun i => (g, i)) (seq 0 n).

(** Where Stage.Run is: at the head of the loop over exec groups, starting clients, waiting for
    [n] clients, spinning, or at its end. *)
Inductive pc :=
| Head (g : nat)
| Start (g : nat) (todo : list client)
| Wait (g n : nat)
| Spin (g n ms : nat)
| Ended.

(** [s_run]: the clients that run; [s_send]: that have finished and wait to send to doneChan;
    [s_chan]: doneChan; [s_elapsed]: the stage's runtime has elapsed; [s_stopped]: ctxFinch is done. *)
Record state := St { s_pc : pc; s_run : list client; s_send : list client; s_chan : list client; s_elapsed : bool; s_stopped : bool }.

Inductive event := EStart (c : client) | EFinish (c : client) | ECount (c : client) | EEnd.

(** [AStage true]: a select takes a branch of the contexts. *)
Inductive action := AStage (ctx : bool) | AFinish (c : client) | ASend (c : client) | AElapse | AStop.

Section Run.
(** The number of clients of every exec group. *)
Variable groups : list nat.

Definition with_pc (s : state) (p : pc) : state := St p (s_run s) (s_send s) (s_chan s) (s_elapsed s) (s_stopped s).
Definition with_chan (s : state) (p : pc) (l : list client) : state := St p (s_run s) (s_send s) l (s_elapsed s) (s_stopped s).

(** One step of Stage.Run. *)
Definition stage_step (s : state) (ctx : bool) : option (state * list event) :=
  match s_pc s with
  (* stage.go 145-148, 224-226 *)
  | Head g =>
      match nth_error groups g with
      | None => Some (with_pc s Ended, [EEnd])
      | Some n => if s_stopped s then Some (with_pc s Ended, [EEnd]) else Some (with_pc s (Start g (clients g n)), [])
      end
  (* stage.go 150-170 *)
  | Start g (c :: todo) =>
      Some (St (Start g todo) (s_run s ++ [c]) (s_send s) (s_chan s) (s_elapsed s) (s_stopped s), [EStart c])
  | Start g [] =>
      match nth_error groups g with
      | None => None
      | Some n => Some (with_pc s (Wait g n), [])
      end
  (* stage.go 173-191 *)
  | Wait g O => Some (with_pc s (Head (S g)), [])
  | Wait g (S n) =>
      if ctx then
        if (s_elapsed s || s_stopped s)%bool then Some (with_pc s (Spin g (S n) 10), []) else None
      else
        match s_chan s with
        | [] => None
        | c :: l => Some (with_chan s (Wait g n) l, [ECount c])
        end
  (* stage.go 192-215 *)
  | Spin g n ms =>
      match n, ms with
      | S n', S ms' =>
          match s_chan s with
          | [] => Some (with_pc s (Spin g n ms'), [])
          | c :: l => Some (with_chan s (Spin g n' ms) l, [ECount c])
          end
      | _, _ => Some (with_pc s (Head (S g)), [])
      end
  | Ended => None
  end.

Fixpoint del (c : client) (l : list client) : list client :=
  match l with
  | [] => []
  | x :: l' => if client_eqb x c then l' else x :: del c l'
  end.

Definition step (s : state) (a : action) : option (state * list event) :=
  match a with
  | AStage ctx => stage_step s ctx
  | AFinish c =>
      if existsb (client_eqb c) (s_run s)
      then Some (St (s_pc s) (del c (s_run s)) (s_send s ++ [c]) (s_chan s) (s_elapsed s) (s_stopped s), [EFinish c])
      else None
  | ASend c =>
      if (existsb (client_eqb c) (s_send s) && Nat.ltb (List.length (s_chan s)) 1)%bool
      then Some (St (s_pc s) (s_run s) (del c (s_send s)) (s_chan s ++ [c]) (s_elapsed s) (s_stopped s), [])
      else None
  | AElapse =>
      if s_elapsed s then None else Some (St (s_pc s) (s_run s) (s_send s) (s_chan s) true (s_stopped s), [])
  | AStop =>
      if s_stopped s then None else Some (St (s_pc s) (s_run s) (s_send s) (s_chan s) (s_elapsed s) true, [])
  end.

Fixpoint run (s : state) (l : list action) : option (state * list event) :=
  match l with
  | [] => Some (s, [])
  | a :: l' =>
      match step s a with
      | None => None
      | Some (s1, es) => match run s1 l' with None => None | Some (s2, es') => Some (s2, es ++ es') end
      end
  end.

Definition init : state := St (Head 0) [] [] [] false false.
End Run.
