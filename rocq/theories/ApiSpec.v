(** What the properties of the client-server protocol say. *)
From Verif Require Import Prelude ConfigModel ApiModel.

(** The states a server can get into, with everything observed until then; [ok] restricts the
    actions. *)
Inductive reach (test : bool) (ok : state -> action -> Prop) : state -> list event -> Prop :=
| reach_init : reach test ok init []
| reach_step s tr a s' es :
    reach test ok s tr -> ok s a -> step test s a = Some (s', es) -> reach test ok s' (tr ++ es).

(** Any requests in any order. *)
Definition any (s : state) (a : action) : Prop := True.

(** The requests a remote must not overlap, and their handlers. *)
Definition main_request (q : request) : bool :=
  match q_path q with PBoot => true | PRun => negb (is_get q) | _ => false end.
Definition main_pc (p : pc) : bool :=
  match p with
  | FileCheck _ _ | StatsCheck | StatsRead | PingDone
  | GetRunCheck | GetRunWait | GetRunDone | GetRunWrite | GetRunSet => false
  | _ => true
  end.

(** A remote asks for a stage and reports that it has booted, and run, one after the other.  It asks
    for the run signal, pings the server, sends statistics and fetches files whenever it likes. *)
Definition sequential (s : state) (a : action) : Prop :=
  match a with
  | ARequest q =>
      main_request q = true ->
      forall i c p, s_threads s i = Some (c, p) -> main_pc p = true ->
        Some (r_name (s_rcs s c)) <> option_map clean (q_name q)
  | _ => True
  end.

(** The instances counted as booted, and as finished, for stage [m]. *)
Definition counted (m : nat) (tr : list event) : list (option string) :=
  flat_map (fun e => match e with ECount m' w => if Nat.eqb m m' then [w] else [] | _ => [] end) tr.
Definition finished (m : nat) (tr : list event) : list (option string) :=
  flat_map (fun e => match e with EFinished m' w => if Nat.eqb m m' then [w] else [] | _ => [] end) tr.

(** The same number of live handlers, stages and clients, but for the handler itself: what a
    refused request leaves. *)
Definition same_stages (s s' : state) : Prop :=
  s_cur s' = s_cur s /\ (forall m, s_metas s' m = s_metas s m) /\ (forall c, s_rcs s' c = s_rcs s c)
  /\ s_server s' = s_server s /\ s_locals s' = s_locals s.
