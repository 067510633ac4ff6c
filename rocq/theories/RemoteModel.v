(** Model of a remote instance: Client.run (compute/client.go 63-185).

    The answers of the server, the outcomes of the functions called and the schedule are chosen
    freely, as [action]s.  A request is one step here: its attempts are ProtoModel's, getTrxFiles is
    ProtoModel's too and only succeeds or fails here.  Prepare succeeds or fails, Run of the local
    stage ends at any time.  Logging and the temporary directory's removal are left out. *)
From Verif Require Import Prelude ConfigModel.
#[local] Open Scope string_scope.
#[local] Open Scope list_scope.

(** What Client.Get returns without an error is a status of 200 or 205 (proto.go 86-93); [Failed]:
    an error. *)
Inductive answer := OK | Again | Failed.

Inductive request :=
| GetBoot | GetRun | GetPing
| PostBoot (err : bool)    (* with an error, or without data *)
| PostRun.

(** Where Client.run is. *)
Inductive phase :=
| WaitBoot                                 (* GET /boot, 67-73 *)
| Files (id : string) (c : stage)          (* 83-94 *)
| Collector (id : string) (c : stage)      (* 98-112 *)
| Prepare (id : string) (c : stage)        (* 114-116 *)
| SendErr (id : string)                    (* 118-119 *)
| SendOK (id : string)                     (* 122-127 *)
| WaitRun (id : string)                    (* 132-141 *)
| Running (id : string)                    (* 172 *)
| SendDone (id : string)                   (* 176-180 *)
| Returned (err : bool).

(** The goroutine of 149-170: not started, sleeping, waiting for the answer to a ping, ended. *)
Inductive ping := NoPing | Sleeping | Pinging | PingEnded.

(** [m_run]: ctxRun is cancelled by cancelRun; [m_ctrl_c]: ctxFinch is done, and so ctxRun. *)
Record state := St { m_phase : phase; m_ping : ping; m_sid : string; m_run : bool; m_ctrl_c : bool }.

(** [QSend]: a request with the stage ID it names (proto.go 107-119); [QReporters]: the reporters of
    the collector with their options; [QStop]: ctxRun is cancelled by the goroutine. *)
Inductive event :=
| QSend (q : request) (sid : string)
| QAnswer (q : request) (a : answer)
| QStage (id : string) (c : stage)
| QFiles (ok : bool)
| QReporters (r : smap (smap string)) (ok : bool)
| QPrepare (c : stage) (ok : bool)
| QRun | QRunEnd | QStop | QCtrlC
| QReturn (err : bool).

(** What happens; [ABoot a b]: the answer to GET /boot, [b]: the stage decoded from its body;
    [AOutcome]: the function called succeeded or not; [AAnswer]: the answer to the request of
    Client.run; [AWake]: the goroutine wakes; [APong]: its ping is answered. *)
Inductive action :=
| ABoot (a : answer) (b : option (string * stage))
| AOutcome (ok : bool)
| AAnswer (a : answer)
| ARunEnd
| AWake
| APong (a : answer)
| ACtrlC.

Section Remote.
(** The server's address and the name of the instance. *)
Variables addr name : string.

(** client.go 98-108: all reporters but stdout are deleted, and one for the server is added. *)
Definition reporters (id : string) (r : smap (smap string)) : smap (smap string) :=
  sset "server" [("server", addr); ("client", name); ("stage-id", id)]
       (filter (fun kv => String.eqb (fst kv) "stdout") r).

Definition goto (s : state) (p : phase) : state := St p (m_ping s) (m_sid s) (m_run s) (m_ctrl_c s).
(** Returning: StageId is cleared (client.go 79), doneChan is closed if it was made. *)
Definition leave (s : state) (err : bool) : state := St (Returned err) (m_ping s) "" (m_run s) (m_ctrl_c s).

Definition step (s : state) (a : action) : option (state * list event) :=
  match a, m_phase s with
  | ABoot ans b, WaitBoot =>
      let e := QAnswer GetBoot ans in
      match ans, b with
      | Failed, _ | _, None => Some (leave s true, [e; QReturn true])
      | _, Some (id, c) =>
          Some (St (Files id c) (m_ping s) id (m_run s) (m_ctrl_c s), [e; QStage id c])
      end
  | AOutcome ok, Files id c =>
      if ok then Some (goto s (Collector id c), [QFiles true])
      else Some (leave s true, [QFiles false; QReturn true])
  | AOutcome ok, Collector id c =>
      let r := reporters id (st_report (s_stats c)) in
      if ok then Some (goto s (Prepare id c), [QReporters r true])
      else Some (leave s true, [QReporters r false; QReturn true])
  | AOutcome ok, Prepare id c =>
      if ok then Some (goto s (SendOK id), [QPrepare c true; QSend (PostBoot false) (m_sid s)])
      else Some (goto s (SendErr id), [QPrepare c false; QSend (PostBoot true) (m_sid s)])
  | AAnswer ans, SendErr id => Some (leave s true, [QAnswer (PostBoot true) ans; QReturn true])
  | AAnswer ans, SendOK id =>
      match ans with
      | Failed => Some (leave s true, [QAnswer (PostBoot false) ans; QReturn true])
      | _ => Some (goto s (WaitRun id), [QAnswer (PostBoot false) ans; QSend GetRun (m_sid s)])
      end
  | AAnswer ans, WaitRun id =>
      match ans with
      | OK => Some (St (Running id) Sleeping (m_sid s) (m_run s) (m_ctrl_c s), [QAnswer GetRun ans; QRun])
      | Again => Some (leave s false, [QAnswer GetRun ans; QReturn false])
      | Failed => Some (leave s true, [QAnswer GetRun ans; QReturn true])
      end
  | ARunEnd, Running id => Some (goto s (SendDone id), [QRunEnd; QSend PostRun (m_sid s)])
  | AAnswer ans, SendDone id => Some (leave s false, [QAnswer PostRun ans; QReturn false])
  | AWake, p =>
      match m_ping s, p with
      | Sleeping, Returned _ => Some (St p PingEnded (m_sid s) true (m_ctrl_c s), [QStop])
      | Sleeping, _ => Some (St p Pinging (m_sid s) (m_run s) (m_ctrl_c s), [QSend GetPing (m_sid s)])
      | _, _ => None
      end
  | APong ans, p =>
      match m_ping s, ans with
      | Pinging, OK => Some (St p Sleeping (m_sid s) (m_run s) (m_ctrl_c s), [QAnswer GetPing OK])
      | Pinging, _ => Some (St p PingEnded (m_sid s) true (m_ctrl_c s), [QAnswer GetPing ans; QStop])
      | _, _ => None
      end
  | ACtrlC, p => Some (St p (m_ping s) (m_sid s) (m_run s) true, [QCtrlC])
  | _, _ => None
  end.

(** Client.Run begins with the request for a stage, whose ID is not known. *)
Definition init : state := St WaitBoot NoPing "" false false.
Definition first : list event := [QSend GetBoot ""].

Fixpoint run (s : state) (l : list action) : option (state * list event) :=
  match l with
  | [] => Some (s, [])
  | a :: l' =>
      match step s a with
      | None => None
      | Some (s1, es) => match run s1 l' with Some (s2, es') => Some (s2, es ++ es') | None => None end
      end
  end.
End Remote.
