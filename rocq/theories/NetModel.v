(** Model of a whole run with remote instances: the server (ApiModel.v), any number of remotes
    (RemoteModel.v) and what the network does with their requests (proto/proto.go 55-105).

    A remote's request to /boot or /run is sent in attempts.  An attempt may never reach the server,
    reach it after the remote has given it up, be refused, or get a handler; a handler's answer reaches
    the remote after the handler has returned (net/http keeps small responses until then), or never.
    The remote may give up an attempt at any time and try again.  Processes may be started again after
    they ended.  Pings, statistics and requests for files are sent at any time by anyone, and how a ping
    is answered is left open.  All of this, and the schedule, is chosen freely, as [action]s. *)
From Verif Require Import Prelude ConfigModel.
From Verif Require ApiModel RemoteModel ProtoModel.
#[local] Open Scope string_scope.
#[local] Open Scope list_scope.

Module A := ApiModel.
Module R := RemoteModel.

(** An attempt of a request: its request and stage ID, what is left of its body, its number, and the
    handler it has got. *)
Record flight := Fl { f_req : R.request; f_sid : string; f_buf : string; f_try : nat; f_conn : option nat }.

(** A remote with its request in flight; [m_stage]: the server's stage whose configuration it got (not
    in the code, which only knows its ID). *)
Record remote := Rem { m_st : R.state; m_fl : option flight; m_stage : option nat }.

(** [w_body i], [w_ans i]: the body of the request of handler [i]; its answer, a status and the stage
    sent; [w_stray]: attempts given up that may still reach the server. *)
Record state := St {
  w_srv : A.state; w_rem : nat -> remote; w_body : nat -> string; w_ans : nat -> option (nat * option nat);
  w_stray : list (A.request * string) }.

(** [ER r m e]: an event of remote [r], which has stage [m]. *)
Inductive event := ES (e : A.event) | ER (r : nat) (stage : option nat) (e : R.event).

Inductive action :=
| NServer (a : A.action)                       (* not a request or a handler *)
| NNoise (q : A.request) (body : string)       (* a ping, statistics or request for a file *)
| NStart (r : nat)                             (* the process is started (again) *)
| NLocal (r : nat) (a : R.action)              (* not an answer to a request in flight *)
| NArrive (r : nat) (read : nat)               (* the attempt reaches the server *)
| NStray (k : nat)                             (* an attempt given up reaches the server *)
| NHandle (i : nat) (readok ok : bool)         (* a step of a handler *)
| NReceive (r : nat) (read : nat)              (* the answer reaches the remote *)
| NFail (r : nat) (read : nat) (late : bool)   (* the attempt is given up *)
| NGive (r : nat).                             (* the request ends with another error *)

Section Net.
(** --test; the names of the remotes; the configuration of each stage of the server; the text of boot
    errors. *)
Variables (test : bool) (name : nat -> string) (cfg : nat -> stage) (addr msg : string).

(** proto.go 107-119 *)
Definition http (r : nat) (f : flight) : A.request :=
  let q m p := A.Req m p (Some (name r)) (Some (f_sid f)) None None in
  match f_req f with
  | R.GetBoot => q A.GET A.PBoot
  | R.PostBoot _ => q A.POST A.PBoot
  | R.GetRun => q A.GET A.PRun
  | R.PostRun => q A.POST A.PRun
  | R.GetPing => q A.GET A.PPing
  end.

(** The numbers of tries, client.go 68, 119, 124, 135, 177; [None]: no limit. *)
Definition tries (q : R.request) : option nat :=
  match q with
  | R.GetBoot => None
  | R.PostBoot true => Some 3
  | R.PostBoot false => Some 10
  | R.GetRun => Some 3
  | R.PostRun => Some 3
  | R.GetPing => Some 5
  end%nat.
(** The body, client.go 119, 124, 177 (err is nil there). *)
Definition content (q : R.request) : string :=
  match q with R.PostBoot true => ProtoModel.json_error msg | _ => "" end.

(** The request sent in a step of Client.run. *)
Fixpoint sends (es : list R.event) : option flight :=
  match es with
  | [] => None
  | R.QSend R.GetPing _ :: es' => sends es'
  | R.QSend q sid :: _ => Some (Fl q sid (content q) 1 None)
  | _ :: es' => sends es'
  end.

Definition with_rem (w : state) (r : nat) (m : remote) : state :=
  St (w_srv w) (A.upd (w_rem w) r m) (w_body w) (w_ans w) (w_stray w).

(** A step of Client.run; [fl]: the flight if no request is sent; [stage]: as in [m_stage]. *)
Definition advance (w : state) (r : nat) (a : R.action) (fl : option flight) (stage : option nat)
    : option (state * list event) :=
  match R.step addr (name r) (m_st (w_rem w r)) a with
  | None => None
  | Some (st, es) =>
      let fl' := match sends es with Some f => Some f | None => fl end in
      Some (with_rem w r (Rem st fl' stage), map (ER r stage) es)
  end.

(** request returns: an answer for Client.run. *)
Definition answer (w : state) (r : nat) (a : R.answer) (sent : option nat) : option (state * list event) :=
  match R.m_phase (m_st (w_rem w r)), sent with
  | R.WaitBoot, Some m =>
      advance w r (R.ABoot a (Some (A.g_id (A.s_metas (w_srv w) m), cfg m))) None (Some m)
  | R.WaitBoot, None => advance w r (R.ABoot a None) None (m_stage (w_rem w r))
  | _, _ => advance w r (R.AAnswer a) None (m_stage (w_rem w r))
  end.

(** proto.go 65, 92-103: the next attempt, or ErrFailed. *)
Definition retry (w : state) (r : nat) (f : flight) (read : nat) : option (state * list event) :=
  if match tries (f_req f) with Some n => Nat.leb n (f_try f) | None => false end
  then answer w r R.Failed None
  else
    let m := w_rem w r in
    let f' := Fl (f_req f) (f_sid f) (ProtoModel.sdrop read (f_buf f)) (S (f_try f)) None in
    Some (with_rem w r (Rem (m_st m) (Some f') (m_stage m)), []).

Definition with_srv (w : state) (s : A.state) : state := St s (w_rem w) (w_body w) (w_ans w) (w_stray w).

(** A request with a body gets a handler, or is refused. *)
Definition arrive (w : state) (q : A.request) (body : string) : state * list A.event :=
  let '(s, es) := A.request_step (w_srv w) q in
  let i := A.s_nthreads (w_srv w) in
  (St s (w_rem w) (A.upd (w_body w) i body) (A.upd (w_ans w) i None) (w_stray w), es).

Definition main_path (p : A.path) : bool := match p with A.PBoot | A.PRun => true | _ => false end.

(** The answer in the events of a handler. *)
Fixpoint answered (es : list A.event) : option (nat * option nat) :=
  match es with
  | [] => None
  | A.EAssigned m _ ok :: _ => if ok then Some (200%nat, Some m) else None
  | A.EResp _ _ _ code :: _ => Some (code, None)
  | _ :: es' => answered es'
  end.

Fixpoint remove_nth {X} (k : nat) (l : list X) : list X :=
  match k, l with
  | O, _ :: l' => l'
  | S k', x :: l' => x :: remove_nth k' l'
  | _, [] => []
  end.

Definition step (w : state) (a : action) : option (state * list event) :=
  match a with
  | NServer (A.ARequest _) | NServer (A.AThread _ _ _) => None
  | NServer a =>
      match A.step test (w_srv w) a with
      | None => None
      | Some (s, es) => Some (with_srv w s, map ES es)
      end
  | NNoise q body =>
      if main_path (A.q_path q) then None
      else let '(w', es) := arrive w q body in Some (w', map ES es)
  | NStart r =>
      match R.m_phase (m_st (w_rem w r)) with
      | R.Returned _ =>
          Some (with_rem w r (Rem R.init (sends R.first) None), map (ER r None) R.first)
      | _ => None
      end
  | NLocal r a =>
      match a with
      | R.ABoot _ _ | R.AAnswer _ => None
      | _ => advance w r a (m_fl (w_rem w r)) (m_stage (w_rem w r))
      end
  | NArrive r read =>
      match m_fl (w_rem w r) with
      | Some f =>
          match f_conn f with
          | Some _ => None
          | None =>
              let q := http r f in
              let '(w1, es) := arrive w q (f_buf f) in
              match A.api_client (w_srv w) q with
              | A.Refused _ =>
                  match retry w1 r f read with
                  | None => None
                  | Some (w2, es2) => Some (w2, map ES es ++ es2)
                  end
              | _ =>
                  let m := w_rem w r in
                  let f' := Fl (f_req f) (f_sid f) (f_buf f) (f_try f) (Some (A.s_nthreads (w_srv w))) in
                  Some (with_rem w1 r (Rem (m_st m) (Some f') (m_stage m)), map ES es)
              end
          end
      | None => None
      end
  | NStray k =>
      match nth_error (w_stray w) k with
      | None => None
      | Some (q, body) =>
          let '(w', es) := arrive w q body in
          Some (St (w_srv w') (w_rem w') (w_body w') (w_ans w') (remove_nth k (w_stray w)), map ES es)
      end
  | NHandle i readok ok =>
      match A.step test (w_srv w) (A.AThread i (if readok then Some (w_body w i) else None) ok) with
      | None => None
      | Some (s, es) =>
          let ans := match answered es with Some x => A.upd (w_ans w) i (Some x) | None => w_ans w end in
          Some (St s (w_rem w) (w_body w) ans (w_stray w), map ES es)
      end
  | NReceive r read =>
      match m_fl (w_rem w r) with
      | Some f =>
          match f_conn f with
          | Some i =>
              match A.s_threads (w_srv w) i, w_ans w i with
              | None, Some (code, sent) =>
                  if Nat.eqb code 200 then answer w r R.OK sent
                  else if Nat.eqb code 205 then answer w r R.Again sent
                  else retry w r f read
              | _, _ => None
              end
          | None => None
          end
      | None => None
      end
  | NFail r read late =>
      match m_fl (w_rem w r) with
      | Some f =>
          let w1 := match f_conn f, late with
                    | None, true => St (w_srv w) (w_rem w) (w_body w) (w_ans w) (w_stray w ++ [(http r f, f_buf f)])
                    | _, _ => w
                    end in
          retry w1 r f read
      | None => None
      end
  | NGive r =>
      match m_fl (w_rem w r) with
      | Some f => answer w r R.Failed None
      | None => None
      end
  end.

(** No process has been started. *)
Definition init : state :=
  St A.init (fun _ => Rem (R.St (R.Returned false) R.NoPing "" false false) None None)
     (fun _ => "") (fun _ => None) [].

Fixpoint run (w : state) (l : list action) : option (state * list event) :=
  match l with
  | [] => Some (w, [])
  | a :: l' =>
      match step w a with
      | None => None
      | Some (w1, es) => match run w1 l' with Some (w2, es') => Some (w2, es ++ es') | None => None end
      end
  end.
End Net.
