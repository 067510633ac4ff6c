(** What the properties of a run with remote instances say. *)
From Verif Require Import Prelude ConfigModel NetModel.
From Verif Require ApiSpec.

(** No two remotes have the same name; the server leaves line breaks out of names. *)
Definition distinct (name : nat -> string) : Prop := forall r r', A.clean (name r) = A.clean (name r') -> r = r'.

(** The attempt has no handler, or its handler has returned. *)
Definition ended (w : state) (f : flight) : Prop :=
  forall i, f_conn f = Some i -> A.s_threads (w_srv w) i = None.

(** No attempt is given up that is being handled, but for requests for the run signal, and no part of
    a report of a boot error is read by an attempt that fails. *)
Definition patient (w : state) (a : action) : Prop :=
  match a with
  | NFail r read late => forall f, m_fl (w_rem w r) = Some f -> f_req f <> R.GetRun ->
      ended w f /\ late = false /\ (f_req f = R.PostBoot true -> read = O)
  | NGive r => forall f, m_fl (w_rem w r) = Some f -> f_req f <> R.GetRun -> ended w f
  | NArrive r read | NReceive r read => forall f, m_fl (w_rem w r) = Some f -> f_req f = R.PostBoot true -> read = O
  | _ => True
  end.

(** Anything happens. *)
Definition any (w : state) (a : action) : Prop := True.

Section Net.
Variables (test : bool) (name : nat -> string) (cfg : nat -> stage) (addr msg : string).

(** The states a run can get into, with everything observed until then. *)
Inductive reach (ok : state -> action -> Prop) : state -> list event -> Prop :=
| reach_init : reach ok init []
| reach_step w tr a w' es :
    reach ok w tr -> ok w a -> step test name cfg addr msg w a = Some (w', es) -> reach ok w' (tr ++ es).
End Net.

(** The server's part of what is observed. *)
Definition server (tr : list event) : list A.event :=
  flat_map (fun e => match e with ES e => [e] | _ => [] end) tr.
