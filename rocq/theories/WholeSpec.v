(** Vocabulary for a stage with its clients. *)
From Verif Require Import Prelude WorkloadModel ClientModel WholeModel.

Section Spec.
  Context {V : Type}.

  (** What Stage.Run did. *)
  Definition stage_events (tr : list (wevent V)) : list G.event := flat_map (fun e => match e with WS x => [x] | WC _ _ => [] end) tr.
  (** What client [c] did. *)
  Definition done_by (c : G.client) (tr : list (wevent V)) : list (event V) :=
    flat_map (fun e => match e with WS _ => [] | WC c' x => if G.client_eqb c c' then [x] else [] end) tr.

  (** What the clients did, each by its number among the clients of the stage. *)
  Definition numbered (out : list (list (list client))) (tr : list (wevent V)) : list (nat * event V) :=
    flat_map (fun e => match e with WS _ => [] | WC c x => [(idx out c, x)] end) tr.

  (** Neither the runtime of the stage has elapsed nor finch was stopped. *)
  Definition undisturbed (st : wst V) : Prop := G.s_elapsed (w_stage st) = false /\ G.s_stopped (w_stage st) = false.
  (** Stage.Run has returned. *)
  Definition returned (st : wst V) : Prop := G.s_pc (w_stage st) = G.Ended.
End Spec.
