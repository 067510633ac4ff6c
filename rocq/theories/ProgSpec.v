(** Vocabulary for C133: the stages of a run. *)
From Verif Require Import Prelude WorkloadModel ClientModel LoopModel WholeModel HaltSpec ProgModel.

Section Prog.
  Context {V : Type}.
  (** What happened in stage [i]. *)
  Definition of_stage (i : nat) (tr : list (nat * wevent V)) : list (wevent V) :=
    flat_map (fun e => if Nat.eqb i (fst e) then [snd e] else []) tr.
  (** A step of client [x] of stage [i]; its steps begin when its context is done. *)
  Definition step_in (i : nat) (x : G.client) (a : paction V) : bool :=
    match a with PStage j a => (Nat.eqb i j && step_of x a)%bool | _ => false end.
  Definition saw_in (i : nat) (x : G.client) (a : paction V) : Prop :=
    match a with PStage j a => j = i -> client_saw x a | _ => True end.
End Prog.
