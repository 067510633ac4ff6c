(** Vocabulary for C134: the end of a run. *)
From Verif Require Import Prelude WorkloadModel ClientModel LoopModel WholeModel WholeSpec ProgModel.

Section Final.
  Context {V : Type}.
  (** The run is over: no stage runs, and finch was stopped or there is no other stage (server.go 51-67). *)
  Definition run_over (stages : list (C.stage * list (list (list client)))) (st : pst V) : Prop :=
    (forall w, nth_error (p_sts st) (length (p_sts st) - 1) = Some w -> returned w) /\
    (p_stop st = true \/ length (p_sts st) = length stages).
  (** An action other than CTRL-C and the end of a runtime. *)
  Definition by_itself (a : paction V) : Prop :=
    match a with PStop | PStage _ (WStage (G.AElapse | G.AStop)) | PStage _ (WOver _ _) => False | _ => True end.
End Final.
