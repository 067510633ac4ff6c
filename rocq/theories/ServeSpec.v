(** What is claimed of running the stages of the command line; only the events of the model are
    mentioned. *)
From Verif Require Import Prelude ConfigModel ServeModel.
#[local] Open Scope list_scope.

(** The stage an event belongs to.  [ELocalEnd] is left out: with a remote that is counted twice
    the local instance may outlive its stage. *)
Definition stage_of (e : event) : option nat :=
  match e with
  | EDir i _ | EPrepare i _ _ _ | EPublish i | EBooted i _ | EFailed i _ | ERun i | ELocal i
  | EFinished i _ | EStop i | EEnd i | ETested i | EAbort i => Some i
  | ELocalEnd _ | ECancel | EReturn _ => None
  end.

(** The order of the events of one stage. *)
Definition rank (e : event) : nat :=
  match e with
  | EDir _ _ => 0 | EPrepare _ _ _ _ => 1 | EPublish _ => 2
  | EBooted _ _ | EFailed _ _ => 3
  | ERun _ => 4 | ELocal _ => 5
  | EFinished _ _ | EStop _ => 6
  | _ => 7
  end.
(** Events that can happen several times in a stage. *)
Definition repeats (e : event) : bool :=
  match e with EBooted _ _ | EFailed _ _ | EFinished _ _ | EStop _ => true | _ => false end.

(** [e] comes after [e'] as it should: not in an earlier stage; in the same stage, in order. *)
Definition in_order (e' e : event) : Prop :=
  match stage_of e', stage_of e with
  | Some j, Some i => j < i \/ (j = i /\ (rank e' < rank e \/ (rank e' = rank e /\ repeats e = true)))
  | _, _ => True
  end.

(** Who was counted as booted and as finished in stage [i]. *)
Fixpoint booted_by (i : nat) (es : list event) : list who :=
  match es with
  | [] => []
  | EBooted j w :: es' => if Nat.eqb j i then w :: booted_by i es' else booted_by i es'
  | _ :: es' => booted_by i es'
  end.
Fixpoint finished_by (i : nat) (es : list event) : list who :=
  match es with
  | [] => []
  | EFinished j w :: es' => if Nat.eqb j i then w :: finished_by i es' else finished_by i es'
  | _ :: es' => finished_by i es'
  end.

(** How a stage ends if neither an error nor CTRL-C intervenes. *)
Definition end_of (test : bool) (i : nat) : event := if test then ETested i else EEnd i.

(** Actions that bring a run of the local instance forward; CTRL-C, and seeing it in a select, are
    left out. *)
Definition forward (a : action) : bool :=
  match a with AServer false | ALocalDone _ => true | _ => false end.
