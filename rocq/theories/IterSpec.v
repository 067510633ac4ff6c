(** Specification vocabulary for iteration limits. *)
From Verif Require Import Prelude ListAux ScopeModel StmtModel WorkloadModel WorkloadSpec IterModel.

(** All clients of a stage with the (exec group, client group) they belong to. *)
Definition labelled (out : list (list (list client))) : list (nat * nat * client) :=
  concat (mapi_from (fun e css => concat (mapi_from (fun g cs => map (fun c => (e, g, c)) cs) 0 css)) 0 out).

(** Executed iterations of the clients of the client groups selected by [sel]. *)
Fixpoint iterations (sel : nat -> nat -> bool) (ls : list (nat * nat * client)) (ks : list icl) : N :=
  match ls, ks with
  | (e, g, _) :: ls', k :: ks' => ((if sel e g then ic_n k else 0) + iterations sel ls' ks')%N
  | _, _ => 0%N
  end.

(** All clients of the selected client groups have finished. *)
Definition all_finished (sel : nat -> nat -> bool) (ls : list (nat * nat * client)) (ks : list icl) : Prop :=
  forall j e g c k, nth_error ls j = Some (e, g, c) -> nth_error ks j = Some k -> sel e g = true -> ic_ph k = Finished.

(** Runs of a stage's clients: any interleaving of their steps.  (Stage.Run runs the exec groups one
    after the other; those runs are among the interleavings.) *)
Definition clients_run (out : list (list (list client))) (sched : list (nat * bool)) : option ist :=
  iter_run (iter_init (map snd (labelled out))) sched.

(** No client of the selected client groups stops but by an iteration limit. *)
Definition undisturbed (sel : nat -> nat -> bool) (ls : list (nat * nat * client)) (sched : list (nat * bool)) : Prop :=
  forall i b e g c, In (i, b) sched -> nth_error ls i = Some (e, g, c) -> sel e g = true -> b = false.

(** Number of clients of the selected client groups. *)
Definition clients_in (sel : nat -> nat -> bool) (ls : list (nat * nat * client)) : N :=
  N.of_nat (length (filter (fun l => sel (fst (fst l)) (snd (fst l))) ls)).

Definition one_group (e g : nat) : nat -> nat -> bool := fun e' g' => (Nat.eqb e e' && Nat.eqb g g')%bool.
Definition exec_group (e : nat) : nat -> nat -> bool := fun e' _ => Nat.eqb e e'.

(** Client groups of exec group [e] which set iter-exec-group, to at most [n]. *)
Definition limited (wl : list cgcfg) (gs : list (list nat)) (e : nat) (n : N) (e' g' : nat) : bool :=
  (Nat.eqb e e' && match cg_at wl gs e' g' with
                   | Some cg => ((0 <? cg_iterExecGroup cg) && (cg_iterExecGroup cg <=? n))%N
                   | None => false end)%bool.

(** Every trx of the workload has a statement. *)
Definition no_empty_trx (ts : trxset) (wl : list cgcfg) : Prop :=
  forall cg t, In cg wl -> In t (cg_trx cg) -> ts_stmts ts t <> [].
