(** Specification vocabulary for the values that the clients of a run execute their statements with, by the names
    of the data keys. *)
From Verif Require Import Prelude ScopeModel ScopeSpec StmtModel WorkloadModel WorkloadSpec ClientModel ClientSpec
  ValueModel ValueSpec.
#[local] Open Scope list_scope.

(** The scope of a generator that the allocation made. *)
Definition scope_of (w : wst) (p : nat) : scope :=
  match nth_error (s_heap (w_sc w)) p with Some i => id_scope i | None => SGlobal end.
(** The generators with a scope of one client. *)
Definition own_of (w : wst) (p : nat) : bool :=
  match scope_of w p with SStatement | STrx | SIter | SClient => true | _ => false end.

(** Client [k] of client group [g] of exec group [e] of the [a]-th stage, numbered [n]; its trx have [lens]
    statements. *)
Definition client_of (sts : list stagecfg) (outs : list (list (list (list client)))) (a e g k : nat)
  (n : N) (c : client) (lens : list nat) : Prop :=
  exists st out wl gs cg, nth_error sts a = Some st /\ nth_error outs a = Some out /\
    WorkloadModel.groups (sg_ts st) (sg_wl st) = Some (wl, gs) /\ cg_at wl gs e g = Some cg /\
    client_at out e g k = Some c /\ n = sg_N st /\ lens = trx_lens (sg_ts st) cg.

(** The place of input slot [j] of statement [i] of this client. *)
Definition place_of (e g k : nat) (n : N) (lens : list nat) (i j : nat) : place := Place n e g k (block_index lens i) i j.

(** No statement of the client saves key [key]; calls it explicitly. *)
Definition never_saved (c : client) (key : string) : Prop :=
  forall s, In s (c_stmts c) -> ~ In key (st_outputs s) /\ st_insertId s <> key.
Definition never_called (c : client) (key : string) : Prop :=
  forall s j, In s (c_stmts c) -> nth_error (st_inputs s) j = Some key -> nth_error (st_calls s) j <> Some true.
(** No statement of the client uses a globally scoped key (those have no values, C02). *)
Definition no_global (ks : string -> option ScopeModel.key) (c : client) : Prop :=
  forall s key, In s (c_stmts c) -> In key (st_inputs s) -> scope_in ks key <> Some SGlobal.

(** Each generator returns as many values as its key has placeholders. *)
Definition sized {G V} (c : client) (l : list (vlog G V)) : Prop :=
  forall i rc us s, In (i, rc, us) (groups l) -> nth_error (c_stmts c) i = Some s ->
    fst (arities (st_inputs s)) = 0%nat /\ map (fun u => List.length (u_vals u)) us = snd (arities (st_inputs s)).

(** The values that a statement is executed with for the key at slot [j]: its own and those for the @PREV after it. *)
Fixpoint prevs (ins : list string) : nat :=
  match ins with k :: ins' => if String.eqb k PREV then S (prevs ins') else 0%nat | [] => 0%nat end.
Definition vals_at {V} (s : stmt) (j : nat) (e : event V) : list (option V) :=
  firstn (S (prevs (skipn (S j) (st_inputs s)))) (skipn j (ex_vals e)).

(** Execution [e] is of a statement with key [key] at slot [j]. *)
Definition exec_uses {V} (c : client) (e : event V) (s : stmt) (j : nat) (key : string) : Prop :=
  nth_error (c_stmts c) (ex_stmt e) = Some s /\ nth_error (st_inputs s) j = Some key.

(** Statement [s] saves key [key]. *)
Definition saves_key (s : stmt) (key : string) : Prop := In key (st_outputs s) \/ st_insertId s = key.
(** In each trx, the statements that use key [key] come after those that save it. *)
Definition saved_before_use (c : client) (lens : list nat) (key : string) : Prop :=
  forall i j s t, nth_error (c_stmts c) i = Some s -> nth_error (c_stmts c) j = Some t ->
    block_index lens i = block_index lens j -> In key (st_inputs s) -> saves_key t key -> (j < i)%nat.
