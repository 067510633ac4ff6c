(** Specification vocabulary for the values of a client's statements. *)
From Verif Require Import Prelude ScopeModel ScopeSpec StmtModel WorkloadModel WorkloadSpec ClientModel ClientSpec ValueModel.
#[local] Open Scope list_scope.

Section Spec.
  Context {G V : Type}.

  (** The calls of the inputs of statements, one entry for each statement. *)
  Definition groups (l : list (vlog G V)) : list (nat * runcount * list (suse V)) :=
    flat_map (fun x => match x with LUses i rc us => [(i, rc, us)] | LSave _ _ _ => [] end) l.

  (** The uses of one generator, in order, and what they returned. *)
  Definition of_ptr (p : nat) (us : list (suse V)) : list (suse V) := filter (fun u => Nat.eqb (u_ptr u) p) us.
  Definition uses_in (p : nat) (gs : list (nat * runcount * list (suse V))) : list (bool * runcount) :=
    flat_map (fun g => map (fun u => (u_explicit u, snd (fst g))) (of_ptr p (snd g))) gs.
  Definition values_in (p : nat) (gs : list (nat * runcount * list (suse V))) : list (list V) :=
    flat_map (fun g => map u_vals (of_ptr p (snd g))) gs.

  Definition ex_vals (e : event V) : list (option V) := match e with EvExec _ _ _ _ vals _ _ => vals | _ => [] end.

  (** The calls [g] are those made for the execution [e]: one for each input of the statement, and their values
      are what the statement is executed with, if each input returns as many values as it has placeholders. *)
  Definition made_for (c : client) (e : event V) (g : nat * runcount * list (suse V)) : Prop :=
    let '(i, rc, us) := g in
    ex_stmt e = i /\ ex_rc e = rc /\
    exists s d, nth_error (c_stmts c) i = Some s /\ nth_error (c_data c) i = Some d /\
      map (fun u => (u_ptr u, u_explicit u)) us = d_inputs d /\
      (fst (arities (st_inputs s)) = 0%nat -> map (fun u => List.length (u_vals u)) us = snd (arities (st_inputs s)) ->
       ex_vals e = placed (st_inputs s) (map u_vals us) []).

  (** Statement [i] has input [p] (explicit or not); scans into [p]. *)
  Definition inputs_at (c : client) (i p : nat) (ex : bool) : Prop :=
    exists d, nth_error (c_data c) i = Some d /\ In (p, ex) (d_inputs d).
  (** A statement with a result set scans the row into its outputs, any other the last insert id into its
      save-insert-id (client/client.go 286-344). *)
  Definition scans_into (s : stmt) (d : sdata) (p : nat) : Prop :=
    if st_resultset s then In (Some p) (d_outputs d) else d_insertId d = Some p.
  Definition saves_at (c : client) (i p : nat) : Prop :=
    exists s d, nth_error (c_stmts c) i = Some s /\ nth_error (c_data c) i = Some d /\ scans_into s d p.

  (** The executions [mid] and [e2] after [e1] belong to the same scope instance as [e1]: no trx began, no
      iteration began, no statement failed (which counts as a new connection, C60). *)
  Definition same_scope (sc : scope) (lens : list nat) (e1 : event V) (mid : list (event V)) (e2 : event V) : Prop :=
    match sc with
    | STrx => Forall (fun e => starts_trx lens e = false) (mid ++ [e2])
    | SIter => Forall (fun e => ex_stmt e <> 0%nat) (mid ++ [e2])
    | SClient => Forall (fun e => failed_exec e = false) (e1 :: mid)
    | _ => False
    end.

  (** No two calls of a generator return the same. *)
  Definition never_repeats (gvalues : G -> runcount -> G * list V) (g : G) : Prop :=
    forall cs, NoDup (snd (gen_run gvalues g cs)).
End Spec.

(** The state of generator [p] after the scans of the log: the last one scanned, at first [g]. *)
Fixpoint last_saved {G V : Type} (p : nat) (l : list (vlog G V)) (g : G) : G :=
  match l with
  | [] => g
  | LSave _ q g' :: l' => last_saved p l' (if Nat.eqb q p then g' else g)
  | _ :: l' => last_saved p l' g
  end.

(** A state of a column generator: Values returns what it holds and changes nothing (data/column.go 65-70). *)
Definition is_column {G V : Type} (gvalues : G -> runcount -> G * list V) (held : G -> list V) (g : G) : Prop :=
  forall rc, gvalues g rc = (g, held g).
