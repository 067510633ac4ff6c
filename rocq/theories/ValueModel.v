(** The values a client's statements get: the client of ClientModel.v with the scoped generators of ScopeModel.v. *)
From Verif Require Import Prelude ScopeModel StmtModel WorkloadModel ClientModel.
#[local] Open Scope list_scope.

(** One call of an element of Inputs: the generator, whether it is an explicit call (Call, not Values), and what
    it returned. *)
Record suse (V : Type) := SUse { u_ptr : nat; u_explicit : bool; u_vals : list V }.
Arguments SUse {V}.
Arguments u_ptr {V}.
Arguments u_explicit {V}.
Arguments u_vals {V}.

(** What happens to generators: the inputs of statement [i] are called with the counters [rc], or statement [i]
    scans a result into generator [p], whose state is then [g]. *)
Inductive vlog (G V : Type) :=
  | LUses (i : nat) (rc : runcount) (us : list (suse V))
  | LSave (i : nat) (p : nat) (g : G).
Arguments LUses {G V}.
Arguments LSave {G V}.

Section Values.
  Context {G V : Type}.
  (** Generator.Values of the wrapped generators. *)
  Variable gvalues : G -> runcount -> G * list V.
  (** The generators that only this client uses (statement, trx, iter and client scope, by C01).  The other ones
      are used by other clients at the same time: what they return is given by the environment ([v_inputs]). *)
  Variable own : nat -> bool.
  (** The scope and the first state of each generator. *)
  Variable gscope : nat -> scope.
  Variable gen0 : nat -> G.

  Definition world : Type := nat -> sg G V.
  Definition world_init : world := fun p => sg_new (gscope p) (gen0 p).

  (** client.go 268-275: the values of the inputs, in order; [rc] are the counters at this time. *)
  Fixpoint use_inputs (w : world) (ins : list (nat * bool)) (rc : runcount) (others : list (list V))
    : world * list (suse V) :=
    match ins with
    | [] => (w, [])
    | (p, ex) :: ins' =>
      let '(w1, v) :=
        if own p then let '(s, v) := sg_use _ _ gvalues (w p) (Use ex rc) in (natupd w p s, v)
        else (w, hd [] others) in
      let '(w2, us) := use_inputs w1 ins' rc (tl others) in
      (w2, SUse p ex v :: us)
    end.

  (** data/scope.go 193, [Scan]: the wrapped generator gets the value, nothing else changes. *)
  Definition sg_set (s : sg G V) (g : G) : sg G V :=
    SG (sg_cls _ _ s) g (sg_last _ _ s) (sg_vals _ _ s) (sg_iter _ _ s) (sg_cgvals _ _ s).

  (** The generators into which a statement scans: the columns of a SELECT (client.go 293-304) or else the insert
      id (340-343). *)
  Definition somes {A} (l : list (option A)) : list A := flat_map (fun o => match o with Some x => [x] | None => [] end) l.
  Definition save_ptrs (s : stmt) (d : sdata) : list nat :=
    if st_resultset s then somes (d_outputs d) else somes [d_insertId d].

  (** [sv p] is the state of generator [p] after the statement's scans, [None] if it was not scanned into (no row,
      the query failed).  Simplification: the environment may also say so of a failed query. *)
  Fixpoint save_all (i : nat) (w : world) (ps : list nat) (sv : nat -> option G) : world * list (vlog G V) :=
    match ps with
    | [] => (w, [])
    | p :: ps' =>
      match sv p with
      | None => save_all i w ps' sv
      | Some g => let '(w', l) := save_all i (natupd w p (sg_set (w p) g)) ps' sv in (w', LSave i p g :: l)
      end
    end.

  (** client.go 247-256, 268-275: the counters that the inputs are called with. *)
  Definition input_rc (rc : runcount) (d : sdata) : runcount :=
    RC (rc_statement rc + 1) (if d_begin d then rc_trx rc + 1 else rc_trx rc) (rc_iter rc) (rc_conn rc)
       (rc_client rc) (rc_cg rc) (rc_eg rc) (rc_stage rc).

  Definition with_inputs (se : senv V) (ins : list (list V)) : senv V :=
    SEnv ins (v_more se) (v_res se) (v_scan se) (v_ctx se) (v_conn se).

  (** One step of the client (240-357) with its generators.  An idle time uses none (241-245). *)
  Definition vstep (c : client) (st : cst V) (pc : cpc) (w : world) (inp : cinput V * (nat -> option G))
    : option (cst V * cpc * world * list (event V) * list (vlog G V)) :=
    let plain :=
      match cstep c st pc (fst inp) with
      | Some (st', pc', evs) => Some (st', pc', w, evs, [])
      | None => None
      end in
    match pc, fst inp with
    | PcStmt i, IStmt se =>
      match nth_error (c_stmts c) i, nth_error (c_data c) i with
      | Some s, Some d =>
        if negb (st_idle s =? 0)%Z then plain
        else
          let rc := input_rc (s_rc st) d in
          let '(w1, us) := use_inputs w (d_inputs d) rc (v_inputs se) in
          match cstep c st pc (IStmt (with_inputs se (map u_vals us))) with
          | Some (st', pc', evs) =>
            let '(w2, l) := save_all i w1 (save_ptrs s d) (snd inp) in
            Some (st', pc', w2, evs, LUses i rc us :: l)
          | None => None
          end
      | _, _ => plain
      end
    | _, _ => plain
    end.

  Fixpoint vrun_from (c : client) (st : cst V) (pc : cpc) (w : world) (inps : list (cinput V * (nat -> option G)))
    : option (cst V * cpc * world * list (event V) * list (vlog G V)) :=
    match inps with
    | [] => Some (st, pc, w, [], [])
    | inp :: inps' =>
      match vstep c st pc w inp with
      | None => None
      | Some (st1, pc1, w1, e1, l1) =>
        match vrun_from c st1 pc1 w1 inps' with
        | None => None
        | Some (st2, pc2, w2, e2, l2) => Some (st2, pc2, w2, e1 ++ e2, l1 ++ l2)
        end
      end
    end.

  Definition vrun (c : client) (inps : list (cinput V * (nat -> option G))) :=
    vrun_from c (client_init c) PcStart world_init inps.
End Values.
