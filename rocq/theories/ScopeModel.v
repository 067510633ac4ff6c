(** Model of run levels (finch.go) and data scopes (data/scope.go). *)
From Verif Require Import Prelude.

(** finch.go 32-42, [RunLevel].  The three name fields are only printed, never compared, and
    are left out.  Go [uint]/[uint64] counters are [N] (they only count configured objects). *)
Record runlevel := RL {
  rl_stage : N; rl_eg : N; rl_cg : N; rl_client : N; rl_trx : N; rl_query : N }.

(** The zero value of [RunLevel]: what a missing map entry reads as. *)
Definition rl_zero : runlevel := RL 0 0 0 0 0 0.

(** finch.go 54-66, the SCOPE_* strings; config/file.go 188-205 rejects any other string. *)
Inductive scope :=
| SGlobal | SStage | SWorkload | SExecGroup | SClientGroup | SClient | SIter | STrx
| SStatement | SRow | SValue.

Definition scope_eqb (a b : scope) : bool :=
  match a, b with
  | SGlobal, SGlobal | SStage, SStage | SWorkload, SWorkload | SExecGroup, SExecGroup
  | SClientGroup, SClientGroup | SClient, SClient | SIter, SIter | STrx, STrx
  | SStatement, SStatement | SRow, SRow | SValue, SValue => true
  | _, _ => false
  end.

(** finch.go 68-80, [RunLevel.array]. *)
Definition rl_array (rl : runlevel) : list N :=
  [ rl_query rl; rl_trx rl; 0; rl_client rl; rl_cg rl; rl_eg rl; 1; rl_stage rl; 1 ]%N.

(** finch.go 102-122, [runlevelNumber] / [RunLevelNumber]. *)
Definition runlevel_number (s : scope) : nat :=
  match s with
  | SValue => 0 | SRow => 0 | SStatement => 0 | STrx => 1 | SIter => 2 | SClient => 3
  | SClientGroup => 4 | SExecGroup => 5 | SWorkload => 6 | SStage => 7 | SGlobal => 8
  end.

(** finch.go 94-98: the loop "any index from n on where now > before". *)
Fixpoint any_greater (now before : list N) : bool :=
  match now, before with
  | a :: now', b :: before' => (b <? a)%N || any_greater now' before'
  | _, _ => false
  end.

(** finch.go 82-100, [RunLevel.GreaterThan]. *)
Definition greater_than (rl prev : runlevel) (s : scope) : bool :=
  match s with
  | SValue => true
  | _ =>
    let s' := match s with SRow => SStatement | SIter => SClient | _ => s end in
    let n := runlevel_number s' in
    any_greater (skipn n (rl_array rl)) (skipn n (rl_array prev))
  end.

(** data/scope.go 37-45, [Key].  [k_scope = None] is the empty string; [k_gen] is
    [Generator.Name()]; the source position fields are dropped. *)
Record key := Key { k_name : string; k_column : Z; k_scope : option scope; k_gen : string }.

(** data/scope.go 17-23, [Id], stored with every allocated scoped generator. *)
Record sg_id := SgId { id_rl : runlevel; id_scope : scope; id_key : string; id_copy : N }.

(** data/scope.go 60-66, [Scope].  A [*ScopedGenerator] is an index into [s_heap], the list of
    all scoped generators ever allocated ([NewScopedGenerator] allocates a new object).  A
    missing [CopyOf] entry reads as the nil pointer, a missing [CopiedAt] entry as the zero
    run level, a missing [CopyCount] entry as 0. *)
Record scopes := Scopes {
  s_keys : string -> option key;
  s_copyOf : string -> option nat;
  s_copiedAt : string -> runlevel;
  s_copyCount : string -> N;
  s_noop : option nat;
  s_heap : list sg_id }.

(** data/scope.go 68-75, [NewScope]. *)
Definition scopes_new : scopes :=
  Scopes (fun _ => None) (fun _ => None) (fun _ => rl_zero) (fun _ => 0%N) None [].

Definition PREV : string := "@PREV".
(** finch.go 27, [NOOP_COLUMN]. *)
Definition NOOP_COLUMN : string := "_".

(** data/scope.go 98-107: default scope of a key. *)
Definition key_scope (k : key) : scope :=
  match k_scope k with
  | Some s => s
  | None => if String.eqb (k_gen k) "column" then STrx else SStatement
  end.

(** data/scope.go 77-123, [Scope.Copy].  The outer [None] is the panic "key not loaded"; the
    inner option is the returned pointer, [None] being nil. *)
Definition scopes_copy (s : scopes) (keyName : string) (rl : runlevel)
  : option (scopes * option nat) :=
  if String.eqb keyName PREV then Some (s, None) else
  match s_keys s keyName with
  | None => None
  | Some k =>
    if String.eqb (k_name k) NOOP_COLUMN then
      match s_noop s with
      | Some p => Some (s, Some p)
      | None =>
        let p := length (s_heap s) in
        Some (Scopes (s_keys s) (s_copyOf s) (s_copiedAt s) (s_copyCount s) (Some p)
                     (s_heap s ++ [SgId rl_zero SGlobal "" 0]), Some p)
      end
    else
      let sc := key_scope k in
      let k' := Key (k_name k) (k_column k) (Some sc) (k_gen k) in
      let s1 := Scopes (supd (s_keys s) keyName (Some k')) (s_copyOf s) (s_copiedAt s)
                       (s_copyCount s) (s_noop s) (s_heap s) in
      let prev := s_copiedAt s1 keyName in
      let s2 :=
        if greater_than rl prev sc then
          let cnt := (s_copyCount s1 keyName + 1)%N in
          let p := length (s_heap s1) in
          Scopes (s_keys s1) (supd (s_copyOf s1) keyName (Some p))
                 (supd (s_copiedAt s1) (k_name k) rl)
                 (supd (s_copyCount s1) keyName cnt) (s_noop s1)
                 (s_heap s1 ++ [SgId rl sc keyName cnt])
        else s1 in
      Some (s2, s_copyOf s2 keyName)
  end.

(** data/scope.go 125-135, [Scope.Reset]: forget every key that is not stage or global scoped
    ([k.Scope] is the stored string, so an unset scope is deleted). [CopyCount] and the no-op
    generator stay. *)
Definition scopes_reset (s : scopes) : scopes :=
  let keep k := match s_keys s k with
                | Some ky => match k_scope ky with
                             | Some SStage | Some SGlobal => true
                             | _ => false end
                | None => true   (* not in the map: nothing deleted *)
                end in
  Scopes (fun k => if keep k then s_keys s k else None)
         (fun k => if keep k then s_copyOf s k else None)
         (fun k => if keep k then s_copiedAt s k else rl_zero)
         (s_copyCount s) (s_noop s) (s_heap s).

(* ------------------------------------------------------------------------------------ *)
(** * Scoped generators: when the wrapped generator is called *)

(** data/scope.go 265-278, [RunCount]: counters of the calling client.  The array is a record;
    [rc_get] gives the array view used by [cnt[s.sno]]. *)
Record runcount := RC {
  rc_statement : N; rc_trx : N; rc_iter : N; rc_conn : N;
  rc_client : N; rc_cg : N; rc_eg : N; rc_stage : N }.

Definition rc_get (rc : runcount) (i : nat) : N :=
  match i with
  | 0 => rc_statement rc | 1 => rc_trx rc | 2 => rc_iter rc | 3 => rc_conn rc
  | 4 => rc_client rc | 5 => rc_cg rc | 6 => rc_eg rc | _ => rc_stage rc
  end.

(** The class a scope belongs to: data/scope.go 168-185. *)
Inductive sgclass := CValue | CSingle (sno : nat) | CMulti | COneTime.

(** data/scope.go 162-188, [NewScopedGenerator] ("invalid scope" cannot happen, the numbers
    stop at 8). *)
Definition sg_class (sc : scope) : sgclass :=
  let n := runlevel_number sc in
  if scope_eqb sc SValue then CValue
  else if Nat.leb n (runlevel_number SClient) then CSingle n
  else if Nat.leb n (runlevel_number SWorkload) then CMulti
  else COneTime.

Section ScopedGenerator.
  (** The wrapped generator: an arbitrary state machine; [gvalues] is [Generator.Values]
      (the slice of values; nil and the empty slice are both [[]]). *)
  Variables (G V : Type) (gvalues : G -> runcount -> G * list V).

  (** data/scope.go 147-158, [ScopedGenerator].  [sg_last] is the one element of [last] that is
      ever used, [last[s.sno]]; [sg_vals] is [vals], [None] being nil; [sg_iter] and
      [sg_cgvals] are the maps [cgIter], [cgVals]. *)
  Record sg := SG {
    sg_cls : sgclass; sg_g : G; sg_last : N; sg_vals : option (list V);
    sg_iter : N -> option N; sg_cgvals : N -> list V }.

  Definition sg_new (sc : scope) (g : G) : sg :=
    SG (sg_class sc) g 0 None (fun _ => None) (fun _ => []).

  Definition sg_sno (s : sg) : nat := match sg_cls s with CSingle n => n | _ => 0 end.

  (** data/scope.go 199-216, [ScopedGenerator.Call]: the new state and the returned values.
      In the multi client case the generator call and the map update are one step here; the
      code takes the lock only around the map update (see DESIGN.md). *)
  Definition sg_call (s : sg) (cnt : runcount) : sg * list V :=
    let '(g', v) := gvalues (sg_g s) cnt in
    match sg_cls s with
    | CMulti =>
      (SG (sg_cls s) g' (sg_last s) (sg_vals s)
          (nupd (sg_iter s) (rc_client cnt) (Some (rc_iter cnt)))
          (nupd (sg_cgvals s) (rc_client cnt) v), v)
    | _ =>
      (SG (sg_cls s) g' (rc_get cnt (sg_sno s)) (Some v) (sg_iter s) (sg_cgvals s), v)
    end.

  Definition vals_of (o : option (list V)) : list V := match o with Some v => v | None => [] end.

  (** data/scope.go 218-259, [ScopedGenerator.Values]. *)
  Definition sg_values (s : sg) (cnt : runcount) : sg * list V :=
    match sg_cls s with
    | CSingle n =>
      if (sg_last s <? rc_get cnt n)%N then sg_call s cnt else (s, vals_of (sg_vals s))
    | CMulti =>
      match sg_iter s (rc_client cnt) with
      | None => sg_call s cnt
      | Some prevIter =>
        if (prevIter <? rc_iter cnt)%N then sg_call s cnt
        else (s, sg_cgvals s (rc_client cnt))
      end
    | COneTime =>
      match sg_vals s with
      | Some _ => sg_call s cnt
      | None => (s, vals_of (sg_vals s))
      end
    | CValue => let '(g', v) := gvalues (sg_g s) cnt in
                (SG (sg_cls s) g' (sg_last s) (sg_vals s) (sg_iter s) (sg_cgvals s), v)
    end.

  (** One use of a data key by a client: explicit [@d()] or implicit [@d]
      (workload.go 232-236 chooses [Call] or [Values]). *)
  Inductive use := Use (explicit : bool) (cnt : runcount).

  Definition sg_use (s : sg) (u : use) : sg * list V :=
    match u with
    | Use true cnt => sg_call s cnt
    | Use false cnt => sg_values s cnt
    end.

  (** A history of uses, returning what each use returned. *)
  Fixpoint sg_uses (s : sg) (us : list use) : sg * list (list V) :=
    match us with
    | [] => (s, [])
    | u :: us' =>
      let '(s1, v) := sg_use s u in
      let '(s2, vs) := sg_uses s1 us' in
      (s2, v :: vs)
    end.

  (* ---------------------------------------------------------------------------------- *)
  (** Concurrent use of one generator with client-group, exec-group or workload scope:
      data/scope.go 199-243 with the lock regions as atomic steps.  A thread is one client; the
      wrapped generator's own [Values] is one step. *)

  (** Where a client is inside [Values]/[Call]. *)
  Inductive mphase :=
  | MIdle
  | MWant (cnt : runcount)                  (* before s.g.Values(cnt), line 206 *)
  | MHave (cnt : runcount) (v : list V).    (* before s.cgMux.Lock(), line 207 *)

  Record mst := MSt { m_g : G; m_iter : N -> option N; m_vals : N -> list V; m_ph : nat -> mphase }.

  Definition m_init (g : G) : mst := MSt g (fun _ => None) (fun _ => []) (fun _ => MIdle).

  (** What happens: client [t] starts a use, the generator is called for it, the use returns. *)
  Inductive mevent :=
  | EvUse (t : nat) (explicit : bool) (cnt : runcount)
  | EvCall (t : nat) (cnt : runcount) (v : list V)
  | EvRet (t : nat) (v : list V).

  (** Scheduler choices. *)
  Inductive mlabel := LUse (t : nat) (explicit : bool) (cnt : runcount) | LGo (t : nat).

  Definition m_step (s : mst) (l : mlabel) : option (mst * list mevent) :=
    match l with
    | LUse t explicit cnt =>
      match m_ph s t with
      | MIdle =>
        let want := Some (MSt (m_g s) (m_iter s) (m_vals s) (natupd (m_ph s) t (MWant cnt)),
                          [EvUse t explicit cnt]) in
        if explicit then want                                   (* Call *)
        else
          match m_iter s (rc_client cnt) with                   (* lines 231-241, under RLock *)
          | None => want
          | Some prevIter =>
            if (prevIter <? rc_iter cnt)%N then want
            else Some (s, [EvUse t explicit cnt; EvRet t (m_vals s (rc_client cnt))])
          end
      | _ => None
      end
    | LGo t =>
      match m_ph s t with
      | MIdle => None
      | MWant cnt =>
        let '(g', v) := gvalues (m_g s) cnt in
        Some (MSt g' (m_iter s) (m_vals s) (natupd (m_ph s) t (MHave cnt v)), [EvCall t cnt v])
      | MHave cnt v =>                                          (* lines 207-211 *)
        Some (MSt (m_g s) (nupd (m_iter s) (rc_client cnt) (Some (rc_iter cnt)))
                  (nupd (m_vals s) (rc_client cnt) v) (natupd (m_ph s) t MIdle), [EvRet t v])
      end
    end.

  Fixpoint m_run (s : mst) (ls : list mlabel) : option (mst * list mevent) :=
    match ls with
    | [] => Some (s, [])
    | l :: ls' =>
      match m_step s l with
      | None => None
      | Some (s1, e1) =>
        match m_run s1 ls' with
        | None => None
        | Some (s2, e2) => Some (s2, e1 ++ e2)
        end
      end
    end.
End ScopedGenerator.

Arguments SG {G V}.
Arguments sg_new {G V}.
Arguments MSt {G V}.
Arguments m_init {G V}.
Arguments EvUse {V}.
Arguments EvCall {V}.
Arguments EvRet {V}.
