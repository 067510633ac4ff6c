(** Specification vocabulary for workload allocation. *)
From Verif Require Import Prelude ScopeModel ScopeSpec StmtModel WorkloadModel.

(** Client [k] of client group [g] of exec group [e]. *)
Definition client_at (out : list (list (list client))) (e g k : nat) : option client :=
  match nth_error out e with
  | Some cgs => match nth_error cgs g with
                | Some cs => nth_error cs k
                | None => None end
  | None => None
  end.

(** The configuration of client group [g] of exec group [e]. *)
Definition cg_at (wl : list cgcfg) (gs : list (list nat)) (e g : nat) : option cgcfg :=
  match nth_error gs e with
  | Some refs => match nth_error refs g with
                 | Some r => nth_error wl r
                 | None => None end
  | None => None
  end.

(** Which of consecutive blocks of the given lengths position [i] falls into. *)
Fixpoint block_index (lens : list nat) (i : nat) : nat :=
  match lens with
  | [] => 0
  | l :: lens' => if (i <? l)%nat then 0 else S (block_index lens' (i - l))
  end.

(** The lengths of the trx of a client group. *)
Definition trx_lens (ts : trxset) (cg : cgcfg) : list nat :=
  map (fun t => length (ts_stmts ts t)) (cg_trx cg).

(** The data keys of one statement paired with the generator serving them.  [serve k] tells
    whether key [k] gets a generator at all; the client's input list has no entry for keys that
    do not.  An output slot reserved for the insert id has no generator of its own. *)
Fixpoint align (serve : string -> bool) (ins : list string) (ps : list nat)
  : list (string * option nat) :=
  match ins with
  | [] => []
  | k :: ins' =>
    if serve k then
      match ps with
      | p :: ps' => (k, Some p) :: align serve ins' ps'
      | [] => (k, None) :: align serve ins' []
      end
    else (k, None) :: align serve ins' ps
  end.

Definition uses_of (serve : string -> bool) (s : stmt) (d : sdata) : list (string * option nat) :=
  align serve (st_inputs s) (map fst (d_inputs d)) ++
  combine (st_outputs s) (d_outputs d) ++
  (if String.eqb (st_insertId s) "" then [] else [(st_insertId s, d_insertId d)]).

(** The [j]-th data key slot of statement [i] of a client. *)
Definition use_of_client (serve : string -> bool) (c : client) (i j : nat)
  : option (string * option nat) :=
  match nth_error (c_stmts c) i, nth_error (c_data c) i with
  | Some s, Some d => nth_error (uses_of serve s d) j
  | _, _ => None
  end.

(** * Data keys of a run of several stages *)

(** Stage and global scoped keys live on in the following stages. *)
Definition carry (ks : string -> option key) : string -> option key :=
  fun k => match ks k with
           | Some ky => match k_scope ky with
                        | Some SStage | Some SGlobal => Some ky
                        | _ => None end
           | None => None
           end.

(** The keys of a stage: those living on, and the ones its own trx files add. *)
Definition stage_keys (prev : string -> option key) (st : stagecfg) : string -> option key :=
  fun k => match carry prev k with Some ky => Some ky | None => sg_keys st k end.

(** The keys of stage [a] of a run. *)
Fixpoint keys_at (prev : string -> option key) (sts : list stagecfg) (a : nat) : string -> option key :=
  match sts with
  | [] => fun _ => None
  | st :: sts' => match a with
                  | O => stage_keys prev st
                  | S a' => keys_at (stage_keys prev st) sts' a'
                  end
  end.

Definition no_keys : string -> option key := fun _ => None.

(** The scope of a key: as configured, else trx for a saved column and statement for others. *)
Definition scope_in (ks : string -> option key) (k : string) : option scope :=
  match ks k with
  | Some ky => Some (match k_scope ky with
                     | Some s => s
                     | None => if String.eqb (k_gen ky) "column" then STrx else SStatement
                     end)
  | None => None
  end.

(** Every data key but @PREV (whose values come with the previous key) and, as the code stands,
    the globally scoped ones (see C02) is served by a generator; the no-op column always is. *)
Definition serves (ks : string -> option key) (k : string) : bool :=
  negb (String.eqb k PREV) &&
  (String.eqb k NOOP_COLUMN || match scope_in ks k with Some SGlobal => false | _ => true end).

(** Key [key] is used at place [pl] of the [a]-th stage and served by generator [p]. *)
Definition used_at (sts : list stagecfg) (outs : list (list (list (list client))))
           (a : nat) (pl : place) (key : string) (p : nat) : Prop :=
  exists st out wl gs cg c,
    nth_error sts a = Some st /\ nth_error outs a = Some out /\
    groups (sg_ts st) (sg_wl st) = Some (wl, gs) /\
    cg_at wl gs (p_eg pl) (p_cg pl) = Some cg /\
    client_at out (p_eg pl) (p_cg pl) (p_client pl) = Some c /\
    p_stage pl = sg_N st /\
    p_trx pl = block_index (trx_lens (sg_ts st) cg) (p_stmt pl) /\
    use_of_client (serves (keys_at no_keys sts a)) c (p_stmt pl) (p_slot pl) = Some (key, Some p).

(** Requirements on the input of a run: stage numbers increase from 1 on (config.Load numbers
    the stages 1, 2, ...), keys are registered under their own name, trx are not empty. *)
Definition run_ok (sts : list stagecfg) : Prop :=
  (forall a b sa sb, (a < b)%nat -> nth_error sts a = Some sa -> nth_error sts b = Some sb ->
     (sg_N sa < sg_N sb)%N) /\
  Forall (fun st => (0 < sg_N st)%N /\
                    (forall k ky, sg_keys st k = Some ky -> k_name ky = k) /\
                    (forall wl gs cg t, groups (sg_ts st) (sg_wl st) = Some (wl, gs) ->
                       In cg wl -> In t (cg_trx cg) -> ts_stmts (sg_ts st) t <> [])) sts.

(* ------------------------------------------------------------------------------------ *)
(** * Exec groups *)

(** The name the allocation gave client group [i] of the workload. *)
Definition name_of (wl : list cgcfg) (i : nat) : option string := option_map cg_group (nth_error wl i).

(** The exec group client group [i] ended up in. *)
Definition in_group (gs : list (list nat)) (i e : nat) : Prop :=
  exists refs, nth_error gs e = Some refs /\ In i refs.

(** The trx a configured client group executes: its own list or all trx of the stage. *)
Definition trx_of (ts : trxset) (c : cgcfg) : list string :=
  match cg_trx c with [] => ts_order ts | l => l end.

Definition runs_ddl (ts : trxset) (c : cgcfg) : Prop := exists t, In t (trx_of ts c) /\ ts_ddl ts t = true.

(** A name of the form the allocation makes up itself. *)
Definition auto_name (n : string) : Prop := exists k, n = ("ddl" ++ dec k)%string \/ n = ("dml" ++ dec k)%string.

(** * Rate limiters *)

(** The basic limiters (identity, rate) a combined limiter consists of. *)
Fixpoint leaves (r : rate) : list (nat * N) :=
  match r with RLeaf id n => [(id, n)] | RAnd _ a b => leaves a ++ leaves b end.
Definition leaves_of (r : option rate) : list (nat * N) := match r with Some r => leaves r | None => [] end.

(** The objects the allocation creates for limits: rate limiters ([q] = qps or tps) and
    iteration counters, by the part of the workload they belong to. *)
Inductive owner :=
| OStage (q : bool) | OExecGroup (q : bool) (e : nat) | OClients (q : bool) (e g : nat)
| OClient (q : bool) (e g k : nat)
| OIterClients (e g : nat) | OIterExecGroup (e : nat).

Definition limiter (q : bool) (c : client) : option rate := if q then c_qps c else c_tps c.

(** The limits which apply to client [k] of client group [g] of exec group [e], outermost first:
    the stage's, the exec group's (as set by the exec group's first client group [cg0]), the client
    group's and the client's own, each if set. *)
Definition limits_of (q : bool) (stage : N) (cg0 cg : cgcfg) (e g k : nat) : list (owner * N) :=
  filter (fun x => negb (snd x =? 0)%N)
    [ (OStage q, stage);
      (OExecGroup q e, if q then cg_qpsExecGroup cg0 else cg_tpsExecGroup cg0);
      (OClients q e g, if q then cg_qpsClients cg else cg_tpsClients cg);
      (OClient q e g k, if q then cg_qps cg else cg_tps cg) ].
