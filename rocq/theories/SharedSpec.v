(** Specification vocabulary for the values of data keys that several clients use. *)
From Verif Require Import Prelude ScopeModel ScopeSpec WorkloadModel WorkloadSpec ValueModel ValueSpec DataModel DataSpec.
From Verif Require ConfigModel.
#[local] Open Scope list_scope.

(** The scopes whose generators several clients use (global and stage scope: C02). *)
Definition several_clients (sc : scope) : Prop := sc = SClientGroup \/ sc = SExecGroup \/ sc = SWorkload.
Definition shared_key (sts : list stagecfg) (a : nat) (key : string) : Prop :=
  exists sc, scope_in (keys_at no_keys sts a) key = Some sc /\ several_clients sc.

(** A history of the uses of generator [p] by several clients, in any order (ScopeModel.v, [m_run]), up to state [s]. *)
Definition history (gen0 : nat -> dgen) (p : nat) (s : mst dgen dval) (tr : list (mevent dval)) : Prop :=
  exists ls, m_run _ _ dgen_values (m_init (gen0 p)) ls = Some (s, tr).
(** The client with log [log] is number [t] of them: the history has its uses and returned what it got, and all of its uses returned. *)
Definition takes_part (log : list (vlog dgen dval)) (p t : nat) (s : mst dgen dval) (tr : list (mevent dval)) : Prop :=
  uses_in p (groups log) = uses_by t tr /\ values_in p (groups log) = rets_by t tr /\ m_ph _ _ s t = MIdle _.

(** The only one of them with the client number of [me] is the client of [me]. *)
Definition only_me (me : runcount) (tr : list (mevent dval)) : Prop :=
  forall t ex rc, In (EvUse t ex rc) tr -> rc_client rc = rc_client me -> same_client me rc.
(** What the client gets of the generators of key [key] comes from such histories; if the key's generator is client-id, then from
    ones in which no other client has its client number. *)
Definition shared_runs sts outs (a : nat) (gen0 : nat -> dgen) (log : list (vlog dgen dval)) (me : runcount) (name key : string) : Prop :=
  forall pl p, used_at sts outs a pl key p ->
    exists t s tr, history gen0 p s tr /\ takes_part log p t s tr /\ (name = "client-id"%string -> only_me me tr).

(** The clients [k] with logs [logs] use the generators of key [key] together, in any order, with other clients of their client
    group (client [k] of the group has number [k + 1]; iterations are counted up). *)
Definition group_runs sts outs (a : nat) (gen0 : nat -> dgen) (logs : list (nat * list (vlog dgen dval))) (key : string) (few : nat -> Prop) : Prop :=
  forall pl p, used_at sts outs a pl key p ->
    exists s tr, history gen0 p s tr /\ trace_ok (fun k => N.of_nat (k + 1)) tr /\ few (List.length (all_calls tr)) /\
      forall k log, In (k, log) logs -> takes_part log p k s tr.
(** The numbers that an auto-inc does not repeat. *)
Definition before_overflow (ps : ConfigModel.smap string) (calls : nat) : Prop :=
  let step := unum ps "step" 1 in (N.of_nat calls <= 2 ^ 64 / N.gcd step (2 ^ 64))%N.
