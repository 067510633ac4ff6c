(** Vocabulary for C131: a stage whose contexts are done. *)
From Verif Require Import Prelude WorkloadModel ClientModel LoopModel WholeModel.

Section Halt.
  Context {V : Type}.
  (** A step of a client that begins when its context is done: Connect sees it (client.go 107-109), and a query fails, as database/sql
      and the driver do not start a query with a context that is done. *)
  Definition saw (inp : linput V) : Prop :=
    match inp with
    | LConnect ce => ce_ctx0 ce = true
    | LCheck => True
    | LStmt se => v_res se <> None /\ v_ctx se = true /\ ce_ctx0 (v_conn se) = true
    end.
  (** The steps of client [x] begin when its context is done; those of all clients do. *)
  Definition client_saw (x : G.client) (a : waction V) : Prop := match a with WClient y inp => y = x -> saw inp | _ => True end.
  Definition all_saw (a : waction V) : Prop := match a with WClient _ inp => saw inp | _ => True end.
  (** A step of client [x]. *)
  Definition step_of (x : G.client) (a : waction V) : bool := match a with WClient y _ => G.client_eqb x y | _ => false end.
  (** Something that changes MySQL or what is reported: also a query that succeeds. *)
  Definition changes (e : event V) : bool :=
    match e with
    | EvConnect _ | EvUse _ | EvPrepare _ _ | EvRollback _ | EvAffected _ | EvSaved _ | EvError _ _ => true
    | EvExec _ _ _ _ _ None _ => true
    | _ => false
    end.
End Halt.
