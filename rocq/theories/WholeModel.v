(** A stage with its clients: Stage.Run (stage/stage.go 118-235) joined with the clients it starts (client/client.go 173-357). *)
From Verif Require Import Prelude WorkloadModel ClientModel IterSpec LoopModel.
From Verif Require StageModel ConfigModel.
Module G := StageModel.
Module C := ConfigModel.

Section Whole.
  Context {V : Type}.
  (** The configuration of the stage and its clients by exec group and client group. *)
  Variable cfg : C.stage.
  Variable out : list (list (list client)).

  (** Stage.Run; the clients, numbered from 0 (LoopModel.v); whose client group's runtime has elapsed. *)
  Record wst := WSt { w_stage : G.state; w_loop : lst V; w_over : nat -> nat -> bool }.

  (** stage.go 118-144 *)
  Definition whole_init : wst := WSt G.init (loop_init (map snd (labelled out))) (fun _ _ => false).

  (** stage.go 148-152: the number of clients of every exec group. *)
  Definition sizes : list nat := map (fun css => length (concat css)) out.
  (** The number of a client among all clients of the stage. *)
  Definition idx (c : G.client) : nat := (list_sum (firstn (fst c) sizes) + snd c)%nat.

  (** [WStage a]: a step of Stage.Run or of its contexts, or client [c] sends itself to doneChan.  [WOver e g]: the runtime of a
      client group elapses.  [WClient c inp]: another step of client [c]. *)
  Inductive waction := WStage (a : G.action) | WOver (e g : nat) | WClient (c : G.client) (inp : linput V).
  Inductive wevent := WS (e : G.event) | WC (c : G.client) (e : event V).

  (** stage.go 129-137, 154-163: a context of the client is done. *)
  Definition ctx_done (st : wst) (c : G.client) : bool :=
    (G.s_elapsed (w_stage st) || G.s_stopped (w_stage st) ||
     match nth_error (labelled out) (idx c) with Some (e, g, _) => w_over st e g | None => false end)%bool.

  (** What happens to a client because its context is done happens only if it is done.  Simplification: a step of a client may
      also take place as if its context were not yet done (the context was asked before the rest of the step). *)
  Definition err_fits (ctx : bool) (o : option err) : bool :=
    match o with Some e => (ctx || negb (er_cancel e || er_root e))%bool | None => true end.
  Definition cenv_fits (ctx : bool) (n : nat) (ce : cenv) : bool :=
    ((ctx || (negb (ce_ctx0 ce) && ce_conn ce && negb (ce_ctx1 ce))) &&
     err_fits ctx (ce_rollback ce) && err_fits ctx (ce_use ce) && forallb (fun i => err_fits ctx (ce_prep ce i)) (seq 0 n))%bool.
  Definition fits (ctx : bool) (n : nat) (inp : linput V) : bool :=
    match inp with
    | LConnect ce => cenv_fits ctx n ce
    | LCheck => true
    | LStmt se => ((ctx || negb (v_ctx se)) && err_fits ctx (v_res se) && err_fits ctx (v_scan se) && cenv_fits ctx n (v_conn se))%bool
    end.

  (** client.go 177-196 *)
  Definition client_returned (st : wst) (c : G.client) : bool :=
    match nth_error (l_cls (w_loop st)) (idx c) with
    | Some k => match l_pc k with PcDone => true | _ => false end
    | None => false
    end.

  (** Client group [g] of exec group [e] has a runtime.  Simplification: one of 0 counts (stage.go 158 ignores it). *)
  Definition runtime_of (e g : nat) : bool :=
    match nth_error out e with
    | Some css =>
      match nth_error css g, nth_error (C.s_workload cfg) (list_sum (map (@length _) (firstn e out)) + g) with
      | Some _, Some grp => negb (String.eqb (C.g_runtime grp) "")
      | _, _ => false
      end
    | None => false
    end.

  (** A client sends itself to doneChan when it returns; the runtime of the stage can elapse if there is one (stage.go 132-137), that
      of a client group too (158-162). *)
  Definition whole_step (st : wst) (a : waction) : option (wst * list wevent) :=
    match a with
    | WStage a =>
      if match a with
         | G.AFinish c => client_returned st c
         | G.AElapse => negb (String.eqb (C.s_runtime cfg) "")
         | _ => true end
      then match G.step sizes (w_stage st) a with
           | Some (s, es) => Some (WSt s (w_loop st) (w_over st), map WS es)
           | None => None end
      else None
    | WOver e g =>
      if (runtime_of e g && negb (w_over st e g))%bool
      then Some (WSt (w_stage st) (w_loop st) (fun e' g' => ((Nat.eqb e e' && Nat.eqb g g') || w_over st e' g')%bool), [])
      else None
    | WClient c inp =>
      if (existsb (G.client_eqb c) (G.s_run (w_stage st)) &&
          fits (ctx_done st c) (match nth_error (labelled out) (idx c) with Some (_, _, cl) => length (c_stmts cl) | None => 0 end) inp)%bool
      then match loop_step (w_loop st) (idx c) inp with
           | Some (l, es) => Some (WSt (w_stage st) l (w_over st), map (WC c) es)
           | None => None end
      else None
    end.

  Fixpoint whole_run (st : wst) (l : list waction) : option (wst * list wevent) :=
    match l with
    | [] => Some (st, [])
    | a :: l' =>
      match whole_step st a with
      | None => None
      | Some (st1, es) => match whole_run st1 l' with
                          | None => None
                          | Some (st2, es') => Some (st2, es ++ es') end
      end
    end.
End Whole.
Arguments wst : clear implicits.
Arguments waction : clear implicits.
Arguments wevent : clear implicits.
