(** The stages of a run on one instance, one after another: Server.Run and Server.run (compute/server.go 51-67, 70-181) with Stage.Run
    and the clients of every stage (WholeModel.v).  Simplifications: no remotes (see ServeModel.v and NetModel.v for those), stages are
    prepared without an error (PipeModel.v), [--test] is not given. *)
From Verif Require Import Prelude WorkloadModel ClientModel LoopModel WholeModel.

Section Prog.
  Context {V : Type}.
  (** The stages, in the order of the command line: their configuration and clients. *)
  Variable stages : list (C.stage * list (list (list client))).

  (** The stages that have begun, in order; ctxFinch is done.  A stage that has returned stays: clients that did not return in time
      are still running (stage.go 210-212). *)
  Record pst := PSt { p_sts : list (wst V); p_stop : bool }.
  Definition prog_init : pst := PSt [] false.

  (** [PBegin]: the next stage is prepared and begins (server.go 52-58, 70-150).  [PStage i a]: something happens in stage [i].
      [PStop]: CTRL-C. *)
  Inductive paction := PBegin | PStage (i : nat) (a : waction V) | PStop.

  (** Stage.Run has returned, so that Server.run does (server.go 143-178). *)
  Definition stage_over (st : wst V) : bool := match G.s_pc (w_stage st) with G.Ended => true | _ => false end.
  Definition may_begin (st : pst) : bool :=
    (negb (p_stop st) && match rev (p_sts st) with [] => true | w :: _ => stage_over w end)%bool.
  (** The contexts of all stages are those of ctxFinch (stage.go 129-137). *)
  Definition stop_one (x : (C.stage * list (list (list client))) * wst V) : wst V :=
    match whole_step (fst (fst x)) (snd (fst x)) (snd x) (WStage G.AStop) with Some (w, _) => w | None => snd x end.

  Definition prog_step (st : pst) (a : paction) : option (pst * list (nat * wevent V)) :=
    match a with
    | PBegin =>
      if may_begin st
      then match nth_error stages (length (p_sts st)) with
           | Some (_, out) => Some (PSt (p_sts st ++ [whole_init out]) (p_stop st), [])
           | None => None end
      else None
    | PStage _ (WStage G.AStop) => None
    | PStage i a =>
      match nth_error stages i, nth_error (p_sts st) i with
      | Some (c, out), Some w =>
        match whole_step c out w a with
        | Some (w', es) => match set_nth (p_sts st) i w' with
                           | Some l => Some (PSt l (p_stop st), map (pair i) es)
                           | None => None end
        | None => None end
      | _, _ => None
      end
    | PStop => if p_stop st then None else Some (PSt (map stop_one (List.combine stages (p_sts st))) true, [])
    end.

  Fixpoint prog_run (st : pst) (l : list paction) : option (pst * list (nat * wevent V)) :=
    match l with
    | [] => Some (st, [])
    | a :: l' =>
      match prog_step st a with
      | None => None
      | Some (st1, es) => match prog_run st1 l' with None => None | Some (st2, es') => Some (st2, es ++ es') end
      end
    end.
End Prog.
Arguments pst : clear implicits.
Arguments paction : clear implicits.
