(** Specification vocabulary for data limits of statements that clients execute. *)
From Verif Require Import Prelude ListAux StmtModel WorkloadModel ClientModel LoopModel LoadModel.

(** The rows affected by selected executions. *)
Definition rows_where {V} (f : nat * event V * Z -> bool) (tr : list (nat * event V * Z)) : Z :=
  fold_right (fun x n => if f x then snd x + n else n)%Z 0%Z tr.
(** Each of them affects at most [r] rows. *)
Definition rows_each {V} (f : nat * event V * Z -> bool) (r : Z) (tr : list (nat * event V * Z)) : Prop :=
  Forall (fun x => f x = true -> (0 <= snd x <= r)%Z) tr.

(** Statement [n] of client [i] writes, and has the data limit [l]. *)
Definition uses (cs : list client) (l : nat) (i n : nat) : bool :=
  match nth_error cs i with
  | Some c => match nth_error (c_stmts c) n with
              | Some s => (match st_limit s with Some l' => Nat.eqb l' l | None => false end && negb (st_resultset s))%bool
              | None => false end
  | None => false
  end.
(** A successful execution of a statement with limit [l]. *)
Definition writes {V} (cs : list client) (l : nat) (x : nat * event V * Z) : bool :=
  match x with (i, EvExec n _ _ _ _ None _, _) => uses cs l i n | _ => false end.

(** The [n]-th statement of the trx [names], which have [len] statements each: the trx, and which of its statements. *)
Fixpoint place (len : string -> nat) (names : list string) (n : nat) : option (string * nat) :=
  match names with
  | [] => None
  | x :: names' => if (n <? len x)%nat then Some (x, n) else place len names' (n - len x)
  end.

(** A successful execution of statement [j] of trx [name]; [trx i] are the trx of client [i]. *)
Definition of_trx {V} (len : string -> nat) (trx : nat -> list string) (name : string) (j : nat) (x : nat * event V * Z) : bool :=
  match x with
  | (i, EvExec n _ _ _ _ None _, _) =>
    match place len (trx i) n with Some (name', j') => (String.eqb name' name && Nat.eqb j' j)%bool | None => false end
  | _ => false
  end.

(** Client [i] can go on, whatever the database answers: it connects, checks its iterations, checks a limit, executes a statement
    or skips it (as the limit says), counts rows. *)
Definition can_go {V} (st : dst V) (i : nat) : Prop :=
  (forall ce w, load_step st (DLoop i (LConnect ce) w) <> None) \/
  (forall w, load_step st (DLoop i LCheck w) <> None) \/
  (forall c, load_step st (DCheck i c) <> None) \/
  (exists more, forall se w, v_more se = more -> load_step st (DLoop i (LStmt se) w) <> None) \/
  load_step st (DCount i) <> None.

(** The steps of client [i]: those with limits, and the others. *)
Definition limit_step {V} (i : nat) (e : devent V) : bool :=
  match e with DCheck j _ | DCount j => Nat.eqb j i | DLoop _ _ _ => false end.
Definition other_step {V} (i : nat) (e : devent V) : bool :=
  match e with DLoop j _ _ => Nat.eqb j i | _ => false end.
Definition count {A} (f : A -> bool) (l : list A) : nat := length (filter f l).
