(** Data limits: limit/data.go and the modifiers rows, table-size and database-size of trx/trx.go. *)
From Verif Require Import Prelude GenModel.
#[local] Open Scope string_scope.
#[local] Open Scope list_scope.

(* ------------------------------------------------------------------------------------ *)
(** * Rows *)

(** limit/data.go 64-72, [Rows]: max and n.  Progress reports (p, r, t, pn) only affect the log
    and are left out. *)
Record rows := Rows { r_max : Z; r_n : Z }.

(** limit/data.go 76-88, [NewRows]; [None] is the nil pointer. *)
Definition new_rows (max offset : Z) : option rows :=
  if (max =? 0)%Z then None else Some (Rows max offset).

(** limit/data.go 90-106, [Rows.Affected], under the lock. *)
Definition rows_affected (n : Z) (r : rows) : rows := Rows (r_max r) (i64 (r_n r + n)).

(** limit/data.go 108-116, [Rows.More], under the lock. *)
Definition rows_more (r : rows) : bool := (r_n r <? r_max r)%Z.

(* ------------------------------------------------------------------------------------ *)
(** * Size *)

(** What the database answers during one call of [Size.More]; [None] and [false] are errors
    (time out included).  [q_tables]: rows of SHOW FULL TABLES (name, type).  [q_database]: SELECT
    DATABASE().  [q_exec s]: execution of [s] succeeds.  [q_bytes s]: first row of the query [s]
    (an empty result is an error, sql.ErrNoRows). *)
Record conn := Conn {
  q_tables : option (list (string * string));
  q_database : option string;
  q_exec : string -> bool;
  q_bytes : string -> option N }.

(** limit/data.go 122-137, [Size]: [z_n] is a uint (64 bits). *)
Record size := Size {
  z_max : N; z_db : string; z_tbl : string; z_query : string; z_analyze : string; z_n : N; z_m : N }.

(** limit/data.go 141-172, [NewSize] (the panic for two empty names does not occur: the only
    caller, trx/trx.go 294-298, passes a field of the modifier, which is never empty). *)
Definition new_size (max : N) (db tbl : string) : size :=
  let m := 5%N in
  let m := if (max <=? 1073741824)%N then 3%N else m in
  let m := if (107374182400 <=? max)%N then 1000%N else m in
  Size max db tbl "" "" 0 m.

(** database/sql: [Rows.Next] reports no further row once the rows are closed. *)
Definition rows_closed (_ : list (string * string)) : list (string * string) := [].

(** limit/data.go 198-208: the loop collecting base tables. *)
Fixpoint base_tables (l : list (string * string)) : list string :=
  match l with
  | [] => []
  | (name, base) :: l' => if (base =? "BASE TABLE")%string then name :: base_tables l' else base_tables l'
  end.

Fixpoint join_cs (l : list string) : string :=
  match l with
  | [] => ""
  | [w] => w
  | w :: l' => (w ++ ", " ++ join_cs l')%string
  end.

Definition query_prefix : string :=
  "SELECT COALESCE(data_length + index_length, 0) AS bytes FROM information_schema.TABLES WHERE ".

(** limit/data.go 186-222: set the queries on the first call; [inr] is [return false]. *)
Definition size_setup (c : conn) (z : size) : size + size :=
  if (z_query z =? "")%string then
    if negb (z_db z =? "")%string then
      let q := (query_prefix ++ "table_schema='" ++ z_db z ++ "'")%string in
      match q_tables c with
      | None => inr (Size (z_max z) (z_db z) (z_tbl z) q (z_analyze z) (z_n z) (z_m z))
      | Some rs =>
        let tbls := base_tables (rows_closed rs) in
        inl (Size (z_max z) (z_db z) (z_tbl z) q ("ANALYZE TABLE " ++ join_cs tbls)%string (z_n z) (z_m z))
      end
    else
      match q_database c with
      | None => inr (Size (z_max z) (z_db z) (z_tbl z) query_prefix (z_analyze z) (z_n z) (z_m z))
      | Some d =>
        inl (Size (z_max z) d (z_tbl z)
          (query_prefix ++ "table_schema='" ++ d ++ "' AND table_name='" ++ z_tbl z ++ "'")%string
          ("ANALYZE TABLE " ++ z_tbl z)%string (z_n z) (z_m z))
      end
  else inl z.

(** limit/data.go 178-257, [Size.More], under the lock. *)
Definition size_more (c : conn) (z : size) : size * bool :=
  match size_setup c z with
  | inr z1 => (z1, false)
  | inl z1 =>
    let n := ((z_n z1 + 1) mod 2^64)%N in
    let z2 := Size (z_max z1) (z_db z1) (z_tbl z1) (z_query z1) (z_analyze z1) n (z_m z1) in
    if negb (n mod z_m z2 =? 0)%N then (z2, true)
    else if negb (q_exec c (z_analyze z2)) then (z2, false)
    else match q_bytes c (z_query z2) with
         | None => (z2, false)
         | Some bytes => (z2, (bytes <? z_max z2)%N)
         end
  end.

(* ------------------------------------------------------------------------------------ *)
(** * Data and Or *)

(** A value of the interface [Data] (limit/data.go 16-19) other than the nil interface.  A nil
    [*Rows] in the interface is [DRows None], which is not the nil interface. *)
Inductive data :=
  | DRows (r : option rows)
  | DSize (z : size)
  | DOr (a b : data).

(** limit/data.go 35-50, [Or]; [None] is the nil interface. *)
Definition data_or (a b : option data) : option data :=
  match a, b with
  | None, None => None
  | None, Some b => Some b
  | Some a, None => Some a
  | Some a, Some b => Some (DOr a b)
  end.

(** [Data.Affected]: limit/data.go 52-55, 90, 174; [None] is the nil pointer panic. *)
Fixpoint affected (n : Z) (d : data) : option data :=
  match d with
  | DRows None => None
  | DRows (Some r) => Some (DRows (Some (rows_affected n r)))
  | DSize z => Some (DSize z)
  | DOr a b =>
    match affected n a with None => None | Some a' =>
    match affected n b with None => None | Some b' => Some (DOr a' b') end end
  end.

(** [Data.More]: limit/data.go 57-59 (with Go's short-circuit &&), 108, 178. *)
Fixpoint more (c : conn) (d : data) : option (data * bool) :=
  match d with
  | DRows None => None
  | DRows (Some r) => Some (DRows (Some r), rows_more r)
  | DSize z => let '(z', b) := size_more c z in Some (DSize z', b)
  | DOr a b =>
    match more c a with
    | None => None
    | Some (a', false) => Some (DOr a' b, false)
    | Some (a', true) =>
      match more c b with None => None | Some (b', r) => Some (DOr a' b', r) end
    end
  end.

(** Limit modifiers of a statement after parsing (trx/trx.go 271-299): [rows: max offset] as
    uint64s, [table-size: tbl max], [database-size: db max]. *)
Inductive limit_mod :=
  | ModRows (max offset : N)
  | ModTable (tbl : string) (max : N)
  | ModDatabase (db : string) (max : N).

(** Conversion of a uint64 to int64. *)
Definition i64_of (n : N) : Z := i64 (Z.of_N n).

(** trx/trx.go 284: the nil pointer of NewRows becomes a non-nil interface value. *)
Definition mod_data (m : limit_mod) : option data :=
  match m with
  | ModRows max offset => Some (DRows (new_rows (i64_of max) (i64_of offset)))
  | ModTable tbl max => Some (DSize (new_size max "" tbl))
  | ModDatabase db max => Some (DSize (new_size max db ""))
  end.

(** The field Limit of the statement after all modifiers. *)
Definition stmt_limit (ms : list limit_mod) : option data :=
  fold_left (fun l m => data_or l (mod_data m)) ms None.

(* ------------------------------------------------------------------------------------ *)
(** * A statement with limits executed by several clients

    client/client.go 310-314 (More), 315-320 (exec), 333-335 (error), 336-339 (Affected).  The
    unit of interleaving is one locked leaf operation; leaves in the order of [more] and
    [affected].  Only statements without result set are limited. *)

Inductive leaf := LRows (r : rows) | LSize (z : size).

Definition leaf_more (c : conn) (l : leaf) : leaf * bool :=
  match l with
  | LRows r => (LRows r, rows_more r)
  | LSize z => let '(z', b) := size_more c z in (LSize z', b)
  end.
Definition leaf_affected (n : Z) (l : leaf) : leaf :=
  match l with LRows r => LRows (rows_affected n r) | LSize z => LSize z end.

(** Where a client is: elsewhere in its trx; having passed the checks of the leaves before
    [j]; having executed (affecting [w] rows) and counted them in the leaves before [j]; gone. *)
Inductive lphase := LIdle | LCheck (j : nat) | LCount (w : Z) (j : nat) | LGone.

Record lstate := LState { l_leaves : list leaf; l_ph : nat -> lphase; l_written : Z }.

(** What happens next to a client. *)
Inductive laction :=
  | LStart                     (* reaches the statement *)
  | LMore (c : conn)           (* checks the next leaf *)
  | LExec (res : option Z)     (* executes: rows affected, or an error *)
  | LAffected                  (* counts in the next leaf *)
  | LLeave.                    (* stops for another reason *)

Definition lstep (s : lstate) (t : nat) (a : laction) : option lstate :=
  let go ph := natupd (l_ph s) t ph in
  match l_ph s t, a with
  | LIdle, LStart => Some (LState (l_leaves s) (go (LCheck 0)) (l_written s))
  | LIdle, LLeave => Some (LState (l_leaves s) (go LGone) (l_written s))
  | LCheck j, LMore c =>
    match nth_error (l_leaves s) j with
    | None => None
    | Some l =>
      let '(l', b) := leaf_more c l in
      match set_nth (l_leaves s) j l' with
      | None => None
      | Some ls => Some (LState ls (go (if b then LCheck (S j) else LGone)) (l_written s))
      end
    end
  | LCheck j, LExec res =>
    if Nat.eqb j (length (l_leaves s)) then
      match res with
      | None => Some (LState (l_leaves s) (go LIdle) (l_written s))
      | Some w => Some (LState (l_leaves s) (go (LCount w 0)) (l_written s + w))
      end
    else None
  | LCount w j, LAffected =>
    match nth_error (l_leaves s) j with
    | None => Some (LState (l_leaves s) (go LIdle) (l_written s))
    | Some l =>
      match set_nth (l_leaves s) j (leaf_affected w l) with
      | None => None
      | Some ls => Some (LState ls (go (LCount w (S j))) (l_written s))
      end
    end
  | _, _ => None
  end%Z.

Definition linit (ls : list leaf) : lstate := LState ls (fun _ => LIdle) 0.

(** Runs of the clients [0 .. k-1], each execution affecting 0 to [r] rows. *)
Inductive lrun (k : nat) (r : Z) (s0 : lstate) : list (nat * laction) -> lstate -> Prop :=
  | lrun_nil : lrun k r s0 [] s0
  | lrun_step tr s t a s' :
      lrun k r s0 tr s -> (t < k)%nat ->
      (forall w, a = LExec (Some w) -> 0 <= w <= r)%Z ->
      lstep s t a = Some s' -> lrun k r s0 (tr ++ [(t, a)]) s'.
