(** Specification vocabulary for the data limits. *)
From Verif Require Import Prelude GenModel LimitModel.
#[local] Open Scope string_scope.
#[local] Open Scope list_scope.

(** the single limits of a combined one, in order; [None] if there is a nil pointer among them *)
Fixpoint leaves_of_data (d : data) : option (list leaf) :=
  match d with
  | DRows None => None
  | DRows (Some r) => Some [LRows r]
  | DSize z => Some [LSize z]
  | DOr a b =>
    match leaves_of_data a, leaves_of_data b with
    | Some la, Some lb => Some (la ++ lb)
    | _, _ => None
    end
  end.

(** checking the leaves one after the other until one refuses *)
Fixpoint check_leaves (c : conn) (ls : list leaf) : list leaf * bool :=
  match ls with
  | [] => ([], true)
  | l :: ls' =>
    let '(l', b) := leaf_more c l in
    if b then let '(ls2, b2) := check_leaves c ls' in (l' :: ls2, b2) else (l' :: ls', false)
  end.

(** the limit a modifier asks for *)
Definition mod_leaf (m : limit_mod) : leaf :=
  match m with
  | ModRows max offset => LRows (Rows (Z.of_N max) (Z.of_N offset))
  | ModTable tbl max => LSize (new_size max "" tbl)
  | ModDatabase db max => LSize (new_size max db "")
  end.
Definition mod_fits (m : limit_mod) : Prop :=
  match m with ModRows max offset => (0 < max < 2^63 /\ offset < 2^63)%N | _ => True end.

(** the SQL asking for the size of one table *)
Definition table_query (db tbl : string) : string :=
  ("SELECT COALESCE(data_length + index_length, 0) AS bytes FROM information_schema.TABLES WHERE "
  ++ "table_schema='" ++ db ++ "' AND table_name='" ++ tbl ++ "'")%string.

(** successive calls of More on a size limit *)
Fixpoint size_calls (z : size) (cs : list conn) : list bool :=
  match cs with
  | [] => []
  | c :: cs' => let '(z', b) := size_more c z in b :: size_calls z' cs'
  end.
Definition count_true (l : list bool) : nat := length (filter (fun b => b) l).
Definition count_false (l : list bool) : nat := length (filter negb l).

(** executions of client [t] in a run *)
Definition executes (t : nat) (e : nat * laction) : Prop := fst e = t /\ exists res, snd e = LExec res.

(** MySQL rejects the empty statement and ANALYZE TABLE without tables *)
Definition mysql (c : conn) : Prop := q_exec c "" = false /\ q_exec c "ANALYZE TABLE " = false.
