(** Specification vocabulary for the order of saving and using columns in trx files. *)
From Verif Require Import Prelude ConfigModel TrxModel.
#[local] Open Scope string_scope.
#[local] Open Scope list_scope.

(** The statements of the files, one list for each file, in order. *)
Definition files_of (T : tenv) (read : string -> option (list string)) (xs : list trx) (sss : list (list pstmt)) : Prop :=
  Forall2 (fun x ss => exists ls keys f, read (x_file x) = Some ls /\ load_file T (x_name x) ls keys (x_data x) = Some (ss, f)) xs sss.

(** Statement [s] saves column [o] (also as insert id). *)
Definition psaves (s : pstmt) (o : string) : Prop := In o (p_outputs s) \/ p_insert s = o.

(** A column is saved by at most one statement, once, and not after a statement that uses it. *)
Definition saved_once (ss : list pstmt) : Prop :=
  (forall i j s t o, nth_error ss i = Some s -> nth_error ss j = Some t -> o <> "" -> o <> "_" ->
     psaves t o -> psaves s o -> i = j) /\
  (forall i j s t o, nth_error ss i = Some s -> nth_error ss j = Some t -> o <> "" -> o <> "_" -> o <> "@PREV" ->
     psaves t o -> In o (p_inputs s) -> (j <= i)%nat) /\
  (forall s, In s ss -> NoDup (filter (fun o => negb (String.eqb o "_")) (p_outputs s))).
