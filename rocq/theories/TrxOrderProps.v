(** C103: columns are saved once, and before they are used. *)
From Verif Require Import Prelude ConfigModel TrxModel TrxOrderSpec TrxOrderProofs TrxProps.
#[local] Open Scope string_scope.
#[local] Open Scope list_scope.

(** Of all the statements in the trx files of an accepted stage, in the order of the files, at most one saves a
    given column, it saves it once, and no statement before it uses the column. *)
Theorem C103_saved_once T read xs set set' : load_trx T read xs set = Some set' ->
  exists sss, files_of T read xs sss /\ saved_once (concat sss) /\
    (forall n ss, sget n (t_stmts set') = Some ss -> sget n (t_stmts set) = Some ss \/ In ss sss).
Proof.
  intros H. destruct (load_trx_chain T read xs set set' H) as (sss & A & B & C). exists sss. split; [exact A|].
  split; [exact (chain_once _ _ _ B)|exact C].
Qed.
Print Assumptions C103_saved_once.

(** A key of an earlier stage or file cannot be saved either. *)
Theorem C103_not_twice T read xs set set' : load_trx T read xs set = Some set' ->
  exists sss, files_of T read xs sss /\
    forall s o, In s (concat sss) -> psaves s o -> o <> "" -> o <> "_" -> sget o (t_keys set) = None /\ sget o (t_keys set') <> None.
Proof.
  intros H. destruct (load_trx_chain T read xs set set' H) as (sss & A & B & _). exists sss. split; [exact A|].
  intros s o I P N0 N. apply In_nth_error in I as [i I]. destruct (chain_nth _ _ _ B i s I) as (m1 & m2 & S1 & ST & C2).
  pose proof (psaves_out _ _ _ _ ST N0 P) as O. destruct ST as (_ & [F _] & _). destruct (F o O N) as [X Y]. split.
  - destruct (sget o (t_keys set)) as [v|] eqn:E; [|reflexivity]. exfalso. apply X. unfold hk. rewrite (S1 _ _ E). discriminate.
  - exact (sub_hk _ _ _ (chain_sub _ _ _ C2) Y).
Qed.
Print Assumptions C103_not_twice.

Definition order_file (f : string) : option (list string) :=
  if String.eqb f "1" then Some ["-- save-columns: @x, _, @y"; "SELECT a, b, c FROM t WHERE d=@d"; ""; "UPDATE t SET b=@x WHERE c=@y"]
  else if String.eqb f "2" then Some ["-- save-insert-id: @z"; "INSERT INTO t VALUES (@x, @d)"; ""; "DELETE FROM t WHERE a=@z"]
  else if String.eqb f "late" then Some ["UPDATE t SET b=@d WHERE c=@y"; ""; "-- save-columns: @y"; "SELECT a FROM t"]
  else if String.eqb f "twice" then Some ["-- save-columns: @x, @x"; "SELECT a, b FROM t WHERE c=@x"]
  else if String.eqb f "copies" then Some ["-- copies: 2"; "-- save-columns: @x"; "SELECT a, b FROM t WHERE c=@x"]
  else None.
Definition none : tset := TSet [] [] [] [].
Definition with_d : smap data := [("d", Data "d" "int" "" []); ("y", Data "y" "int" "" [])].
Example C103_example :
  (exists set', load_trx T1 order_file [Trx "a" "1" with_d; Trx "b" "2" with_d] none = Some set' /\
     map (fun x => map p_outputs (snd x)) (t_stmts set') = [[["@x"; "_"; "@y"]; []]; [["@z"]; []]] /\
     map (fun x => map p_inputs (snd x)) (t_stmts set') = [[["@d"]; ["@x"; "@y"]]; [["@x"; "@d"]; ["@z"]]]) /\
  load_trx T1 order_file [Trx "a" "late" with_d] none = None /\
  load_trx T1 order_file [Trx "a" "twice" with_d] none = None /\
  load_trx T1 order_file [Trx "a" "copies" with_d] none = None /\
  load_trx T1 order_file [Trx "a" "1" with_d; Trx "b" "1" with_d] none = None.
Proof.
  split; [eexists; split; [vm_compute; reflexivity|]; split; reflexivity|]. repeat split; vm_compute; reflexivity.
Qed.
