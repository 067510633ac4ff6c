(** Vocabulary for the text of queries. *)
From Verif Require Import Prelude ConfigModel ConfigSpec TrxModel TrxSpec GenModel DataModel DataSpec.
From Verif Require PipeModel ScopeModel ReportModel WorkloadModel WorkloadSpec.
#[local] Open Scope string_scope.
#[local] Open Scope list_scope.

(** [t] is the decimal notation of [n] without leading zeros. *)
Definition short_decimal (t : string) (n : N) : Prop := decimal t n /\ forall r, t = String "0" r -> r = "".
(** [t] is value [x] written out. *)
Inductive int_text_of : Z -> string -> Prop :=
  | ItPos z t : (0 <= z)%Z -> short_decimal t (Z.to_N z) -> int_text_of z t
  | ItNeg z t : (z < 0)%Z -> short_decimal t (Z.to_N (- z)) -> int_text_of z ("-" ++ t).
Inductive text_of : dval -> string -> Prop :=
  | TxInt z t : int_text_of z t -> text_of (DInt z) t
  | TxUint n t : short_decimal t n -> text_of (DUint n) t
  | TxStr s : text_of (DStr s) (string_of_list_ascii s)
  | TxColInt z t : int_text_of z t -> text_of (DCol (CVVal z)) t
  | TxColStr s : text_of (DCol (CVStr s)) (string_of_list_ascii s).

(** Kinds of values: numbers, strings, what a column holds after it was saved. *)
Inductive vkind := KNumber | KText | KSaved.
Definition is_kind (k : vkind) (x : dval) : Prop :=
  match k, x with
  | KNumber, DInt _ | KNumber, DUint _ | KText, DStr _ | KSaved, DCol (CVVal _) | KSaved, DCol (CVStr _) => True
  | _, _ => False
  end.
(** The generators of numbers and of strings (docs/content/data/generators.md). *)
Definition numbers := ["int"; "int-gaps"; "int-range"; "int-range-seq"; "auto-inc"; "client-id"].
Definition strings := ["str-fill-az"; "xid"].

(** quote-value of trx [x] says yes for data key [key]. *)
Definition yes (s : string) : Prop := In (ReportModel.to_lower s) ["true"; "yes"; "on"; "aye"].
Definition quote_value (key : string) (x : trx) : Prop :=
  exists d s, sget (cfg_key key) (x_data x) = Some d /\ sget "quote-value" (d_params d) = Some s /\ yes s.

(** A key of stage [a] that other stages do not see. *)
Definition local_key (sts : list WorkloadModel.stagecfg) (a : nat) (key : string) : Prop :=
  exists sc, WorkloadSpec.scope_in (WorkloadSpec.keys_at WorkloadSpec.no_keys sts a) key = Some sc /\ sc <> ScopeModel.SStage /\ sc <> ScopeModel.SGlobal.
(** The quotes around the values of data key [key] of stage [a], and what they are. *)
Inductive written (l : list (stage * tset)) (sts : list WorkloadModel.stagecfg) (a : nat) (key : string) : string -> vkind -> Prop :=
  | WNumber d : configured l a key d -> local_key sts a key -> In (d_gen d) numbers -> written l sts a key "" KNumber
  | WString d : configured l a key d -> local_key sts a key -> In (d_gen d) strings -> written l sts a key "'" KText
  | WQuoted c set k : nth_error l a = Some (c, set) -> sget key (t_keys set) = Some k -> k_col k <> None -> local_key sts a key ->
      (forall x, In x (s_trx c) -> quote_value key x) -> written l sts a key "'" KSaved
  | WBare c set k : nth_error l a = Some (c, set) -> sget key (t_keys set) = Some k -> k_col k <> None -> local_key sts a key ->
      (forall x, In x (s_trx c) -> ~ quote_value key x) -> written l sts a key "" KSaved.

(** The [j]-th statement in the file of trx [name] is [q], and no statement of that file has the modifier "copies". *)
Definition file_stmt (P : PipeModel.penv) (c : stage) (name : string) (j : nat) (q : string) : Prop :=
  exists x ls mods, In x (s_trx c) /\ x_name x = name /\ PipeModel.pe_read P (s_file c) (x_file x) = Some ls /\
    nth_error (units [] (runs [] (before_eof (map trim_space ls)))) j = Some (q, mods).
Definition no_copies (P : PipeModel.penv) (c : stage) (name : string) : Prop :=
  forall x ls t m, In x (s_trx c) -> x_name x = name -> PipeModel.pe_read P (s_file c) (x_file x) = Some ls ->
    In t (map trim_space ls) -> modifier_of (PipeModel.tenv_of P c) t m -> ~ occurs "copies" m.

(** The values for the keys [ks] are of their kinds; those for @PREV are of the kind of the last other key before. *)
Fixpoint kinds (kind : string -> vkind) (last : string) (ks : list string) (vals : list dval) : Prop :=
  match ks, vals with
  | [], [] => True
  | k :: ks', v :: vals' => let k' := if String.eqb k "@PREV" then last else k in is_kind (kind k') v /\ kinds kind k' ks' vals'
  | _, _ => False
  end.
