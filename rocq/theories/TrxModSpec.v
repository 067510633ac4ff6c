(** What the modifiers of a statement mean (docs/content/syntax/trx-file.md); nothing here refers to
    how they are parsed. *)
From Verif Require Import Prelude ConfigModel ConfigSpec TrxModel TrxSpec.
#[local] Open Scope list_scope.
#[local] Open Scope string_scope.

(** The words of a text, separated by white space. *)
Inductive words : string -> list string -> Prop :=
| words_none b : every ws b -> words b []
| words_last b w : every ws b -> w <> "" -> every (fun c => ~ ws c) w -> words (b ++ w) [w]
| words_more b w c s l : every ws b -> w <> "" -> every (fun c => ~ ws c) w -> ws c -> words s l ->
    words (b ++ w ++ String c s) (w :: l).

(** The word [w] is the name [m], perhaps with colons around. *)
Definition named (m w : string) : Prop :=
  exists a b, every (fun c => c = ":"%char) a /\ every (fun c => c = ":"%char) b /\ w = a ++ m ++ b.

(** The column [c] is saved by the word [w], which may end with a comma. *)
Definition saved (w c : string) : Prop := w = c ++ "," \/ (w = c /\ forall x, c <> x ++ ",").

Inductive effect :=
| EPrepare
| EIdle (d : Z)
| ELimit (l : lim)
| EInsert (c : string)
| EColumns (cs : list string).

(** [means E md e]: the modifier [md] has the effect [e]. *)
Inductive means (E : env) (md : string) : effect -> Prop :=
| means_prepare w l : words md (w :: l) -> named "prepare" w \/ named "prepared" w -> means E md EPrepare
| means_idle w a l d : words md (w :: a :: l) -> named "idle" w -> e_parse_duration E a = Some d -> means E md (EIdle d)
| means_rows w a n : words md [w; a] -> named "rows" w -> decimal a n -> (n < 2 ^ 64)%N -> means E md (ELimit (LRows n 0))
| means_offset w a n b k : words md [w; a; b] -> named "rows" w -> decimal a n -> decimal b k ->
    (n < 2 ^ 64)%N -> (k < 2 ^ 64)%N -> means E md (ELimit (LRows n k))
| means_rows_more w a n b1 b2 l : words md (w :: a :: b1 :: b2 :: l) -> named "rows" w -> decimal a n -> (n < 2 ^ 64)%N ->
    means E md (ELimit (LRows n 0))
| means_table w a b n : words md [w; a; b] -> named "table-size" w -> e_parse_bytes E b = Some n ->
    means E md (ELimit (LSize n b "" a))
| means_database w a b n : words md [w; a; b] -> named "database-size" w -> e_parse_bytes E b = Some n ->
    means E md (ELimit (LSize n b a ""))
| means_insert w a l c : words md (w :: a :: l) -> named "save-insert-id" w -> saved a c -> means E md (EInsert c)
| means_columns w l cs : words md (w :: l) -> named "save-columns" w -> Forall2 saved l cs -> means E md (EColumns cs).

(** The last of a list, or [d]. *)
Definition latest {A} (d : A) (l : list A) : A := last l d.

Definition prepares (e : effect) : bool := match e with EPrepare => true | _ => false end.
Definition idles (e : effect) : list Z := match e with EIdle d => [d] | _ => [] end.
Definition limits (e : effect) : list lim := match e with ELimit l => [l] | _ => [] end.
Definition inserts (e : effect) : list string := match e with EInsert c => [c] | _ => [] end.
Definition outs (e : effect) : list string := match e with EInsert c => [c] | EColumns cs => cs | _ => [] end.
