(** Vocabulary for the statements about trx files; nothing here refers to how package trx works. *)
From Verif Require Import Prelude ConfigModel ConfigSpec TrxModel.
#[local] Open Scope list_scope.
#[local] Open Scope string_scope.

(** ** SQL text with data keys *)
Definition letter (c : ascii) : Prop :=
  (65 <= nat_of_ascii c <= 90 \/ 97 <= nat_of_ascii c <= 122)%nat.
(** Characters of the name of a data key. *)
Definition name_char (c : ascii) : Prop := digit c \/ letter c \/ c = "_"%char \/ c = "-"%char.

(** Text, or a data key @n, with or without the explicit call parentheses. *)
Inductive tok := TLit (s : string) | TKey (n : string) (call : bool).

Definition tok_text (t : tok) : string :=
  match t with
  | TLit s => s
  | TKey n call => "@" ++ n ++ (if call then "()" else "")
  end.
Fixpoint sql (l : list tok) : string :=
  match l with
  | [] => ""
  | t :: l' => tok_text t ++ sql l'
  end.

Definition starts (P : ascii -> Prop) (s : string) : Prop :=
  match s with "" => False | String c _ => P c end.

(** No data key begins in [s] if [rest] follows it. *)
Fixpoint no_key (s rest : string) : Prop :=
  match s with
  | "" => True
  | String c s' => ~ (c = "@"%char /\ starts name_char (s' ++ rest)) /\ no_key s' rest
  end.

(** The tokens are the data keys of the text: text is free of keys, a name is as long as possible,
    and parentheses that follow a name belong to it. *)
Fixpoint clear (l : list tok) : Prop :=
  match l with
  | [] => True
  | t :: l' =>
      match t with
      | TLit s => no_key s (sql l')
      | TKey n call =>
          n <> "" /\ every name_char n /\
          (call = false -> ~ starts name_char (sql l') /\ forall r, sql l' <> "()" ++ r)
      end /\ clear l'
  end.

(** The data keys of a text, in order, as "@n". *)
Fixpoint key_names (l : list tok) : list string :=
  match l with
  | [] => []
  | TLit _ :: l' => key_names l'
  | TKey n _ :: l' => ("@" ++ n) :: key_names l'
  end.
(** Which of them are explicit calls. *)
Fixpoint key_calls (l : list tok) : list bool :=
  match l with
  | [] => []
  | TLit _ :: l' => key_calls l'
  | TKey _ c :: l' => c :: key_calls l'
  end.

(** No key is the beginning of another one. *)
Definition keys_prefix_free (ks : list string) : Prop :=
  forall a b t, In a ks -> In b ks -> b = a ++ t -> t = "".

(** The text with each key replaced by [f key]; @PREV is replaced by what the last other key
    before it is replaced by ([last]). *)
Fixpoint filled (f : string -> string) (last : string) (l : list tok) : string :=
  match l with
  | [] => ""
  | TLit s :: l' => s ++ filled f last l'
  | TKey n _ :: l' =>
      if String.eqb n "PREV" then f last ++ filled f last l'
      else f ("@" ++ n) ++ filled f ("@" ++ n) l'
  end.
(** The keys that the @PREV of a text refer to. *)
Fixpoint prevs (last : string) (l : list tok) : list string :=
  match l with
  | [] => []
  | TLit _ :: l' => prevs last l'
  | TKey n _ :: l' => if String.eqb n "PREV" then last :: prevs last l' else prevs ("@" ++ n) l'
  end.

Definition occurs (sub s : string) : Prop := exists a b, s = a ++ sub ++ b.

(** White space of ASCII. *)
Definition ws (c : ascii) : Prop := In (nat_of_ascii c) [9; 10; 11; 12; 13; 32]%nat.
(** [s] neither begins nor ends with white space. *)
Definition no_margin (s : string) : Prop :=
  ~ starts ws s /\ forall a c, s = a ++ String c "" -> ~ ws c.

(** Token [i] of [l] is the first one with key [n]. *)
Definition first_key (l : list tok) (i : nat) (n : string) : Prop :=
  (exists c, nth_error l i = Some (TKey n c)) /\
  forall j c, (j < i)%nat -> nth_error l j <> Some (TKey n c).

(** ** Layout of trx files (docs/content/syntax/trx-file.md) *)
Definition modifier_line (s : string) : bool := String.prefix "-- " s.

(** The lines before the line "-- EOF". *)
Fixpoint before_eof (ls : list string) : list string :=
  match ls with
  | [] => []
  | s :: ls' => if String.eqb s "-- EOF" then [] else s :: before_eof ls'
  end.
(** Runs of non-blank lines ([cur]: the run being read). *)
Fixpoint runs (cur ls : list string) : list (list string) :=
  match ls with
  | [] => match cur with [] => [] | _ => [cur] end
  | "" :: ls' => match cur with [] => runs [] ls' | _ => cur :: runs [] ls' end
  | s :: ls' => runs (cur ++ [s])%list ls'
  end.
(** The lines of a run that are SQL, and its modifiers. *)
Definition sql_lines (r : list string) := filter (fun s => negb (modifier_line s)) r.
Definition mod_lines (r : list string) := filter modifier_line r.
(** Lines joined by spaces. *)
Definition joined (r : list string) : string := String.concat " " r.
(** The statements: the SQL of each run that has SQL, with its modifiers; modifiers of a run
    without SQL ([pending]) belong to the next statement. *)
Fixpoint units (pending : list string) (rs : list (list string)) : list (string * list string) :=
  match rs with
  | [] => []
  | r :: rs' =>
      match sql_lines r with
      | [] => units (pending ++ mod_lines r)%list rs'
      | q => (joined q, pending ++ mod_lines r)%list :: units [] rs'
      end
  end.

(** ** CSV rows and copies *)

(** [n] rows separated by commas. *)
Fixpoint rows (n : nat) (row : list tok) : list tok :=
  match n with
  | O => []
  | S O => row
  | S n' => row ++ TLit ", " :: rows n' row
  end.

(** [row'] is [row] with the first occurrence of each key that satisfies [scoped] made an
    explicit call and nothing else changed. *)
Definition row_called (scoped : string -> Prop) (row row' : list tok) : Prop :=
  List.length row' = List.length row /\
  (forall i s, nth_error row i = Some (TLit s) -> nth_error row' i = Some (TLit s)) /\
  (forall i n c, nth_error row i = Some (TKey n c) -> first_key row i n -> scoped n ->
     nth_error row' i = Some (TKey n true)) /\
  (forall i n c, nth_error row i = Some (TKey n c) -> ~ (first_key row i n /\ scoped n) ->
     nth_error row' i = Some (TKey n c)).

(** A data key that is generated once per row: configured with scope row or without scope. *)
Definition row_scoped (f : fstate) (n : string) : Prop :=
  exists d, sget n (f_data f) = Some d /\ (d_scope d = "" \/ d_scope d = "row").

(** The placeholder of a key: ? if the statement is prepared, else the format of its generator. *)
Definition placeholder (prepared : bool) (f : fstate) (k : string) : string :=
  if prepared then "?" else match sget k (f_keys f) with Some x => k_fmt x | None => "" end.

(** [parts] with [sep] between them. *)
Fixpoint between (sep : string) (parts : list string) : string :=
  match parts with
  | [] => ""
  | [p] => p
  | p :: parts' => p ++ sep ++ between sep parts'
  end.

(** A word that ends before the end of the text. *)
Definition word_char (c : ascii) : Prop := digit c \/ letter c \/ c = "_"%char.
Definition word_ends (s : string) : Prop := exists w c r, s = w ++ String c r /\ every word_char w /\ ~ word_char c.

(** The statements of the texts [text i], [text (i+1)], ... ([n] of them), each with the modifiers
    [mods], parsed one after another. *)
Fixpoint written (T : tenv) (name : string) (text : N -> string) (mods : list string) (i : N) (n : nat) (f : fstate)
    : option (list pstmt * fstate) :=
  match n with
  | O => Some ([], f)
  | S n' =>
      match statements T name (text i) mods f with
      | Some (ss, f1) =>
          match written T name text mods (i + 1) n' f1 with
          | Some (ss', f2) => Some (ss ++ ss', f2)%list
          | None => None
          end
      | None => None
      end
  end.

(** [m] is the modifier on line [l]: the text after the two dashes, interpolated. *)
Definition modifier_of (T : tenv) (l m : string) : Prop :=
  exists r, l = "--" ++ r /\ vars (te_env T) (te_params T) true (trim_space r) = Some m.

(** The statements of [us] (text and modifier lines), parsed one after another, are [ss]. *)
Inductive parsed (T : tenv) (name : string) : list (string * list string) -> fstate -> list pstmt -> fstate -> Prop :=
| parsed_nil f : parsed T name [] f [] f
| parsed_cons q mods ms us f ss f1 ss' f2 :
    Forall2 (modifier_of T) mods ms ->
    statements T name q ms f = Some (ss, f1) ->
    parsed T name us f1 ss' f2 ->
    parsed T name ((q, mods) :: us) f (ss ++ ss')%list f2.

(** ** Queries that are not prepared *)

(** No character of [s] is a per cent sign. *)
Definition no_percent (s : string) : Prop := every (fun c => c <> "%"%char) s.
(** [fmt] prints one value, between [a] and [b]. *)
Definition prints (fmt a b : string) : Prop :=
  exists v, In v ["d"; "s"; "v"]%char /\ fmt = a ++ String "%" (String v b) /\ no_percent a /\ no_percent b.
(** The text with the keys replaced by their values: value i is that of the i-th key, written
    between [pre k] and [post k], where k is that key or, for @PREV, the last other key before. *)
Fixpoint sent (pre post : string -> string) (last : string) (l : list tok) (vals : list string) : string :=
  match l with
  | [] => ""
  | TLit s :: l' => s ++ sent pre post last l' vals
  | TKey n _ :: l' =>
      let k := if String.eqb n "PREV" then last else "@" ++ n in
      match vals with
      | v :: vals' => pre k ++ v ++ post k ++ sent pre post k l' vals'
      | [] => ""
      end
  end.

(** ** Kinds of statements *)

(** [w] is the word [u] in upper or lower case letters. *)
Definition letter_pair (c u : ascii) : Prop :=
  c = u \/ (97 <= nat_of_ascii c <= 122 /\ nat_of_ascii c = nat_of_ascii u + 32)%nat.
Fixpoint spells (w u : string) : Prop :=
  match w, u with
  | "", "" => True
  | String c w', String d u' => letter_pair c d /\ spells w' u'
  | _, _ => False
  end.
(** [w] is the first word of [q]. *)
Definition first_word (q w : string) : Prop :=
  exists r, q = w ++ r /\ every word_char w /\ ~ starts word_char r.
