(** Vocabulary for the statements about configuration files; nothing here refers to how
    config.Vars, With, Validate or Load work. *)
From Verif Require Import Prelude ConfigModel.
#[local] Open Scope list_scope.
#[local] Open Scope string_scope.

(** Every character of [s] satisfies [P]. *)
Fixpoint every (P : ascii -> Prop) (s : string) : Prop :=
  match s with
  | "" => True
  | String c s' => P c /\ every P s'
  end.

Definition digit (c : ascii) : Prop := (48 <= nat_of_ascii c <= 57)%nat.
Definition white (c : ascii) : Prop := In (nat_of_ascii c) [9; 10; 12; 13; 32].
Definition quote (c : ascii) : Prop := In (nat_of_ascii c) [34; 39].
Definition no_dollar (s : string) : Prop := every (fun c => c <> "$"%char) s.
Definition no_digit (s : string) : Prop := every (fun c => ~ digit c) s.
Definition digits (s : string) : Prop := every digit s.

(** [s] is empty or starts with white space or a quote. *)
Definition delimited (s : string) : Prop :=
  match s with
  | "" => True
  | String c _ => white c \/ quote c
  end.

(** A variable: $params.k, $sys.k, or the name of an environment variable. *)
Inductive var := VParam (k : string) | VSys (k : string) | VEnv (n : string).

Definition var_name (v : var) : string :=
  match v with
  | VParam k => "params." ++ k
  | VSys k => "sys." ++ k
  | VEnv n => n
  end.

Definition var_ok (v : var) : Prop :=
  match v with
  | VEnv n => forall k, n <> "params." ++ k /\ n <> "sys." ++ k
  | _ => True
  end.

(** Its value. *)
Definition meaning (E : env) (ps : smap string) (v : var) : option string :=
  match v with
  | VParam k => sget k ps
  | VSys k => e_sys E k
  | VEnv n => e_getenv E n
  end.

(** A text with references, as its author reads it: literal text, ${name} and $name. *)
Inductive piece := Lit (s : string) | Brace (v : var) | Bare (v : var).

Definition piece_text (p : piece) : string :=
  match p with
  | Lit s => s
  | Brace v => "${" ++ var_name v ++ "}"
  | Bare v => "$" ++ var_name v
  end.

Fixpoint text (l : list piece) : string :=
  match l with
  | [] => ""
  | p :: l' => piece_text p ++ text l'
  end.

(** What its author expects: each reference replaced by the value of its variable, all other
    text kept; no result if a variable is not defined. *)
Fixpoint expected (E : env) (ps : smap string) (l : list piece) : option string :=
  match l with
  | [] => Some ""
  | p :: l' =>
      match (match p with Lit s => Some s | Brace v => meaning E ps v | Bare v => meaning E ps v end),
            expected E ps l' with
      | Some a, Some b => Some (a ++ b)
      | _, _ => None
      end
  end.

(** Characters that may occur in a $name reference (the code also allows braces and further
    dollar signs; they do not help readability). *)
Definition bare_name_char (c : ascii) : Prop :=
  ~ white c /\ ~ quote c /\ c <> "$"%char /\ c <> "{"%char /\ c <> "}"%char.

(** Texts with unambiguous references: literals have no dollar sign, names are not empty, a
    ${name} has no closing brace in its name, and a $name ends at white space, a quote or the
    end of the text ("standalone value", config.go 198). *)
Fixpoint readable (l : list piece) : Prop :=
  match l with
  | [] => True
  | p :: l' =>
      match p with
      | Lit s => no_dollar s
      | Brace v => var_ok v /\ var_name v <> "" /\ every (fun c => c <> "}"%char) (var_name v)
      | Bare v => var_ok v /\ var_name v <> "" /\ every bare_name_char (var_name v) /\ delimited (text l')
      end /\ readable l'
  end.

(** No $name reference is the beginning of another one. *)
Definition prefix_free (l : list piece) : Prop :=
  forall v w t, In (Bare v) l -> In (Bare w) l -> var_name w = var_name v ++ t -> t = "".

(** The values of the ${name} references of [l] have no dollar sign. *)
Definition braces_plain (E : env) (ps : smap string) (l : list piece) : Prop :=
  forall v x, In (Brace v) l -> meaning E ps v = Some x -> no_dollar x.

(** The value that the stage file sets if it sets it, else that of _all.yaml. *)
Definition prefer (own inherited effective : string) : Prop :=
  (own <> "" -> effective = own) /\ (own = "" -> effective = inherited).
Definition prefer_bool (own inherited effective : option bool) : Prop :=
  (own <> None -> effective = own) /\ (own = None -> effective = inherited).

(** A string of digits and commas that ends with a digit, then unit letters: "1,000", "1k",
    "1KiB" (docs/content/syntax/values.md). *)
Definition human_number (s : string) : Prop :=
  exists num d unit,
    s = num ++ String d unit /\ digit d /\
    every (fun c => digit c \/ c = ","%char) num /\
    every (fun c => In c ["M"; "K"; "G"; "B"; "I"; "m"; "k"; "g"; "b"; "i"]%char) unit.

(** [s] is the decimal notation (possibly with leading zeros) of [n]. *)
Inductive decimal : string -> N -> Prop :=
| dec_one d : digit d -> decimal (String d "") (N.of_nat (nat_of_ascii d - 48))
| dec_more s n d : decimal s n -> digit d ->
    decimal (s ++ String d "") (n * 10 + N.of_nat (nat_of_ascii d - 48))%N.

(** The environment [E] with the params maps visited in order [o]. *)
Definition with_order (E : env) (o : nat -> list string -> list string) : env :=
  Env (e_getenv E) (e_sys E) (e_parse_bytes E) (e_parse_duration E) (e_exists E) (e_base E) o.
