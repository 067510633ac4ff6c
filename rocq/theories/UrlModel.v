(** Model of the URLs of a remote's requests: finch.WithPort (finch.go 164-173), compute.NewClient
    (compute/client.go 35-47), proto.Client.URL (proto/proto.go 107-119), and what the server reads from
    them (compute/api.go 244-265 and 424-449).

    QueryEscape, Parse and ParseQuery of Go's net/url are not in /repo; their behaviour is modelled from
    their documentation: bytes other than letters, digits, - _ . ~ are escaped, a space as +; the query is
    what follows the first question mark before the first #; parameters are separated by &, those with
    a ; or a wrong escape are dropped. *)
From Verif Require Import Prelude ConfigModel.
#[local] Open Scope string_scope.
#[local] Open Scope list_scope.

(** url.QueryEscape: bytes that stand for themselves. *)
Definition plain (c : ascii) : bool :=
  let n := N_of_ascii c in
  ((48 <=? n) && (n <=? 57) || (65 <=? n) && (n <=? 90) || (97 <=? n) && (n <=? 122)
   || (n =? 45) || (n =? 95) || (n =? 46) || (n =? 126))%N.
Definition hex (n : N) : ascii := ascii_of_N (if (n <? 10)%N then 48 + n else 55 + n).
Definition escape_char (c : ascii) : string :=
  if plain c then String c ""
  else if Ascii.eqb c " " then "+"
  else String "%" (String (hex (N_of_ascii c / 16)) (String (hex (N_of_ascii c mod 16)) "")).
Fixpoint escape (s : string) : string :=
  match s with "" => "" | String c r => (escape_char c ++ escape r)%string end.

(** strings.Join *)
Fixpoint join (sep : string) (l : list string) : string :=
  match l with [] => "" | [x] => x | x :: r => (x ++ sep ++ join sep r)%string end.

(** Client.URL, proto.go 107-119 *)
Definition url (addr path name : string) (params : list (string * string)) (sid : string) : string :=
  (addr ++ path ++ "?name=" ++ escape name ++ "&"
   ++ join "&" (map (fun kv => (fst kv ++ "=" ++ escape (snd kv))%string) params ++ [("stage-id=" ++ sid)%string])%list)%string.

(** strings.Cut at the first [c] *)
Fixpoint cut (c : ascii) (s : string) : string * option string :=
  match s with
  | "" => ("", None)
  | String x r => if Ascii.eqb x c then ("", Some r) else let (a, b) := cut c r in (String x a, b)
  end.
Fixpoint split (c : ascii) (s : string) : list string :=
  match s with
  | "" => [""]
  | String x r =>
      if Ascii.eqb x c then "" :: split c r
      else match split c r with [] => [String x ""] | y :: l => String x y :: l end
  end.

(** url.QueryUnescape; hexadecimal digits of both cases are accepted. *)
Definition unhex (c : ascii) : option N :=
  let n := N_of_ascii c in
  (if (48 <=? n) && (n <=? 57) then Some (n - 48)
   else if (65 <=? n) && (n <=? 70) then Some (n - 55)
   else if (97 <=? n) && (n <=? 102) then Some (n - 87) else None)%N.
Fixpoint unescape (s : string) : option string :=
  match s with
  | "" => Some ""
  | String "%" (String a (String b r)) =>
      match unhex a, unhex b, unescape r with
      | Some x, Some y, Some t => Some (String (ascii_of_N (16 * x + y)) t)
      | _, _, _ => None
      end
  | String c r =>
      if Ascii.eqb c "%" then None
      else match unescape r with Some t => Some (String (if Ascii.eqb c "+" then " "%char else c) t) | None => None end
  end.

(** url.ParseQuery: the parameters in order. *)
Definition parse_param (s : string) : list (string * string) :=
  if String.eqb s "" then []
  else match cut ";" s with
  | (_, Some _) => []
  | _ =>
      let (k, v) := cut "=" s in
      match unescape k, unescape (match v with Some v => v | None => "" end) with
      | Some k, Some v => [(k, v)]
      | _, _ => []
      end
  end.
Definition parse_query (q : string) : list (string * string) := flat_map parse_param (split "&" q).

(** The query of a URL, and what is before it. *)
Definition parse_url (u : string) : string * list (string * string) :=
  let (p, q) := cut "?" (fst (cut "#" u)) in (p, parse_query (match q with Some q => q | None => "" end)).

(** q[k][0] *)
Fixpoint value (k : string) (q : list (string * string)) : option string :=
  match q with [] => None | (k', v) :: r => if String.eqb k k' then Some v else value k r end.

(** clean, api.go 500-503 *)
Fixpoint clean (s : string) : string :=
  match s with
  | "" => ""
  | String c r => if (Ascii.eqb c "010" || Ascii.eqb c "013")%bool then clean r else String c (clean r)
  end.

(** The name and stage ID that the handlers take from a URL, api.go 424-449. *)
Definition server_sees (u : string) : option (string * string) :=
  let q := snd (parse_url u) in
  match value "name" q, value "stage-id" q with
  | Some n, Some i => Some (clean n, clean i)
  | _, _ => None
  end.
(** The number of the file that /file takes, api.go 244-265, before Atoi. *)
Definition server_file (u : string) : option string :=
  let q := snd (parse_url u) in
  match value "stage" q, value "i" q with Some _, Some i => Some (clean i) | _, _ => None end.

(** * The address *)
(** portRe, finch.go 164: a colon and digits at the end. *)
Fixpoint has_port (s : string) : bool :=
  match s with
  | "" => false
  | String c r => ((Ascii.eqb c ":" && negb (String.eqb r "") && all_digits r) || has_port r)%bool
  end.
Definition with_port (s p : string) : string := if has_port s then s else (s ++ ":" ++ p)%string.

(** NewClient: the address of the requests and the one for logging and the reporter. *)
Definition starts_http (s : string) : bool := String.prefix "http://" s.
Fixpoint trim_slash (s : string) : string :=
  match s with "" => "" | String c r => if (String.eqb r "" && Ascii.eqb c "/")%bool then "" else String c (trim_slash r) end.
Definition new_client (addr : string) : string * string :=
  let a := if starts_http addr then addr else ("http://" ++ addr)%string in (a, trim_slash a).

(** --client ADDR, boot.go 88-90 *)
Definition client_addr (arg : string) : string := fst (new_client (with_port arg "33075")).
