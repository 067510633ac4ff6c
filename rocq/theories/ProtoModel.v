(** Model of the client's requests (proto/proto.go 46-105) and of how a remote reports its boot and
    fetches trx files (compute/client.go 105-128, 187-225).

    An attempt's outcome is chosen freely: how much of the request's body the HTTP transport has
    read from the buffer, whether and what the server answered, and whether the context is done
    when the code looks at it.  Logging, sleeping and the URL are left out. *)
From Verif Require Import Prelude ConfigModel.
#[local] Open Scope string_scope.
#[local] Open Scope list_scope.

(** [Reply code body]: an answer; [None]: reading its body failed. *)
Inductive reply := NoReply | Reply (code : nat) (body : option string).
Record attempt := Att { a_read : nat; a_reply : reply; a_ctx : bool }.

Inductive result :=
| Done (code : nat) (body : option string)   (* resp, body, nil; [None]: a nil body *)
| ReadError                                  (* nil, nil, err of io.ReadAll *)
| Cancelled                                  (* nil, nil, ctx.Err() *)
| Failed.                                    (* nil, nil, ErrFailed *)

(** buf after n bytes were read from it *)
Fixpoint sdrop (n : nat) (s : string) : string :=
  match n, s with
  | S n', String _ s' => sdrop n' s'
  | _, _ => s
  end.

(** The loop of request, proto.go 65-104: [try] attempts were made, the buffer has [buf].  Result:
    the contents of the requests sent, and what is returned; [None] if the outcomes of [l] are
    used up (it goes on). *)
Fixpoint request_loop (tries try : Z) (buf : string) (l : list attempt) : list string * option result :=
  if (Z.eqb tries (-1) || Z.ltb try tries)%bool then
    match l with
    | [] => ([], None)
    | a :: l' =>
        let retry :=
          if a_ctx a then ([buf], Some Cancelled)
          else
            let r := request_loop tries (try + 1)%Z (sdrop (a_read a) buf) l' in (buf :: fst r, snd r) in
        match a_reply a with
        | NoReply => retry
        | Reply _ None => ([buf], Some ReadError)
        | Reply code (Some body) =>
            if Nat.eqb code 200 then ([buf], Some (Done 200 (Some body)))
            else if Nat.eqb code 205 then ([buf], Some (Done 205 None))
            else retry
        end
    end
  else ([], Some Failed).

(** request, proto.go 55-105; [data] is the JSON of the data, "" if there is none. *)
Definition request (tries : Z) (data : string) (l : list attempt) : list string * option result :=
  request_loop tries 0 data l.

(** The JSON of an error message, client.go 118 with json.Encoder.Encode: quotes and a line feed
    around it.  Escapes are left out (they only make it longer). *)
Definition json_error (msg : string) : string :=
  (String (Ascii.ascii_of_nat 34) msg ++ String (Ascii.ascii_of_nat 34) (String (Ascii.ascii_of_nat 10) ""))%string.

(** How a remote reports its boot, client.go 116-127: three tries with an error, ten without. *)
Definition report_boot (err : option string) (l : list attempt) : list string * option result :=
  match err with
  | Some msg => request 3 (json_error msg) l
  | None => request 10 "" l
  end.

(** * Trx files, client.go 187-225 *)
(** filepath.Base for paths that end with a file name: what follows the last slash. *)
Fixpoint base (s : string) : string :=
  match s with
  | "" => ""
  | String c s' => if Ascii.eqb c "/" then base s'
                   else if existsb (Ascii.eqb "/") (list_ascii_of_string s') then base s' else s
  end.

(** Writing [new] at the beginning of a file with content [old] without truncating it. *)
Fixpoint overwrite (old new : string) : string :=
  match new with
  | "" => old
  | String c new' => String c (overwrite (match old with "" => "" | String _ o => o end) new')
  end.

(** getTrxFiles: [fs] the local files, [fetch i] what GET /file answers for i, [root]: the process may
    open files it has no permission for (they are made with mode 0440).  Result: the new names and
    files, or [None] for an error. *)
Fixpoint get_files (fetch : nat -> option string) (root : bool) (tmp : string) (i : nat) (trx : list string)
    (fs : smap string) : option (list string * smap string) :=
  match trx with
  | [] => Some ([], fs)
  | f :: rest =>
      match sget f fs with
      | Some _ =>
          match get_files fetch root tmp (S i) rest fs with
          | Some (l, fs') => Some (f :: l, fs')
          | None => None
          end
      | None =>
          match fetch i with
          | None => None
          | Some body =>
              let name := (tmp ++ "/" ++ base f)%string in
              match sget name fs with
              | Some old =>
                  if root then
                    match get_files fetch root tmp (S i) rest (sset name (overwrite old body) fs) with
                    | Some (l, fs') => Some (name :: l, fs')
                    | None => None
                    end
                  else None
              | None =>
                  match get_files fetch root tmp (S i) rest (sset name (overwrite "" body) fs) with
                  | Some (l, fs') => Some (name :: l, fs')
                  | None => None
                  end
              end
          end
      end
  end.
