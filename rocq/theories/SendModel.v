(** The text of a query that is not prepared: client/client.go 285, 319 with package fmt. *)
From Verif Require Import Prelude ScopeModel GenModel DataModel.
From Verif Require ConfigModel TrxModel.
#[local] Open Scope string_scope.
#[local] Open Scope list_scope.

(** %d of an int64. *)
Definition int_text (z : Z) : string :=
  if (z <? 0)%Z then "-" ++ ConfigModel.format_uint (Z.to_N (- z)) else ConfigModel.format_uint (Z.to_N z).

(** fmt: value [x] with verb [v], one of d, s and v; nil is [None] (values[i] is not set) or what a column holds before it is saved.
    [None]: a verb for another kind of value, which is printed with its type and is not modelled. *)
Definition nil_text (v : ascii) : string := if Ascii.eqb v "v" then "<nil>" else "%!" ++ String v "(<nil>)".
Definition print (v : ascii) (x : option dval) : option string :=
  match x with
  | None | Some (DCol CVNil) => Some (nil_text v)
  | Some (DInt z) | Some (DCol (CVVal z)) => if Ascii.eqb v "s" then None else Some (int_text z)
  | Some (DUint n) => if Ascii.eqb v "s" then None else Some (ConfigModel.format_uint n)
  | Some (DStr s) | Some (DCol (CVStr s)) => if Ascii.eqb v "d" then None else Some (string_of_list_ascii s)
  end.

(** fmt.Sprintf(format, vals...), as TrxModel.sprintf, on the values themselves. *)
Fixpoint sprint (fmt : string) (vals : list (option dval)) : option string :=
  match fmt with
  | "" => match vals with [] => Some "" | _ => None end
  | "%" => match vals with [] => Some "%!(NOVERB)" | _ => None end
  | String "%" (String v t) =>
      if Ascii.eqb v "%" then option_map (append "%") (sprint t vals)
      else if TrxModel.is_flag v then None
      else
        match vals with
        | x :: vals' =>
            if TrxModel.is_verb v then
              match print v x with Some p => option_map (append p) (sprint t vals') | None => None end
            else None
        | [] => option_map (append ("%!" ++ String v "(MISSING)")) (sprint t [])
        end
  | String c t => option_map (String c) (sprint t vals)
  end.
