(** The built-in data generators behind their common interface: data/generator.go, with the constructors' reading of
    parameters (data/integer.go, string.go, id.go, column.go).  The generators themselves are those of GenModel.v and
    GapsModel.v. *)
From Verif Require Import Prelude ScopeModel GenModel GapsModel.
From Verif Require ConfigModel TrxModel ReportModel.
#[local] Open Scope string_scope.
#[local] Open Scope list_scope.
Notation smap := ConfigModel.smap.
Notation sget := ConfigModel.sget.

(** A value that a generator returns (the elements of []interface{}): an int64, a uint or uint64, a string, what a column
    holds. *)
Inductive dval := DInt (z : Z) | DUint (n : N) | DStr (s : list ascii) | DCol (v : colval).

(** A data.Generator made by the built-in factory.  int-gaps, int-range and int-range-seq keep their parameters. *)
Inductive gen :=
  | GInt (g : int_gen)
  | GGaps (ps : smap string) (g : gaps)
  | GRange (ps : smap string) (g : int_range)
  | GSeq (ps : smap string) (g : int_seq)
  | GInc (g : auto_inc)
  | GStr (len : Z)
  | GXid
  | GCid (ids : list nat)
  | GCol (quote : bool) (c : column).

(** generator.go 116-130: the parameter for int64From ([strconv.ParseInt], base 10, 64 bits). *)
Definition int_of (ps : smap string) (k : string) : param :=
  match sget k ps with
  | None => PNone
  | Some s => match TrxModel.atoi s with Some z => PVal z | None => PBad end
  end.
(** integer.go 306-322: [strconv.ParseUint]. *)
Definition uint_of (ps : smap string) (k : string) : option (option N) :=
  match sget k ps with None => None | Some s => Some (TrxModel.parse_uint64 s) end.
(** Reading a parameter that is not there. *)
Definition str_of (ps : smap string) (k : string) : string := match sget k ps with Some s => s | None => "" end.

(** finch.go 152-155, [Bool]. *)
Definition bool_of (s : string) : bool :=
  let v := ReportModel.to_lower s in
  (String.eqb v "true" || String.eqb v "yes" || String.eqb v "on" || String.eqb v "aye")%bool.

Section Make.
  (** Whether [strconv.ParseFloat] accepts a string. *)
  Variable float_ok : string -> bool.

  (** generator.go 54-88, factory.Make: an error is [None].  NewInt (integer.go 33-76), NewIntGaps (119-151), NewIntRange
      (179-203), NewIntRangeSeq (240-266), NewAutoInc (301-324), NewStrFillAz (string.go 28-40), NewXid (id.go 21-23),
      NewClientId (46-77), NewColumn (column.go 24-28). *)
  Definition gen_make (name : string) (ps : smap string) : option gen :=
    if String.eqb name "int" then
      option_map GInt (new_int (int_of ps "min") (int_of ps "max") (int_of ps "mean")
        (String.eqb (ReportModel.to_lower (str_of ps "dist")) "normal")
        (match sget "stddev" ps with Some s => negb (float_ok s) | None => false end))
    else if String.eqb name "int-gaps" then option_map (GGaps ps) (new_gaps (int_of ps "min") (int_of ps "max") (int_of ps "p"))
    else if String.eqb name "int-range" then option_map (GRange ps) (new_int_range (int_of ps "size") (int_of ps "min") (int_of ps "max"))
    else if String.eqb name "int-range-seq" then option_map (GSeq ps) (new_int_seq (int_of ps "size") (int_of ps "begin") (int_of ps "end"))
    else if String.eqb name "auto-inc" then option_map GInc (new_auto_inc (uint_of ps "start") (uint_of ps "step"))
    else if String.eqb name "str-fill-az" then option_map GStr (new_str_fill (int_of ps "len"))
    else if String.eqb name "xid" then Some GXid
    else if String.eqb name "client-id" then option_map GCid (new_client_id (List.length ps) (str_of ps "ids"))
    else if String.eqb name "column" then Some (GCol (bool_of (str_of ps "quote-value")) column_new)
    else None.

  (** Generator.Format: integer.go 79, 154, 206, 269, 326, string.go 43, id.go 26, 80, column.go 32-37. *)
  Definition gen_format (g : gen) : nat * string :=
    match g with
    | GInt _ | GGaps _ _ | GInc _ => (1, "%d")
    | GRange _ _ | GSeq _ _ => (2, "%d")
    | GStr _ | GXid => (1, "'%s'")
    | GCid ids => (client_id_n ids, "%d")
    | GCol q _ => (1, if q then "'%v'" else "%v")
    end%nat.

  (** Generator.Name *)
  Definition gen_name (g : gen) : string :=
    match g with
    | GInt _ => "int" | GGaps _ _ => "int-gaps" | GRange _ _ => "int-range" | GSeq _ _ => "int-range-seq" | GInc _ => "auto-inc"
    | GStr _ => "str-fill-az" | GXid => "xid" | GCid _ => "client-id" | GCol _ _ => "column"
    end.

  (** Generator.Copy: integer.go 82-85, 157-160, 209-212, 272-275, 329-334, string.go 46-51, id.go 29-31, 82, column.go 39-43.
      [None]: a nil pointer (the error of the constructor is ignored).  The source of random numbers is not part of the state here. *)
  Definition gen_copy (g : gen) : option gen :=
    match g with
    | GInt g => Some (GInt g)
    | GGaps ps _ => option_map (GGaps ps) (new_gaps (int_of ps "min") (int_of ps "max") (int_of ps "p"))
    | GRange ps _ => option_map (GRange ps) (new_int_range (int_of ps "size") (int_of ps "min") (int_of ps "max"))
    | GSeq ps _ => option_map (GSeq ps) (new_int_seq (int_of ps "size") (int_of ps "begin") (int_of ps "end"))
    | GInc g => Some (GInc (auto_inc_copy g))
    | GStr len => Some (GStr len)
    | GXid => Some GXid
    | GCid ids => Some (GCid ids)
    | GCol q _ => Some (GCol q column_new)
    end.

  (** data.Make with the built-in generators (generator.go 107-114) as trx/trx.go uses it: the format of the new generator. *)
  Definition data_make (name key : string) (ps : smap string) : option string :=
    option_map (fun g => snd (gen_format g)) (gen_make name ps).
End Make.

(** The randomness of one call: for Int63n, for the two normal numbers of int, the source of str-fill-az with the number of
    loop iterations after which it is watched, the new xid. *)
Record draw := Draw { dr_n : N; dr_v1 : Z; dr_v2 : Z; dr_src : nat -> N; dr_fuel : nat; dr_xid : list ascii }.

(** Generator.Values: integer.go 87-105, 162-164, 214-224, 277-289, 336-338, string.go 53-69, id.go 33-35, 83-94, column.go
    63-68.  [None]: it panics or does not return. *)
Definition gen_values (g : gen) (r : draw) (rc : runcount) : option (gen * list dval) :=
  match g with
  | GInt i => match int_values i (dr_n r) (dr_v1 r) (dr_v2 r) with Some v => Some (g, [DInt v]) | None => None end
  | GGaps _ i => match gaps_values i (dr_n r) with Some v => Some (g, [DInt v]) | None => None end
  | GRange _ i => match int_range_values i (dr_n r) with Some (n, m) => Some (g, [DInt n; DInt m]) | None => None end
  | GSeq ps i => let '(i', (n, m)) := int_seq_values i in Some (GSeq ps i', [DInt n; DInt m])
  | GInc i => let '(i', n) := auto_inc_values i in Some (GInc i', [DUint n])
  | GStr len => match str_values (Z.to_nat len) (dr_src r) (dr_fuel r) with Some s => Some (g, [DStr s]) | None => None end
  | GXid => Some (g, [DStr (dr_xid r)])
  | GCid ids => Some (g, map DUint (client_id_values ids rc))
  | GCol q c => Some (g, map DCol (column_values c))
  end.

(** A generator with the randomness of its calls to come, as the generators of ValueModel.v.  Simplification: a call that
    panics or does not return is taken for one without values; the theorems are about generators for which there is none. *)
Definition dgen : Type := gen * (nat -> draw).
Definition dgen_values (g : dgen) (rc : runcount) : dgen * list dval :=
  match gen_values (fst g) (snd g 0%nat) rc with
  | Some (g', vs) => ((g', fun n => snd g (S n)), vs)
  | None => ((fst g, fun n => snd g (S n)), [])
  end.

(** * The registry: generator.go 90-114 *)
Section Registry.
  Context {F : Type}.
  (** Register; [None]: already registered. *)
  Definition register (r : smap F) (name : string) (f : F) : option (smap F) :=
    match sget name r with Some _ => None | None => Some (ConfigModel.sset name f r) end.
  (** A history of calls of Register, whose errors the callers may ignore. *)
  Fixpoint registers (r : smap F) (l : list (string * F)) : smap F :=
    match l with
    | [] => r
    | (n, f) :: l' => registers (match register r n f with Some r' => r' | None => r end) l'
    end.
  (** Make: the factory that is asked; [None]: not registered. *)
  Definition factory_of (r : smap F) (name : string) : option F := sget name r.
  (** init, generator.go 25-44 *)
  Definition builtin_names : list string :=
    ["int"; "int-gaps"; "int-range"; "int-range-seq"; "auto-inc"; "str-fill-az"; "xid"; "client-id"; "column"].
  Definition init_registry (f : F) : smap F := registers [] (map (fun n => (n, f)) builtin_names).
End Registry.
