(** Model of the built-in data generators: data/integer.go, data/string.go, data/id.go,
    data/column.go.  int-gaps is in GapsModel.v (floating point). *)
From Verif Require Import Prelude ScopeModel.
From Coq Require Import Decimal DecimalString.

(** Go int64 arithmetic wraps around. *)
Definition i64 (z : Z) : Z := ((z + 2^63) mod 2^64 - 2^63)%Z.
Definition in64 (z : Z) : Prop := (- 2^63 <= z < 2^63)%Z.
Definition u64 (n : N) : N := (n mod 2^64)%N.

(** finch.go 29, [ROWS]. *)
Definition ROWS : Z := 100000.

(** A parameter of a generator: not given, given and not a number, or the int64 that
    [strconv.ParseInt]/[ParseUint] makes of it. *)
Inductive param := PNone | PBad | PVal (z : Z).

(** data/generator.go 111-126, [int64From] (never required): the new value or an error. *)
Definition int64_from (p : param) (n : Z) : option Z :=
  match p with PNone => Some n | PBad => None | PVal i => Some i end.

(** math/rand, [Int63n]: panics ([None]) unless 0 < n; [draw] is the randomness, every value of
    [0,n) is possible. *)
Definition int63n (n : Z) (draw : N) : option Z :=
  if (n <=? 0)%Z then None else Some (Z.of_N draw mod n)%Z.

(* ------------------------------------------------------------------------------------ *)
(** * int *)

(** data/integer.go 18-24, [Int].  The mean is the int64 the code starts from; [stddev] and the
    Gaussian draws enter only through [v1], [v2] below. *)
Record int_gen := IntGen { ig_min : Z; ig_max : Z; ig_normal : bool; ig_mean : Z }.

(** [float64(z)] for an int64 and back: round to nearest even at 53 bits. *)
Definition round53 (z : Z) : Z :=
  let a := Z.abs z in
  let e := (Z.log2 a - 52)%Z in
  if (e <=? 0)%Z then z
  else
    let u := (2 ^ e)%Z in
    let q := (a / u)%Z in
    let r := (a mod u)%Z in
    let q' := if (2 * r <? u)%Z then q
              else if (u <? 2 * r)%Z then (q + 1)%Z
              else if Z.even q then q else (q + 1)%Z in
    (Z.sgn z * (q' * u))%Z.

(** data/integer.go 33-76, [NewInt] ([normal] = the dist parameter is "normal" in any case; a bad
    stddev is an error like a bad min).  Go's integer division truncates. *)
Definition new_int (min max mean : param) (normal bad_stddev : bool) : option int_gen :=
  match int64_from min 1 with None => None | Some mn =>
  match int64_from max ROWS with None => None | Some mx =>
    if normal then
      match int64_from mean 0 with None => None | Some me =>
        let me' := if (me =? 0)%Z then Z.quot (i64 (i64 (mx - mn) + 1)) 2 else me in
        if bad_stddev then None else Some (IntGen mn mx true me')
      end
    else Some (IntGen mn mx false 0)
  end end.

(** data/integer.go 87-105, [Int.Values].  [v1], [v2] are the two int64 values
    [int64(math.Floor(rand.NormFloat64()*g.stddev + g.mean))], arbitrary here; [int64(g.mean)] is
    [round53] of the configured mean, wrapped at the end of the range. *)
Definition int_values (g : int_gen) (draw : N) (v1 v2 : Z) : option Z :=
  if ig_normal g then
    let out v := ((v <? ig_min g) || (ig_max g <? v))%Z in
    if out v1 then
      if out v2 then Some (i64 (round53 (ig_mean g))) else Some v2
    else Some v1
  else
    match int63n (ig_max g) draw with
    | None => None
    | Some v => Some (if (v <? ig_min g)%Z then ig_min g else v)
    end.

(* ------------------------------------------------------------------------------------ *)
(** * int-range *)

(** data/integer.go 169-175, [IntRange]. *)
Record int_range := IntRange { ir_size : Z; ir_min : Z; ir_max : Z }.

(** data/integer.go 179-203, [NewIntRange]. *)
Definition new_int_range (size min max : param) : option int_range :=
  match int64_from size 100 with None => None | Some s =>
  match int64_from min 1 with None => None | Some mn =>
  match int64_from max ROWS with None => None | Some mx =>
    if (mx <=? mn)%Z then None
    else if (i64 (mx - mn) <? s)%Z then None
    else Some (IntRange s mn mx)
  end end end.

(** data/integer.go 214-224, [IntRange.Values]. *)
Definition int_range_values (g : int_range) (draw : N) : option (Z * Z) :=
  match int63n (i64 (ir_max g - ir_min g)) draw with
  | None => None
  | Some d =>
    let lower := i64 (ir_min g + d) in
    let upper := i64 (i64 (lower + ir_size g) - 1) in
    Some (lower, if (ir_max g <? upper)%Z then ir_max g else upper)
  end.

(* ------------------------------------------------------------------------------------ *)
(** * int-range-seq *)

(** data/integer.go 229-236, [IntRangeSeq]. *)
Record int_seq := IntSeq { is_begin : Z; is_end : Z; is_size : Z; is_n : Z }.

(** data/integer.go 240-266, [NewIntRangeSeq]. *)
Definition new_int_seq (size begin end_ : param) : option int_seq :=
  match int64_from size 100 with None => None | Some s =>
  match int64_from begin 1 with None => None | Some b =>
  match int64_from end_ ROWS with None => None | Some e =>
    if (e <? b)%Z then None
    else if (i64 (e - b) <? s)%Z then None
    else Some (IntSeq b e s b)
  end end end.

(** data/integer.go 277-289, [IntRangeSeq.Values]: one atomic step, the whole body but the
    return is under the mutex. *)
Definition int_seq_values (g : int_seq) : int_seq * (Z * Z) :=
  let n0 := if (is_end g <? is_n g)%Z then is_begin g else is_n g in
  let m := i64 (i64 (n0 + is_size g) - 1) in
  (IntSeq (is_begin g) (is_end g) (is_size g) (i64 (n0 + is_size g)),
   (n0, if (is_end g <? m)%Z then is_end g else m)).

(* ------------------------------------------------------------------------------------ *)
(** * auto-inc *)

(** data/integer.go 294-297, [AutoInc]. *)
Record auto_inc := AutoInc { ai_i : N; ai_step : N }.

(** data/integer.go 301-324, [NewAutoInc]: parameters are uint64. *)
Definition new_auto_inc (start step : option (option N)) : option auto_inc :=
  match start with
  | Some None => None
  | _ =>
    let i := match start with Some (Some n) => n | _ => 0%N end in
    match step with
    | Some None => None
    | Some (Some n) => Some (AutoInc i n)
    | None => Some (AutoInc i 1)
    end
  end.

(** data/integer.go 336-338, [AutoInc.Values]: one atomic add. *)
Definition auto_inc_values (g : auto_inc) : auto_inc * N :=
  let i := u64 (ai_i g + ai_step g) in (AutoInc i (ai_step g), i).

(** data/integer.go 329-334, [AutoInc.Copy]. *)
Definition auto_inc_copy (g : auto_inc) : auto_inc := AutoInc (ai_i g) (ai_step g).

(** The results of [k] successive calls of a stateful generator. *)
Fixpoint calls {G V} (f : G -> G * V) (g : G) (k : nat) : list V :=
  match k with
  | O => []
  | S k' => let '(g1, v) := f g in v :: calls f g1 k'
  end.

(* ------------------------------------------------------------------------------------ *)
(** * str-fill-az *)

(** data/string.go 20-26. *)
Definition letterBytes : list ascii :=
  list_ascii_of_string "abcdefghijklmnopqrstuvwxyzABCDEFGHIJKLMNOPQRSTUVWXYZ".
Definition letterIdxMax : nat := 10.

(** data/string.go 28-40, [NewStrFillAz]. *)
Definition new_str_fill (len : param) : option Z :=
  match int64_from len 100 with
  | None => None
  | Some l => if (l <=? 0)%Z then None else Some l
  end.

(** data/string.go 53-69, [StrFillAz.Values].  [src] is the random source, the [p]-th call of
    [Int63] returning [src p]; [todo] is [i + 1].  The fuel bounds the number of loop
    iterations, [None] is "still running". *)
Fixpoint str_loop (src : nat -> N) (fuel todo : nat) (cache : N) (remain p : nat) : option (list ascii) :=
  match todo with
  | O => Some []
  | S todo' =>
    match fuel with
    | O => None
    | S fuel' =>
      let '(cache, remain, p) :=
        match remain with O => (src p, letterIdxMax, S p) | _ => (cache, remain, p) end in
      let idx := (cache mod 2^6)%N in
      let cache' := (cache / 2^6)%N in
      match nth_error letterBytes (N.to_nat idx) with
      | Some b =>
        match str_loop src fuel' todo' cache' (remain - 1) p with
        | Some l => Some (b :: l)
        | None => None
        end
      | None => str_loop src fuel' todo cache' (remain - 1) p
      end
    end
  end.

Definition str_values (len : nat) (src : nat -> N) (fuel : nat) : option (list ascii) :=
  str_loop src fuel len (src 0%nat) letterIdxMax 1.

(* ------------------------------------------------------------------------------------ *)
(** * client-id *)

(** [strings.Split(s, ",")] *)
Fixpoint split_comma (s : string) : list string :=
  match s with
  | EmptyString => [""%string]
  | String c s' =>
    match split_comma s' with
    | w :: ws => if Ascii.eqb c ","%char then ""%string :: w :: ws else String c w :: ws
    | [] => []
    end
  end.

(** data/id.go 55-72: the switch; numbers are the array indexes STATEMENT, TRX, ITER, CONN,
    CLIENT, CLIENT_GROUP, EXEC_GROUP of data/scope.go 265-275. *)
Definition id_of (r : string) : option nat :=
  if String.eqb r "statement" then Some 0
  else if String.eqb r "trx" then Some 1
  else if String.eqb r "iter" then Some 2
  else if String.eqb r "conn" then Some 3
  else if String.eqb r "client" then Some 4
  else if String.eqb r "client-group" then Some 5
  else if String.eqb r "exec-group" then Some 6
  else None.

Fixpoint ids_of (rs : list string) : option (list nat) :=
  match rs with
  | [] => Some []
  | r :: rs' =>
    match id_of r with
    | None => None
    | Some i => match ids_of rs' with Some l => Some (i :: l) | None => None end
    end
  end.

(** data/id.go 46-77, [NewClientId]: [nparams] is the number of parameters, [ids] the value of
    "ids" (missing reads as ""). *)
Definition new_client_id (nparams : nat) (ids : string) : option (list nat) :=
  match nparams with
  | O => Some [4]
  | _ => if String.eqb ids "" then Some [] else ids_of (split_comma ids)
  end.

(** data/id.go 83-94, [ClientId.Values]. *)
Definition client_id_values (ids : list nat) (rc : runcount) : list N := map (rc_get rc) ids.
(** data/id.go 80, [ClientId.Format]: number of values. *)
Definition client_id_n (ids : list nat) : nat := length ids.

(* ------------------------------------------------------------------------------------ *)
(** * column *)

(** What the driver hands to [Scan]: a reference to a byte buffer it owns and will reuse, or a
    value. *)
Inductive colval := CVNil | CVVal (v : Z) | CVStr (s : list ascii).
Inductive scanarg := ScanBuf (buf : nat) | ScanVal (v : colval).

(** data/column.go 14-19, [Column]; [co_bytes] is the content of the column's own buffer, [None]
    before it is made. *)
Record column := Column { co_val : colval; co_bytes : option (list ascii); co_useBytes : bool }.
Definition column_new : column := Column CVNil None false.

(** data/column.go 45-61, [Column.Scan]: [mem] is the driver's buffers at the time of the call. *)
Definition column_scan (mem : nat -> list ascii) (g : column) (a : scanarg) : column :=
  match a with
  | ScanBuf b => Column (co_val g) (Some (mem b)) true
  | ScanVal v => Column v (co_bytes g) false
  end.

(** data/column.go 63-68, [Column.Values]. *)
Definition column_values (g : column) : list colval :=
  if co_useBytes g then [CVStr (match co_bytes g with Some s => s | None => [] end)]
  else [co_val g].

(** A history: the driver (re)uses a buffer, a row is scanned, the key is used. *)
Inductive colevent := ColReuse (buf : nat) (content : list ascii) | ColScan (a : scanarg) | ColRead.

Fixpoint column_run (mem : nat -> list ascii) (g : column) (es : list colevent) : list (list colval) :=
  match es with
  | [] => []
  | ColReuse b s :: es' => column_run (natupd mem b s) g es'
  | ColScan a :: es' => column_run mem (column_scan mem g a) es'
  | ColRead :: es' => column_values g :: column_run mem g es'
  end.
