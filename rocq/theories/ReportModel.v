(** Reports: stats/reporter.go 17-18, 95-150, stats/csv.go, stats/stdout.go and finch.go 152-155.

    Floating point numbers and their text are given ([f1]: %.1f), as is the text with thousands
    separators ([comma]: humanize.Comma).  Files, the tab writer's alignment and what is done with
    errors are left out. *)
From Coq Require Import DecimalString.
From Verif Require Import Prelude ConfigModel TrxModel GenModel ClientModel StatsModel.
#[local] Open Scope list_scope.
#[local] Open Scope string_scope.

(** strings.ToLower, for ASCII. *)
Fixpoint to_lower (s : string) : string :=
  match s with
  | "" => ""
  | String c s' =>
      let n := N_of_ascii c in
      String (if ((65 <=? n) && (n <=? 90))%N%bool then ascii_of_N (n + 32) else c) (to_lower s')
  end.

(** reporter.go 17-18 *)
Definition Header : string := "interval,duration,runtime,clients,QPS,min,%s,max,r_QPS,r_min,%s,r_max,w_QPS,w_min,%s,w_max,TPS,c_min,%s,c_max,errors,compute".
Definition Fmt : string := "%d,%.1f,%.1f,%d,%d,%d,P,%d,%d,%d,P,%d,%d,%d,P,%d,%d,%d,P,%d,%d,%s".
(** stdout.go 93, without the line feed; the character 9 is a tab. *)
Definition tab : ascii := ascii_of_nat 9.
Fixpoint tabs (s : string) : string :=
  match s with "" => "" | String c s' => String (if Ascii.eqb c "," then tab else c) (tabs s') end.
Definition StdoutFmt : string := tabs "%d,%.1f,%.1f,%d,%s,%s,P,%s,%s,%s,P,%s,%s,%s,P,%s,%s,%s,P,%s,%s,%s".

(** fmt.Sprintf for formats with the verbs %d, %.1f and %s and as many arguments, which are given
    as the text they print.  A percent sign in an argument is not looked at again. *)
Fixpoint sprintf (f : string) (args : list string) : string :=
  match f with
  | "" => ""
  | String c f' =>
      if Ascii.eqb c "%" then
        match f', args with
        | String "d" r, a :: l => a ++ sprintf r l
        | String "s" r, a :: l => a ++ sprintf r l
        | String "." (String "1" (String "f" r)), a :: l => a ++ sprintf r l
        | _, _ => String c (sprintf f' args)
        end
      else String c (sprintf f' args)
  end.

(** strings.Join(l, sep) *)
Fixpoint join (sep : string) (l : list string) : string :=
  match l with
  | [] => ""
  | [s] => s
  | s :: l' => s ++ sep ++ join sep l'
  end.

(** reporter.go 144-150, [withPrefix] *)
Definition with_prefix (p : string) (l : list string) : list string := map (fun s => p ++ s) l.

(** csv.go 44-49; in stdout.go 41-47 the commas become tabs. *)
Definition header (names : list string) : string :=
  sprintf Header [join "," names; join "," (with_prefix "r_" names); join "," (with_prefix "w_" names); join "," (with_prefix "c_" names)].

(** strconv.FormatInt(z, 10) *)
Definition format_int (z : Z) : string :=
  match z with Zneg _ => String "-" (format_uint (Z.to_N (- z))) | _ => format_uint (Z.to_N z) end.

(** reporter.go 123-141, [intsToString]; [text] prints a number. *)
Definition ints_to_string (text : N -> string) (sep : string) (l : list N) : string := join sep (map text l).

(** ** Percentiles, reporter.go 97-120 *)

(** A percentile: NaN or m / 10^k. *)
Inductive pct := NaN | Pct (m : N) (k : nat).

(** strconv.ParseFloat for digits with an optional point, and NaN.  Signs, exponents, hexadecimal
    numbers and infinities are left out (refused); there is no rounding. *)
Fixpoint digits_value (acc : N) (s : string) : option N :=
  match s with
  | "" => Some acc
  | String c s' => if is_digit c then digits_value (10 * acc + N_of_ascii c - 48) s' else None
  end.
Fixpoint cut_point (s : string) : string * option string :=
  match s with
  | "" => ("", None)
  | String c s' => if Ascii.eqb c "." then ("", Some s') else let (a, b) := cut_point s' in (String c a, b)
  end.
Definition parse_float (s : string) : option pct :=
  if String.eqb (to_lower s) "nan" then Some NaN
  else
    let (a, b) := cut_point s in
    let frac := match b with Some f => f | None => "" end in
    if String.eqb (a ++ frac)%string "" then None
    else match digits_value 0 (a ++ frac)%string with Some m => Some (Pct m (String.length frac)) | None => None end.

(** reporter.go 113: the comparisons are false for NaN. *)
Definition out_of_range (p : pct) : bool :=
  match p with NaN => false | Pct m k => (100 * 10 ^ N.of_nat k <? m)%N end.

Definition is_pP (c : ascii) : bool := (Ascii.eqb c "P" || Ascii.eqb c "p")%bool.
Fixpoint parse_all (l : list string) : option (list string * list pct) :=
  match l with
  | [] => Some ([], [])
  | raw :: l' =>
      let s := trim_left is_pP (trim_space raw) in
      match parse_float s with
      | None => None
      | Some f =>
          if out_of_range f then None
          else match parse_all l' with Some (ns, ps) => Some (("P" ++ s)%string :: ns, f :: ps) | None => None end
      end
  end.
Definition parse_percentiles (s : string) : option (list string * list pct) :=
  if String.eqb (trim_space s) "" then Some (["P999"], [Pct 999 1])
  else parse_all (split_comma s).

(** ** Lines *)
Section Lines.
  Context {F R : Type}.
  (** [F]: seconds; [f1] prints them; [rate n s]: int64(float64(n) / s). *)
  Variable f1 : F -> string.
  Variable rate : N -> F -> Z.
  (** humanize.Comma *)
  Variable comma : Z -> string.
  (** The floating point operations of [percentiles]. *)
  Variable freq : N -> N -> R.
  Variable ge : R -> pct -> bool.
  Variable same_int : pct -> R -> bool.
  Variable bound : nat -> N.

  (** collector.go 20-28 *)
  Record instance := Instance {
    i_host : string; i_clients : N; i_interval : N; i_seconds : F; i_runtime : F; i_total : stats }.

  (** csv.go 62-66: the clients added. *)
  Fixpoint add_clients (n : N) (l : list instance) : N :=
    match l with [] => n | i :: l' => add_clients (n + i_clients i)%N l' end.

  Definition pcts (c : cell) (ps : list pct) : list N := percentiles freq ge same_int bound c ps.

  (** csv.go 116-119 and stdout.go 129-132: the four Ps are replaced one after the other. *)
  Definition fill (text : N -> string) (sep : string) (s : stats) (ps : list pct) (line : string) : string :=
    let put q line := replace_first "P" (ints_to_string text sep (pcts (cell_of s q) ps)) line in
    put COMMIT (put WRITE (put READ (put TOTAL line))).

  (** csv.go 59-122, [CSV.Report]; [None]: panic. *)
  Definition csv_line (ps : list pct) (from : list instance) : option string :=
    match from with
    | [] => None
    | f :: rest =>
        match combine_all (copy_stats stats_new (i_total f)) (map i_total rest) with
        | None => None
        | Some t =>
            let clients := add_clients (i_clients f) rest in
            let compute := match rest with [] => i_host f | _ => (format_uint (N.of_nat (List.length from)) ++ " combined")%string end in
            let qps q := format_int (rate (ce_n (cell_of t q)) (i_seconds f)) in
            let mn q := format_int (ce_min (cell_of t q)) in
            let mx q := format_int (ce_max (cell_of t q)) in
            let line := sprintf Fmt
              [format_uint (i_interval f); f1 (i_seconds f); f1 (i_runtime f); format_uint clients;
               qps TOTAL; mn TOTAL; mx TOTAL; qps READ; mn READ; mx READ; qps WRITE; mn WRITE; mx WRITE;
               qps COMMIT; mn COMMIT; mx COMMIT; format_uint (error_count t); compute] in
            Some (fill format_uint "," t ps line)
        end
    end.

  (** stdout.go 87-135, [Stdout.print]: the line is then used as a format without arguments. *)
  Definition i64c (n : N) : string := comma (i64 (Z.of_N n)).
  Definition stdout_text (ps : list pct) (i : instance) : string :=
    let t := i_total i in
    let qps q := comma (rate (ce_n (cell_of t q)) (i_seconds i)) in
    let mn q := comma (ce_min (cell_of t q)) in
    let mx q := comma (ce_max (cell_of t q)) in
    let line := sprintf StdoutFmt
      [format_uint (i_interval i); f1 (i_seconds i); f1 (i_runtime i); format_uint (i_clients i);
       qps TOTAL; mn TOTAL; mx TOTAL; qps READ; mn READ; mx READ; qps WRITE; mn WRITE; mx WRITE;
       qps COMMIT; mn COMMIT; mx COMMIT; i64c (error_count t); i_host i] in
    fill i64c (String tab "") t ps line.

  (** stdout.go 134: fmt.Fprintf(w, line) without arguments, so a percent sign starts a verb whose
      argument is missing.  Flags, widths and the line feed at the end are left out. *)
  Fixpoint fprintf0 (s : string) : string :=
    match s with
    | "" => ""
    | String c s' =>
        if Ascii.eqb c "%" then
          match s' with
          | "" => "%!(NOVERB)"
          | String "%" r => String "%" (fprintf0 r)
          | String v r => "%!" ++ String v ("(MISSING)" ++ fprintf0 r)
          end
        else String c (fprintf0 s')
    end.
  Definition stdout_line (ps : list pct) (i : instance) : string := fprintf0 (stdout_text ps i).

  (** finch.go 152-155 *)
  Definition bool_of (s : string) : bool :=
    let v := to_lower s in
    (String.eqb v "true" || String.eqb v "yes" || String.eqb v "on" || String.eqb v "aye")%bool.
  Definition opt (k : string) (opts : smap string) : string := match sget k opts with Some v => v | None => "" end.
  (** stdout.go 52-61: [each] and [combined]. *)
  Definition stdout_options (opts : smap string) : bool * bool :=
    match sget "each-instance" opts, sget "combined" opts with
    | None, None => (true, true)
    | _, _ => (bool_of (opt "each-instance" opts), bool_of (opt "combined" opts))
    end.

  (** collector.go 39-50, [Instance.Combine] into an instance whose statistics are [all]; [None]: panic. *)
  Definition combined_instance (all : stats) (from : list instance) : option instance :=
    match from with
    | [] => None
    | f :: rest =>
        match combine_all (copy_stats all (i_total f)) (map i_total rest) with
        | None => None
        | Some t => Some (Instance ("(" ++ format_uint (N.of_nat (List.length from)) ++ " combined)")
                            (add_clients (i_clients f) rest) (i_interval f) (i_seconds f) (i_runtime f) t)
        end
    end.

  (** stdout.go 72-85, [Stdout.Report]: the lines printed and [r.all] afterwards. *)
  Definition stdout_lines (opts : smap string) (names : list string) (ps : list pct) (all : stats)
      (from : list instance) : option (list string * stats) :=
    let (each, combined) := stdout_options opts in
    let lines := tabs (header names) :: (if each then map (stdout_line ps) from else []) in
    if (combined && (1 <? List.length from)%nat)%bool then
      match combined_instance all from with
      | None => None
      | Some i => Some ((lines ++ [stdout_line ps i])%list, i_total i)
      end
    else Some (lines, all).
End Lines.
