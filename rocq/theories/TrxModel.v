(** Model of package trx: parsing trx files (trx/trx.go 71-609).

    Reading the file into lines (os.Open, bufio.Scanner) and the data generators (data.Make,
    Format) are outside the model; they appear as arguments and as the fields of [tenv].
    White space is that of ASCII; the regular expressions only name ASCII characters.  Errors
    and crashes (index out of range, unbounded recursion) are both [None]: either way finch does
    not start the stage.  Debug output, line numbers and statement numbers (which are only
    printed) are left out. *)
From Verif Require Import Prelude ConfigModel.
#[local] Open Scope list_scope.
#[local] Open Scope string_scope.

(** ** Package strings *)

(** ASCII white space for strings.TrimSpace and strings.Fields: also vertical tab. *)
Definition is_ws (c : ascii) : bool := (is_space c || Nat.eqb (nat_of_ascii c) 11)%bool.

Fixpoint trim_left (p : ascii -> bool) (s : string) : string :=
  match s with
  | "" => ""
  | String c s' => if p c then trim_left p s' else s
  end.
Fixpoint trim_right (p : ascii -> bool) (s : string) : string :=
  match s with
  | "" => ""
  | String c s' =>
      match trim_right p s' with
      | "" => if p c then "" else String c ""
      | t => String c t
      end
  end.
Definition trim_space (s : string) : string := trim_right is_ws (trim_left is_ws s).
(** strings.Trim(s, ":") *)
Definition trim_colons (s : string) : string :=
  trim_right (Ascii.eqb ":") (trim_left (Ascii.eqb ":") s).
(** strings.TrimSuffix(s, ",") *)
Fixpoint trim_comma (s : string) : string :=
  match s with
  | "" => ""
  | String c "" => if Ascii.eqb c "," then "" else s
  | String c s' => String c (trim_comma s')
  end.

(** strings.Fields; [acc] is the field being read. *)
Fixpoint fields_from (acc : string) (s : string) : list string :=
  match s with
  | "" => match acc with "" => [] | _ => [acc] end
  | String c s' =>
      if is_ws c then match acc with "" => fields_from "" s' | _ => acc :: fields_from "" s' end
      else fields_from (acc ++ String c "") s'
  end.
Definition fields (s : string) : list string := fields_from "" s.

Definition has_prefix (p s : string) : bool :=
  match strip_prefix p s with Some _ => true | None => false end.
Fixpoint contains (p s : string) : bool :=
  (has_prefix p s || match s with "" => false | String _ s' => contains p s' end)%bool.

(** strings.Replace(s, old, new, 1) *)
Fixpoint replace_first (old new s : string) : string :=
  match strip_prefix old s with
  | Some r => new ++ r
  | None => match s with "" => "" | String c s' => String c (replace_first old new s') end
  end.

(** strings.Join(l, ", ") *)
Fixpoint join_comma (l : list string) : string :=
  match l with
  | [] => ""
  | [s] => s
  | s :: l' => s ++ ", " ++ join_comma l'
  end.

Definition is_letter (c : ascii) : bool :=
  let n := nat_of_ascii c in
  ((Nat.leb 65 n && Nat.leb n 90) || (Nat.leb 97 n && Nat.leb n 122))%bool.
(** [\w] *)
Definition is_word (c : ascii) : bool := (is_digit c || is_letter c || Ascii.eqb c "_")%bool.
Definition upper (c : ascii) : ascii :=
  let n := nat_of_ascii c in
  if (Nat.leb 97 n && Nat.leb n 122)%bool then ascii_of_nat (n - 32) else c.
Fixpoint to_upper (s : string) : string :=
  match s with "" => "" | String c s' => String (upper c) (to_upper s') end.

(** ** Data keys *)

(** [\w_-], the characters of a data key *)
Definition key_char (c : ascii) : bool := (is_word c || Ascii.eqb c "-")%bool.

(** DataKeyPattern, trx.go 31: an at sign, key characters, and optionally "()". *)
Definition key_at : matcher := fun s =>
  match s with
  | String a t =>
      if Ascii.eqb a "@" then
        let (n, r) := span key_char t in
        match n with
        | "" => None
        | _ =>
            match strip_prefix "()" r with
            | Some r' => Some ("@" ++ n ++ "()", "@" ++ n ++ "()", r')
            | None => Some ("@" ++ n, "@" ++ n, r)
            end
        end
      else None
  | "" => None
  end.

(** DataKeyPattern.FindAllString(s, -1) *)
Definition find_keys (s : string) : list string := map fst (find_all key_at (String.length s) s).

(** strings.TrimSuffix(s, "()") *)
Fixpoint trim_call (s : string) : string :=
  match s with
  | "" => ""
  | "()" => ""
  | String c s' => String c (trim_call s')
  end.
(** strings.HasSuffix(s, "()") *)
Fixpoint has_call (s : string) : bool :=
  match s with
  | "" => false
  | "()" => true
  | String _ s' => has_call s'
  end.

(** trx.go 416-418: ExplicitCallPattern (trx.go 32: a data key that ends with "()")
    .ReplaceAllStringFunc(query, trim the suffix). *)
Fixpoint strip_calls (fuel : nat) (s : string) : string :=
  match fuel with
  | O => s
  | S f =>
      match s with
      | "" => ""
      | String c s' =>
          match key_at s with
          | Some (w, _, r) => if has_call w then trim_call w ++ strip_calls f r else String c (strip_calls f s')
          | None => String c (strip_calls f s')
          end
      end
  end.

(** func Calls, trx.go 573-582 *)
Definition calls (ks : list string) : list bool := map has_call ks.

(** cfgKey, trx.go 607-609 *)
Definition cfg_char (c : ascii) : bool := (Ascii.eqb c "@" || Ascii.eqb c "(" || Ascii.eqb c ")")%bool.
Definition cfg_key (s : string) : string := trim_right cfg_char (trim_left cfg_char s).

(** One round of the outer loop of RowScope, trx.go 591-603. *)
Fixpoint row_key (key : string) (ks : list string) (template : string) : string :=
  match ks with
  | [] => template
  | k :: ks' =>
      if has_prefix key k
      then if has_call k then template else replace_first k (k ++ "()") template
      else row_key key ks' template
  end.

(** func RowScope, trx.go 588-605; [keys]: the keys of the map in the order of [range]. *)
Definition row_scope (keys : list string) (template : string) : string :=
  let ks := find_keys template in
  fold_left (fun t key => row_key key ks t) keys template.

(** ** Statements *)

(** What a limit modifier says (trx.go 273-301): [limit.NewRows(int64(max), int64(offset))] or
    [limit.NewSize(max, str, db, tbl)], see LimitModel.v. *)
Inductive lim := LRows (max offset : N) | LSize (max : N) (str db tbl : string).

(** type Statement, trx.go 43-59.  [p_limits]: the limits of the statement in the order in which
    [limit.Or] combines them; [p_insert = ""]: no insert ID is saved. *)
Record pstmt := PStmt {
  p_trx : string; p_query : string; p_resultset : bool; p_prepare : bool; p_multi : N;
  p_begin : bool; p_commit : bool; p_write : bool; p_ddl : bool; p_idle : Z;
  p_inputs : list string; p_outputs : list string; p_insert : string; p_limits : list lim;
  p_calls : list bool }.

(** type data.Key (data/scope.go): [k_col = None] is Column -1; [k_gen] the generator's name,
    [k_fmt] what its Format returns. *)
Record key := Key {
  k_trx : string; k_col : option nat; k_scope : string; k_gen : string; k_fmt : string }.

(** [te_make gen name params]: data.Make, the format of the new generator.
    [te_order], [te_row_order]: the order in which [range] visits dataFormats (trx.go 493) and
    the keys in RowScope (591); the model lets it depend on the keys only. *)
Record tenv := TEnv {
  te_env : env;
  te_params : smap string;
  te_make : string -> string -> smap string -> option string;
  te_order : list string -> list string;
  te_row_order : list string -> list string }.

(** The state of File (trx.go 97-108) that changes: set.Data.Keys, colRefs, cfg.Data, hasDDL. *)
Record fstate := FState {
  f_keys : smap key; f_refs : smap nat; f_data : smap data; f_ddl : bool }.

(** strconv.ParseUint(s, 10, 64) *)
Definition parse_uint64 (s : string) : option N :=
  match s with
  | "" => None
  | _ => match digits_value 0 s with
         | Some v => if (v <? 2 ^ 64)%N then Some v else None
         | None => None
         end
  end.
(** strconv.Atoi *)
Definition atoi (s : string) : option Z :=
  let neg := has_prefix "-" s in
  let d := match s with
           | String c s' => if (Ascii.eqb c "-" || Ascii.eqb c "+")%bool then s' else s
           | "" => ""
           end in
  match d with
  | "" => None
  | _ => match digits_value 0 d with
         | None => None
         | Some v =>
             if neg then if (v <=? 2 ^ 63)%N then Some (- Z.of_N v)%Z else None
             else if (v <? 2 ^ 63)%N then Some (Z.of_N v) else None
         end
  end.

Definition noop_column := "_".
Definition copy_number := "/*!copy-number*/".

Section file.
  Context (T : tenv) (name : string).

  (** trx.go 222-248: the switches of a query. *)
  Definition new_stmt (query : string) : pstmt :=
    let com := to_upper (fst (span is_word query)) in
    let is (l : list string) := existsb (String.eqb com) l in
    PStmt name "" (is ["SELECT"]) false 0 (is ["BEGIN"; "START"]) (is ["COMMIT"])
          (is ["INSERT"; "UPDATE"; "DELETE"; "REPLACE"])
          (is ["ALTER"; "CREATE"; "DROP"; "RENAME"; "TRUNCATE"]) 0 [] [] "" [] [].

  (** File.column, trx.go 519-571 *)
  Definition column (f : fstate) (col_no : nat) (col0 : string) : option (string * fstate) :=
    let col := trim_space (trim_comma col0) in
    if String.eqb col noop_column then
      match sget noop_column (f_keys f) with
      | Some _ => Some (noop_column, f)
      | None =>
          Some (noop_column,
                FState (sset noop_column (Key name (Some col_no) "global" "no-op" "") (f_keys f))
                       (f_refs f) (f_data f) (f_ddl f))
      end
    else
      match sget col (f_keys f) with
      | Some _ => None
      | None =>
          let cfg := match sget (cfg_key col) (f_data f) with
                     | Some d => d
                     | None => Data col "column" "trx" []
                     end in
          match te_make T "column" col (d_params cfg) with
          | None => None
          | Some fmt =>
              Some (col, FState (sset col (Key name (Some col_no) (d_scope cfg) "column" fmt) (f_keys f))
                                (sset col 0%nat (f_refs f)) (f_data f) (f_ddl f))
          end
      end.

  (** trx.go 315-322: save-columns *)
  Fixpoint columns (f : fstate) (col_no : nat) (cols : list string) : option (list string * fstate) :=
    match cols with
    | [] => Some ([], f)
    | c :: cols' =>
        do r <- column f col_no c;
        do rs <- columns (snd r) (S col_no) cols';
        Some (fst r :: fst rs, snd rs)
    end.

  Definition add_limit (s : pstmt) (l : lim) : pstmt :=
    PStmt (p_trx s) (p_query s) (p_resultset s) (p_prepare s) (p_multi s) (p_begin s) (p_commit s)
          (p_write s) (p_ddl s) (p_idle s) (p_inputs s) (p_outputs s) (p_insert s)
          (p_limits s ++ [l]) (p_calls s).
  Definition add_outputs (s : pstmt) (insert : string) (outs : list string) : pstmt :=
    PStmt (p_trx s) (p_query s) (p_resultset s) (p_prepare s) (p_multi s) (p_begin s) (p_commit s)
          (p_write s) (p_ddl s) (p_idle s) (p_inputs s) (p_outputs s ++ outs) insert
          (p_limits s) (p_calls s).
  Definition set_prepare (s : pstmt) : pstmt :=
    PStmt (p_trx s) (p_query s) (p_resultset s) true (p_multi s) (p_begin s) (p_commit s)
          (p_write s) (p_ddl s) (p_idle s) (p_inputs s) (p_outputs s) (p_insert s)
          (p_limits s) (p_calls s).
  Definition set_idle (s : pstmt) (d : Z) : pstmt :=
    PStmt (p_trx s) (p_query s) (p_resultset s) (p_prepare s) (p_multi s) (p_begin s) (p_commit s)
          (p_write s) (p_ddl s) d (p_inputs s) (p_outputs s) (p_insert s)
          (p_limits s) (p_calls s).
  Definition set_multi (s : pstmt) (n : N) : pstmt :=
    PStmt (p_trx s) (p_query s) (p_resultset s) (p_prepare s) n (p_begin s) (p_commit s)
          (p_write s) (p_ddl s) (p_idle s) (p_inputs s) (p_outputs s) (p_insert s)
          (p_limits s) (p_calls s).
  Definition set_query (s : pstmt) (q : string) (ins : list string) (cs : list bool) : pstmt :=
    PStmt (p_trx s) q (p_resultset s) (p_prepare s) (p_multi s) (p_begin s) (p_commit s)
          (p_write s) (p_ddl s) (p_idle s) ins (p_outputs s) (p_insert s)
          (p_limits s) cs.

  (** What a modifier does: go on, or stop at "copies: n" with n = 0 or n >= 2. *)
  Inductive mres := MGo (s : pstmt) (f : fstate) | MCopies (n : N) (f : fstate).

  (** One round of the loop over the modifiers, trx.go 254-366. *)
  Definition modifier (md : string) (s : pstmt) (f : fstate) : option mres :=
    match fields md with
    | [] => None
    | w :: args =>
        let m := trim_colons w in
        if (String.eqb m "prepare" || String.eqb m "prepared")%bool then Some (MGo (set_prepare s) f)
        else if String.eqb m "idle" then
          match args with
          | [] => None
          | a :: _ => do d <- e_parse_duration (te_env T) a; Some (MGo (set_idle s d) f)
          end
        else if String.eqb m "rows" then
          match args with
          | [] => None
          | a :: args' =>
              do max <- parse_uint64 a;
              do off <- (match args' with [b] => parse_uint64 b | _ => Some 0%N end);
              Some (MGo (add_limit s (LRows max off)) f)
          end
        else if (String.eqb m "table-size" || String.eqb m "database-size")%bool then
          match args with
          | [a; b] =>
              do max <- e_parse_bytes (te_env T) b;
              Some (MGo (add_limit s (if String.eqb m "table-size" then LSize max b "" a
                                      else LSize max b a "")) f)
          | _ => None
          end
        else if String.eqb m "save-insert-id" then
          if p_resultset s then None
          else match args with
               | [] => None
               | a :: _ => do r <- column f 0 a; Some (MGo (add_outputs s (fst r) [fst r]) (snd r))
               end
        else if String.eqb m "save-columns" then
          do r <- columns f 0 args; Some (MGo (add_outputs s (p_insert s) (fst r)) (snd r))
        else if String.eqb m "copies" then
          match args with
          | [] => None
          | a :: _ =>
              do n <- atoi a;
              if (n <? 0)%Z then None
              else if (n =? 1)%Z then Some (MGo s f)
              else Some (MCopies (Z.to_N n) f)
          end
        else None
    end.

  Fixpoint modifiers (mods : list string) (s : pstmt) (f : fstate) : option mres :=
    match mods with
    | [] => Some (MGo s f)
    | m :: mods' =>
        do r <- modifier m s f;
        match r with
        | MGo s' f' => modifiers mods' s' f'
        | MCopies n f' => Some (MCopies n f')
        end
    end.

  (** reCSV, trx.go 218: "/*!csv", white space, digits, white space, then at least one
      character up to the last "*/".  Some (before, digits, template, after). *)
  Fixpoint last_close (s : string) : option (string * string) :=
    match s with
    | "" => None
    | String c s' =>
        match last_close s' with
        | Some (a, b) => Some (String c a, b)
        | None => match strip_prefix "*/" s with Some r => Some ("", r) | None => None end
        end
    end.
  Definition csv_at (s : string) : option (string * string * string) :=
    match strip_prefix "/*!csv" s with
    | None => None
    | Some t =>
        let (sp, t1) := span is_space t in
        let (ds, t2) := span is_digit t1 in
        match sp, ds, t2 with
        | "", _, _ => None
        | _, "", _ => None
        | _, _, String c (String c1 t3) =>
            if is_space c then
              match last_close t3 with
              | Some (a, b) => Some (ds, String c1 a, b)
              | None => None
              end
            else None
        | _, _, _ => None
        end
    end.
  Fixpoint find_csv (s : string) : option (string * string * string * string) :=
    match s with
    | "" => None
    | String c s' =>
        match csv_at s with
        | Some (ds, t, r) => Some ("", ds, t, r)
        | None =>
            match find_csv s' with
            | Some (b, ds, t, r) => Some (String c b, ds, t, r)
            | None => None
            end
        end
    end.

  (** trx.go 386-404: the row scoped keys of a CSV template, which get row scope if they have
      none. *)
  Fixpoint csv_keys (ks : list string) (data0 : smap data) (acc : list string)
      : option (list string * smap data) :=
    match ks with
    | [] => Some (acc, data0)
    | k :: ks' =>
        let n := cfg_key k in
        match sget n data0 with
        | None => None
        | Some d =>
            let d1 := if String.eqb (d_scope d) "" then Data (d_name d) (d_gen d) "row" (d_params d) else d in
            let data1 := if String.eqb (d_scope d) "" then sset n d1 data0 else data0 in
            csv_keys ks' data1
              (if (String.eqb (d_scope d1) "row" && negb (existsb (String.eqb ("@" ++ n)) acc))%bool
               then acc ++ ["@" ++ n] else acc)
        end
    end.

  (** trx.go 374-417: expand the CSV template. *)
  Definition expand_csv (query : string) (f : fstate) : option (string * fstate) :=
    match find_csv query with
    | None => Some (query, f)
    | Some (before, ds, t, after) =>
        match digits_value 0 ds with
        | Some n =>
            if (n <? 2 ^ 31)%N then
              let template := trim_space t in
              do r <- csv_keys (find_keys template) (f_data f) [];
              let scoped := row_scope (te_row_order T (fst r)) template in
              Some (before ++ join_comma (repeat scoped (N.to_nat n)) ++ after,
                    FState (f_keys f) (f_refs f) (snd r) (f_ddl f))
            else None
        | None => None
        end
    end.

  (** trx.go 371: strings.ReplaceAll(query, copy_number, n) *)
  Definition replace_copy (query : string) (n : N) : string :=
    replace [(copy_number, format_uint n)] (String.length query) query.

  (** trx.go 447-453: the generator of the last key before position i that is not @PREV; [prev]:
      the keys before it, last first.  (dataKeys and s.Inputs are the same array, so the keys
      before position i are already without "()".) *)
  Fixpoint prev_gen (keys : smap key) (prev : list string) : option key :=
    match prev with
    | [] => None
    | p :: prev' => if String.eqb p "@PREV" then prev_gen keys prev' else sget p keys
    end.

  (** trx.go 432-488: each input; [fmts] is dataFormats. *)
  Fixpoint inputs (prepare : bool) (ks : list string) (prev : list string) (f : fstate)
      (fmts : smap string) : option (list string * fstate * smap string) :=
    match ks with
    | [] => Some (rev prev, f, fmts)
    | k0 :: ks' =>
        let n := trim_call k0 in
        do r <- (match sget n (f_keys f) with
                 | Some k =>
                     match k_col k with
                     | Some _ =>
                         let c := match sget n (f_refs f) with Some c => c | None => 0%nat end in
                         Some (k_fmt k, FState (f_keys f) (sset n (S c) (f_refs f)) (f_data f) (f_ddl f))
                     | None =>
                         if String.eqb n "@PREV"
                         then match prev_gen (f_keys f) prev with Some p => Some (k_fmt p, f) | None => None end
                         else Some (k_fmt k, f)
                     end
                 | None =>
                     if String.eqb n "@PREV"
                     then match prev_gen (f_keys f) prev with Some p => Some (k_fmt p, f) | None => None end
                     else
                       match sget (cfg_key n) (f_data f) with
                       | None => None
                       | Some d =>
                           let sc := or_default (d_scope d) "statement" in
                           let data1 := if String.eqb (d_scope d) ""
                                        then sset n (Data (d_name d) (d_gen d) sc (d_params d)) (f_data f)
                                        else f_data f in
                           match te_make T (d_gen d) n (d_params d) with
                           | None => None
                           | Some fmt =>
                               Some (fmt, FState (sset n (Key name None sc (d_gen d) fmt) (f_keys f))
                                                 (f_refs f) data1 (f_ddl f))
                           end
                       end
                 end);
        inputs prepare ks' (n :: prev) (snd r)
          (sset n (if prepare then "?" else fst r) fmts)
    end.

  (** trx.go 490-501: replace the keys by their formats. *)
  Definition replace_keys (fmts : smap string) (query : string) : string :=
    let pairs := map (fun k => (k, match sget k fmts with Some v => v | None => "" end))
                     (te_order T (skeys fmts)) in
    replace pairs (String.length query) query.

  (** trx.go 368-505: after the modifiers. *)
  Definition finish (copy_no : N) (query0 : string) (s : pstmt) (f : fstate) : option (pstmt * fstate) :=
    do r <- expand_csv (replace_copy query0 copy_no) f;
    let query := fst r in
    match find_keys query with
    | [] => Some (set_query s query [] [], snd r)
    | ks =>
        do i <- inputs (p_prepare s) ks [] (snd r) [];
        let '(ins, f', fmts) := i in
        Some (set_query s (replace_keys fmts (strip_calls (String.length query) query)) ins (calls ks), f')
    end.

  (** trx.go 239-248 *)
  Definition see_ddl (s : pstmt) (f : fstate) : fstate :=
    FState (f_keys f) (f_refs f) (f_data f) (f_ddl f || p_ddl s).

  (** File.statements with copyNo set (trx.go 350): modifiers without "copies".  If there still
      is one that asks for copies, the recursion does not end (n >= 2) or ms[0] is out of range
      (n = 0). *)
  Definition copy_stmt (copy_no : N) (query : string) (mods : list string) (f : fstate)
      : option (pstmt * fstate) :=
    let s := new_stmt query in
    do r <- modifiers mods s (see_ddl s f);
    match r with
    | MGo s' f' => finish copy_no query s' f'
    | MCopies _ _ => None
    end.

  Fixpoint copies (i : N) (n : nat) (query : string) (mods : list string) (f : fstate)
      : option (list pstmt * fstate) :=
    match n with
    | O => Some ([], f)
    | S n' =>
        do r <- copy_stmt i query mods f;
        do rs <- copies (i + 1) n' query mods (snd r);
        Some (fst r :: fst rs, snd rs)
    end.

  (** File.statements, trx.go 221-517 *)
  Definition statements (str : string) (mods : list string) (f : fstate) : option (list pstmt * fstate) :=
    let query := trim_space str in
    let s := new_stmt query in
    do r <- modifiers mods s (see_ddl s f);
    match r with
    | MGo s' f' => do x <- finish 0 query s' f'; Some ([fst x], snd x)
    | MCopies n f' =>
        if (n =? 0)%N then Some ([], f')
        else
          let mods' := filter (fun m => negb (has_prefix "copies" m)) mods in
          let multi := (existsb (has_prefix "prepare") mods' && negb (contains copy_number query))%bool in
          do rs <- copies 1 (N.to_nat n) query mods' f';
          match fst rs with
          | [] => None
          | s1 :: ss => Some ((if multi then set_multi s1 n else s1) :: ss, snd rs)
          end
    end.

  (** ** Lines *)

  (** lineBuf (trx.go 88-93) and the statements so far. *)
  Record lstate := LState { l_str : string; l_mods : list string; l_stmts : list pstmt; l_file : fstate }.
  Inductive lres := LGo (l : lstate) | LEof (l : lstate).

  (** File.line, trx.go 173-215, for a trimmed line *)
  Definition line (l : lstate) (s : string) : option lres :=
    match s with
    | "" =>
        match l_str l with
        | "" => Some (LGo l)
        | str =>
            do r <- statements str (l_mods l) (l_file l);
            Some (LGo (LState "" [] (l_stmts l ++ fst r) (snd r)))
        end
    | _ =>
        if has_prefix "-- " s then
          if String.eqb s "-- EOF" then Some (LEof l)
          else
            match strip_prefix "--" s with
            | None => None
            | Some r =>
                do m <- vars (te_env T) (te_params T) true (trim_space r);
                Some (LGo (LState (l_str l) (l_mods l ++ [m]) (l_stmts l) (l_file l)))
            end
        else Some (LGo (LState (l_str l ++ s ++ " ") (l_mods l) (l_stmts l) (l_file l)))
    end.

  (** The loop of File.Load, trx.go 130-141 *)
  Fixpoint lines (ls : list string) (l : lstate) : option lstate :=
    match ls with
    | [] => Some l
    | s :: ls' =>
        do r <- line l (trim_space s);
        match r with
        | LGo l' => lines ls' l'
        | LEof l' => Some l'
        end
    end.

  (** File.Load, trx.go 122-171; [ls]: the lines of the file *)
  Definition load_file (ls : list string) (keys : smap key) (cfg : smap data)
      : option (list pstmt * fstate) :=
    do l <- lines ls (LState "" [] [] (FState keys [] cfg false));
    do r <- line l "";
    match r with
    | LEof _ => None
    | LGo l' =>
        match l_stmts l' with
        | [] => None
        | ss => if forallb (fun kv => negb (Nat.eqb (snd kv) 0)) (f_refs (l_file l'))
                then Some (ss, l_file l') else None
        end
    end.
End file.

(** type Set, trx.go 35-40 *)
Record tset := TSet {
  t_order : list string; t_stmts : smap (list pstmt); t_ddl : smap bool; t_keys : smap key }.

(** func Load, trx.go 71-84.  [read file]: the lines of the file, [None] if it cannot be
    opened. *)
Fixpoint load_trx (T : tenv) (read : string -> option (list string)) (xs : list trx) (set : tset)
    : option tset :=
  match xs with
  | [] => Some set
  | x :: xs' =>
      do ls <- read (x_file x);
      do r <- load_file T (x_name x) ls (t_keys set) (x_data x);
      load_trx T read xs'
        (TSet (t_order set ++ [x_name x]) (sset (x_name x) (fst r) (t_stmts set))
              (sset (x_name x) (f_ddl (snd r)) (t_ddl set)) (f_keys (snd r)))
  end.

(** ** Executing a query that is not prepared: client/client.go 285, 319 *)

(** fmt.Sprintf(format, vals...) for the verbs the generators use, on values already printed:
    each of the verbs d, s and v takes the next value.  A verb without a value prints MISSING, a
    per cent sign at the end prints NOVERB.  [None]: flags and widths, other verbs with a value,
    and values left over, which are not modelled. *)
Definition is_verb (c : ascii) : bool := (Ascii.eqb c "d" || Ascii.eqb c "s" || Ascii.eqb c "v")%bool.
Definition is_flag (c : ascii) : bool :=
  (is_digit c || existsb (Ascii.eqb c) ["+"; "-"; "#"; " "; "."; "["; "*"]%char)%bool.
Fixpoint sprintf (fmt : string) (vals : list string) : option string :=
  match fmt with
  | "" => match vals with [] => Some "" | _ => None end
  | "%" => match vals with [] => Some "%!(NOVERB)" | _ => None end
  | String "%" (String v t) =>
      if Ascii.eqb v "%" then option_map (append "%") (sprintf t vals)
      else if is_flag v then None
      else
        match vals with
        | x :: vals' => if is_verb v then option_map (append x) (sprintf t vals') else None
        | [] => option_map (append ("%!" ++ String v "(MISSING)")) (sprintf t [])
        end
  | String c t => option_map (String c) (sprintf t vals)
  end.
