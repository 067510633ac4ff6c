(** Statistics: stats/stats.go and the parts of stats/collector.go without goroutines. *)
From Verif Require Import Prelude ClientModel.

(** stats.go 50: number of buckets. *)
Definition n_buckets : nat := 450.

(** stats.go 26-32: one event type's row of [Buckets], [Min], [Max] and [N].  Counters are
    unbounded numbers here (uint64 in Go). *)
Record cell := Cell { ce_buckets : list N; ce_min : Z; ce_max : Z; ce_n : N }.
Definition cell_zero : cell := Cell (repeat 0%N n_buckets) 0 0 0.

(** [map[uint16]uint64] as a list of pairs with different keys. *)
Fixpoint err_get (m : list (N * N)) (k : N) : N :=
  match m with [] => 0 | (k', v) :: m' => if (k =? k')%N then v else err_get m' k end%N.
Fixpoint err_set (m : list (N * N)) (k v : N) : list (N * N) :=
  match m with
  | [] => [(k, v)]
  | (k', v') :: m' => if (k =? k')%N then (k', v) :: m' else (k', v') :: err_set m' k v
  end.

(** stats.go 26-47, [Stats] and [NewStats]. *)
Record stats := Stats { s_read : cell; s_write : cell; s_commit : cell; s_total : cell; s_errs : list (N * N) }.
Definition stats_new : stats := Stats cell_zero cell_zero cell_zero cell_zero [].

Definition cell_of (s : stats) (q : qclass) : cell :=
  match q with READ => s_read s | WRITE => s_write s | COMMIT => s_commit s | TOTAL => s_total s end.
Definition with_cell (s : stats) (q : qclass) (c : cell) : stats :=
  match q with
  | READ => Stats c (s_write s) (s_commit s) (s_total s) (s_errs s)
  | WRITE => Stats (s_read s) c (s_commit s) (s_total s) (s_errs s)
  | COMMIT => Stats (s_read s) (s_write s) c (s_total s) (s_errs s)
  | TOTAL => Stats (s_read s) (s_write s) (s_commit s) c (s_errs s)
  end.
Definition with_errs (s : stats) (m : list (N * N)) : stats := Stats (s_read s) (s_write s) (s_commit s) (s_total s) m.
Definition is_total (q : qclass) : bool := match q with TOTAL => true | _ => false end.

Section Record.
  (** The floating point part of stats.go 58-60: for duration [d], whether
      [math.Log(float64(d)/base) / logFactor] is below 0, and its conversion to uint (whatever that
      is for NaN and infinities, it is some uint). *)
  Variable flog : Z -> bool * N.

  (** stats.go 58-65. *)
  Definition bucket_no (d : Z) : nat :=
    let '(neg, u) := flog d in
    let n := if neg then 0%N else ((u + 1) mod 2^64)%N in
    N.to_nat (if (N.of_nat (n_buckets - 1) <? n)%N then N.of_nat (n_buckets - 1) else n).

  (** stats.go 68-75 and 80-87: the same four updates.  [None]: index out of range. *)
  Definition record_cell (c : cell) (n : nat) (d : Z) : option cell :=
    match nth_error (ce_buckets c) n with
    | None => None
    | Some b =>
      match set_nth (ce_buckets c) n (b + 1)%N with
      | None => None
      | Some bs =>
        Some (Cell bs (if ((d <? ce_min c)%Z || (ce_n c =? 0)%N)%bool then d else ce_min c)
                      (if (ce_max c <? d)%Z then d else ce_max c) (ce_n c + 1))
      end
    end.

  (** stats.go 56-89, [Record]. *)
  Definition record (s : stats) (q : qclass) (d : Z) : option stats :=
    let n := bucket_no d in
    match record_cell (cell_of s q) n d with
    | None => None
    | Some c =>
      let s1 := with_cell s q c in
      if is_total q then Some s1
      else match record_cell (s_total s1) n d with
           | None => None
           | Some t => Some (with_cell s1 TOTAL t)
           end
    end.
End Record.

(** stats.go 214-216, [Trx.Error]. *)
Definition error (s : stats) (code : N) : stats := with_errs s (err_set (s_errs s) code (err_get (s_errs s) code + 1)).

(** stats.go 92-104, [Reset]: error codes stay, with count 0. *)
Definition reset_cell (c : cell) : cell := Cell (map (fun _ => 0%N) (ce_buckets c)) 0 0 0.
Definition reset (s : stats) : stats :=
  Stats (reset_cell (s_read s)) (reset_cell (s_write s)) (reset_cell (s_commit s)) (reset_cell (s_total s))
        (map (fun kv => (fst kv, 0%N)) (s_errs s)).

(** stats.go 108-118, [Copy].  [copy] copies the shorter of the two lengths. *)
Definition copy_cell (s c : cell) : cell :=
  Cell (firstn (length (ce_buckets s)) (ce_buckets c) ++ skipn (length (ce_buckets c)) (ce_buckets s)) (ce_min c) (ce_max c) (ce_n c).
Definition copy_errs (m : list (N * N)) (from : list (N * N)) : list (N * N) :=
  fold_left (fun m kv => err_set m (fst kv) (snd kv)) from m.
Definition copy_stats (s c : stats) : stats :=
  Stats (copy_cell (s_read s) (s_read c)) (copy_cell (s_write s) (s_write c)) (copy_cell (s_commit s) (s_commit c))
        (copy_cell (s_total s) (s_total c)) (copy_errs (s_errs s) (s_errs c)).

(** stats.go 123-139, [Combine].  [None]: index out of range. *)
Fixpoint add_buckets (a b : list N) : option (list N) :=
  match a, b with
  | [], _ => Some []
  | x :: a', y :: b' => match add_buckets a' b' with Some l => Some ((x + y)%N :: l) | None => None end
  | _ :: _, [] => None
  end.
Definition combine_cell (s c : cell) : option cell :=
  match add_buckets (ce_buckets s) (ce_buckets c) with
  | None => None
  | Some bs =>
    Some (Cell bs (if ((ce_min c <? ce_min s)%Z || (ce_n s =? 0)%N)%bool then ce_min c else ce_min s)
                  (if (ce_max s <? ce_max c)%Z then ce_max c else ce_max s) (ce_n s + ce_n c))
  end.
Definition add_errs (m from : list (N * N)) : list (N * N) :=
  fold_left (fun m kv => err_set m (fst kv) (err_get m (fst kv) + snd kv)%N) from m.
Definition combine (s c : stats) : option stats :=
  match combine_cell (s_read s) (s_read c), combine_cell (s_write s) (s_write c),
        combine_cell (s_commit s) (s_commit c), combine_cell (s_total s) (s_total c) with
  | Some r, Some w, Some k, Some t => Some (Stats r w k t (add_errs (s_errs s) (s_errs c)))
  | _, _, _, _ => None
  end.

(* ------------------------------------------------------------------------------------ *)
(** * Percentiles *)

Section Percentiles.
  (** The floating point operations: [freq n total] is [float64(n) / float64(total) * 100];
      [ge f p] is [f >= p] (false for NaN); [same_int p f]: their integer parts are equal;
      [bound i] is [uint64(base * math.Pow(factor, float64(i)))]. *)
  Context {F P : Type}.
  Variable freq : N -> N -> F.
  Variable ge : F -> P -> bool.
  Variable same_int : P -> F -> bool.
  Variable bound : nat -> N.

  (** stats.go 159-171: the value for bucket [i]. *)
  Definition pct_value (p : P) (f : F) (i : nat) : N :=
    if (negb (same_int p f) && (0 <? i)%nat)%bool then ((bound i + bound (i - 1)) / 2)%N
    else if (i =? 0)%nat then bound 0 else bound i.

  (** stats.go 146-177: the loop over the buckets from number [i]; [ps] are the percentiles not
      found yet.  The values of those found, in order. *)
  Fixpoint pct_loop (total : N) (i : nat) (n : N) (bs : list N) (ps : list P) : list N :=
    match bs, ps with
    | [], _ => []
    | _, [] => []
    | b :: bs', p :: ps' =>
      let n' := (n + b)%N in
      let f := freq n' total in
      if ge f p then pct_value p f i :: pct_loop total (S i) n' bs' ps'
      else pct_loop total (S i) n' bs' ps
    end.

  (** stats.go 141-179, [Percentiles]: those not found are 0. *)
  Definition percentiles (c : cell) (ps : list P) : list N :=
    let found := pct_loop (ce_n c) 0 0 (ce_buckets c) ps in
    found ++ repeat 0%N (length ps - length found).
End Percentiles.

(* ------------------------------------------------------------------------------------ *)
(** * Instances *)

(** collector.go 20-28.  [in_clients] and [in_total] only, of what reporters use. *)
Record inst := Inst { in_host : string; in_clients : N; in_interval : N; in_total : stats }.

(** collector.go 39-50, [Instance.Combine]; [None]: panic (no instance). *)
Fixpoint combine_all (s : stats) (l : list stats) : option stats :=
  match l with
  | [] => Some s
  | c :: l' => match combine s c with Some s' => combine_all s' l' | None => None end
  end.
Definition inst_combine (total : stats) (from : list inst) : option (N * N * stats) :=
  match from with
  | [] => None
  | f :: rest =>
    match combine_all (copy_stats total (in_total f)) (map in_total rest) with
    | None => None
    | Some t => Some (fold_left N.add (map in_clients rest) (in_clients f), in_interval f, t)
    end
  end.

(** stdout.go 89-92: the total of all error codes. *)
Definition error_count (s : stats) : N := fold_left N.add (map snd (s_errs s)) 0%N.

(** stdout.go 72-85, [Stdout.Report] with [combined]: [r.all] is reused.  What is printed for the
    combined line is the new [r.all], if there are several instances. *)
Definition stdout_report (all : stats) (from : list inst) : option (stats * option (N * N * stats)) :=
  if (1 <? length from)%nat then
    match inst_combine all from with
    | None => None
    | Some (cl, iv, t) => Some (t, Some (cl, iv, t))
    end
  else Some (all, None).

(** csv.go 59-66, [CSV.Report]: a new [Stats] each time. *)
Definition csv_report (from : list inst) : option (N * N * stats) := inst_combine stats_new from.

(** collector.go 314-332, the merging part of [Collect]: [local] are the collector's total and
    statistics for each trx name, [parts] the statistics swapped out of each client's trx. *)
Fixpoint trx_get (m : list (string * stats)) (k : string) : option stats :=
  match m with [] => None | (k', v) :: m' => if String.eqb k k' then Some v else trx_get m' k end.
Fixpoint trx_set (m : list (string * stats)) (k : string) (v : stats) : list (string * stats) :=
  match m with
  | [] => [(k, v)]
  | (k', v') :: m' => if String.eqb k k' then (k', v) :: m' else (k', v') :: trx_set m' k v
  end.
Fixpoint merge (total : stats) (trx : list (string * stats)) (seen : list string) (parts : list (string * stats))
  : option (stats * list (string * stats)) :=
  match parts with
  | [] => Some (total, trx)
  | (name, s) :: parts' =>
    match trx_get trx name with
    | None => None
    | Some t =>
      let t0 := if existsb (String.eqb name) seen then t else reset t in
      match combine t0 s, combine total s with
      | Some t1, Some total1 => merge total1 (trx_set trx name t1) (name :: seen) parts'
      | _, _ => None
      end
    end
  end.
Definition collect (local : stats * list (string * stats)) (parts : list (string * stats)) : option (stats * list (string * stats)) :=
  merge (reset (fst local)) (snd local) [] parts.
