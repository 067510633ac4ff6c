(** What statistics should be, said on the list of recorded events. *)
From Verif Require Import Prelude ClientModel StatsModel.

(** What a client does to its statistics: records a time in microseconds, or counts an error. *)
Inductive sev := SRec (q : qclass) (d : Z) | SErr (code : N).

(** Class [TOTAL] covers all classes. *)
Definition covers (q q' : qclass) : bool :=
  match q, q' with
  | TOTAL, _ | READ, READ | WRITE, WRITE | COMMIT, COMMIT => true
  | _, _ => false
  end.
Definition times (q : qclass) (evs : list sev) : list Z :=
  flat_map (fun e => match e with SRec q' d => if covers q q' then [d] else [] | SErr _ => [] end) evs.
Definition codes (evs : list sev) : list N :=
  flat_map (fun e => match e with SErr k => [k] | SRec _ _ => [] end) evs.
Definition times_ok (evs : list sev) : Prop := Forall (fun d => (0 <= d)%Z) (times TOTAL evs).

(** The least and the greatest time; 0 if there is none. *)
Definition is_least (z : Z) (l : list Z) : Prop :=
  match l with [] => z = 0%Z | _ => In z l /\ Forall (fun d => (z <= d)%Z) l end.
Definition is_greatest (z : Z) (l : list Z) : Prop :=
  match l with [] => z = 0%Z | _ => In z l /\ Forall (fun d => (d <= z)%Z) l end.

Section Events.
  Variable flog : Z -> bool * N.

  (** Everything a client does, in order. *)
  Fixpoint apply_all (s : stats) (evs : list sev) : option stats :=
    match evs with
    | [] => Some s
    | SRec q d :: evs' => match record flog s q d with Some s' => apply_all s' evs' | None => None end
    | SErr k :: evs' => apply_all (error s k) evs'
    end.

  (** The count, the sum of the buckets, each bucket, the greatest time. *)
  Definition cell_counts (c : cell) (l : list Z) : Prop :=
    ce_n c = N.of_nat (length l) /\
    fold_right N.add 0%N (ce_buckets c) = N.of_nat (length l) /\
    length (ce_buckets c) = 450 /\
    (forall i, i < 450 -> nth i (ce_buckets c) 0%N = N.of_nat (length (filter (fun d => bucket_no flog d =? i) l))) /\
    is_greatest (ce_max c) l.

  (** Each error code's count, and the printed sum of all. *)
  Definition errors_exact (s : stats) (evs : list sev) : Prop :=
    NoDup (map fst (s_errs s)) /\
    (forall k, err_get (s_errs s) k = N.of_nat (count_occ N.eq_dec (codes evs) k)) /\
    error_count s = N.of_nat (length (codes evs)).

  (** [s] is exactly the statistics of the events [evs]. *)
  Definition exact (s : stats) (evs : list sev) : Prop :=
    (forall q, cell_counts (cell_of s q) (times q evs) /\ is_least (ce_min (cell_of s q)) (times q evs)) /\
    errors_exact s evs.
  (** the same but for the least times *)
  Definition exact_but_least (s : stats) (evs : list sev) : Prop :=
    (forall q, cell_counts (cell_of s q) (times q evs)) /\ errors_exact s evs.
End Events.

(** For class [q], a part with events is followed by a part without. *)
Fixpoint gap (q : qclass) (parts : list (list sev)) : Prop :=
  match parts with
  | [] => False
  | p :: rest => (times q p <> [] /\ exists p', In p' rest /\ times q p' = []) \/ gap q rest
  end.

(** Statistics whatever was done to them before: nothing is assumed but the number of buckets and
    that the keys of a map are different. *)
Definition valid (s : stats) : Prop :=
  (forall q, length (ce_buckets (cell_of s q)) = 450) /\ NoDup (map fst (s_errs s)).

(** The events of the trx with the name [name]. *)
Definition named {A} (name : string) (parts : list (string * A)) : list A :=
  map snd (filter (fun p => String.eqb name (fst p)) parts).

(** Successive intervals of the local instance: the collector's statistics are reused. *)
Fixpoint collects (local : stats * list (string * stats)) (intervals : list (list (string * stats)))
  : option (list (stats * list (string * stats))) :=
  match intervals with
  | [] => Some []
  | ss :: rest =>
    match collect local ss with
    | None => None
    | Some local' => match collects local' rest with Some l => Some (local' :: l) | None => None end
    end
  end.

(** Successive intervals of the stdout reporter: what is printed on the combined line. *)
Fixpoint stdout_reports (all : stats) (intervals : list (list inst)) : option (list (option (N * N * stats))) :=
  match intervals with
  | [] => Some []
  | from :: rest =>
    match stdout_report all from with
    | None => None
    | Some (all', out) => match stdout_reports all' rest with Some l => Some (out :: l) | None => None end
    end
  end.

Section Percentile.
  Context {F P : Type}.
  Variable freq : N -> N -> F.
  Variable ge : F -> P -> bool.
  (** The events in the buckets up to number [i]. *)
  Definition upto (bs : list N) (i : nat) : N := fold_right N.add 0%N (firstn (S i) bs).
  (** [i] is the first bucket at which the cumulative fraction of events reaches [p]. *)
  Definition first_bucket (bs : list N) (total : N) (p : P) (i : nat) : Prop :=
    i < length bs /\ ge (freq (upto bs i) total) p = true /\
    forall i', i' < i -> ge (freq (upto bs i') total) p = false.
End Percentile.
