(** When statistics are collected and what reports say about time: stats/collector.go 75-96 and 134-158 ([NewCollector], [Start]),
    229-258 ([Stop]), 292-300 and 335-339 ([Collect]), 379-395 ([Report]), for one compute instance, which reports whatever it collects
    at once.

    Times are in nanoseconds.  The times of the ticker are given, as are those between them and what [Collect] does with them; what is
    counted is in StatsModel.v and TotalModel.v. *)
From Verif Require Import Prelude.
#[local] Open Scope Z_scope.

(** The columns interval, duration and runtime of a report (collector.go 20-28). *)
Record row := Row { w_interval : N; w_duration : Z; w_runtime : Z }.

(** collector.go 55-73.  [k_reported]: none if it is the zero Time. *)
Record clock := Clock { k_freq : Z; k_start : Z; k_last : Z; k_interval : N; k_reported : option Z; k_rows : list row }.

(** A moment when [Collect] is called and the later one when it has reported. *)
Definition moment := (Z * Z)%type.

(** collector.go 83-95, 137-139: [Start] at time [now]. *)
Definition clock_start (freq now : Z) : clock := Clock freq now now 0 None [].

(** collector.go 294-300, 335-339, 379-395 *)
Definition clock_collect (c : clock) (m : moment) : clock :=
  let (now, later) := m in
  let i := (k_interval c + 1)%N in
  Clock (k_freq c) (k_start c) now i (Some later) (k_rows c ++ [Row i (now - k_last c) (now - k_start c)])%list.

(** collector.go 139-157: the ticks of the goroutine until [Stop] ends it; without frequency it is not started. *)
Definition clock_ticks (c : clock) (ticks : list moment) : clock :=
  if k_freq c =? 0 then c else fold_left clock_collect ticks c.

(** collector.go 229-258: [Stop] at time [now]; the last report was less than half an interval ago, or statistics are collected. *)
Definition clock_stop (c : clock) (now : Z) (m : moment) : clock :=
  if k_freq c =? 0 then clock_collect c m
  else if match k_reported c with Some t => now - t <? Z.quot (k_freq c) 2 | None => false end then c
  else clock_collect c m.

(** The rows of a stage that starts at [t0]. *)
Definition clock_run (freq t0 : Z) (ticks : list moment) (stop : Z) (m : moment) : list row :=
  k_rows (clock_stop (clock_ticks (clock_start freq t0) ticks) stop m).
