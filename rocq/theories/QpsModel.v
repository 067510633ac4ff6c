(** QPS and TPS in reports: stats/csv.go 86, 92, 98 and 104, stats/stdout.go 100, 106, 112 and 118 and stats/collector.go 296 and 300, in floating point numbers
    (IEEE 754 binary64, as in GapsModel.v). *)
From Coq Require Import ZArith.
From Verif Require Import Prelude ClientModel StatsModel ReportModel GapsModel.

(** time.Duration.Seconds of [d] nanoseconds (Go's time package: the seconds plus the rest divided by 1e9). *)
Definition seconds (d : Z) : f64 := fadd (of_int (Z.quot d 1000000000)) (fdiv (of_int (Z.rem d 1000000000)) (of_int 1000000000)).

(** csv.go 86, 92, 98, 104, stdout.go 100, 106, 112, 118: int64(float64(n) / seconds) *)
Definition rate (n : N) (s : f64) : Z := to_int (fdiv (of_int (Z.of_N n)) s).
