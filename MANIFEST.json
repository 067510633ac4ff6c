{
 "claims": [
  {
   "property": "C01",
   "status": "proved",
   "theorems": [
    "C01_one_generator_per_scope_instance",
    "C01_every_use_is_served",
    "C01_explicit_calls_wired"
   ],
   "note": "All run shapes and keys; global scope and the no-op column '_' excluded (global is C02)."
  },
  {
   "property": "C02",
   "status": "partial",
   "theorems": [
    "C02_refuted",
    "C02_global_never_served"
   ],
   "note": "REFUTED: a globally scoped key never gets a generator, because the run level array has the constant 1 at the global index for every run level, the zero one included, so it is never greater; C02_global_never_served shows this for every run."
  },
  {
   "property": "C03",
   "status": "proved",
   "theorems": [
    "C03_called_once_per_scope_iteration"
   ],
   "note": "All generators, all histories with counters starting at 1 and not decreasing."
  },
  {
   "property": "C04",
   "status": "partial",
   "theorems": [
    "C04_each_client_iteration_partial",
    "C04_refuted"
   ],
   "note": "Proved for clients with distinct client numbers (one client group) under every interleaving; REFUTED across client groups (exec-group/workload scope) because the maps are keyed by the client number within its group."
  },
  {
   "property": "C05",
   "status": "partial",
   "theorems": [
    "C05_explicit_call_partial",
    "C05_refuted",
    "C05_refuted_after_call"
   ],
   "note": "REFUTED: implicit uses never generate before an explicit call and always generate after one (inverted nil test)."
  },
  {
   "property": "C06",
   "status": "partial",
   "theorems": [
    "C06_rows_partial",
    "C06_one_call",
    "C06_refuted"
   ],
   "note": "REFUTED: with a row scoped key that is the beginning of another one (@d, @d2) RowScope calls the longer key twice and the shorter one never, whatever the map order. Proved for templates in parentheses in which no key is the beginning of another one, one CSV template per statement."
  },
  {
   "property": "C07",
   "status": "partial",
   "theorems": [
    "C07_in_bounds_partial",
    "C07_exact_values",
    "C07_refuted",
    "C07_refuted_panic"
   ],
   "note": "REFUTED: max is never returned (rand.Int63n(max)), nothing negative is returned, and max <= 0 is accepted but panics. Proved: for max > 0 every value is in bounds, with the exact set of possible values."
  },
  {
   "property": "C08",
   "status": "partial",
   "theorems": [
    "C08_in_bounds_partial",
    "C08_default_mean",
    "C08_refuted",
    "C08_refuted_rounding"
   ],
   "note": "REFUTED: the fallback value is the mean, and the default mean (max-min+1)/2 is outside [min,max] when 3*min > max+1 (min 100, max 110 gives 5); a mean above 2^53 may round out of the range. Proved for means inside the range below 2^53."
  },
  {
   "property": "C09",
   "status": "partial",
   "theorems": [
    "C09_pairs_partial",
    "C09_every_start",
    "C09_refuted_size",
    "C09_refuted_overflow"
   ],
   "note": "REFUTED: size < 1 is accepted and gives m < n; n+size may overflow int64. Proved for size >= 1 and max+size <= 2^63."
  },
  {
   "property": "C10",
   "status": "partial",
   "theorems": [
    "C10_chunks_partial",
    "C10_each_number_once",
    "C10_chunk_shape",
    "C10_refuted_size",
    "C10_refuted_overflow"
   ],
   "note": "REFUTED: size 0 is accepted and repeats (begin, begin-1) for ever; at the end of int64 the sequence wraps. Proved for size >= 1 and end+size < 2^63 (closed form of every pair, exact cover per pass)."
  },
  {
   "property": "C100",
   "status": "partial",
   "theorems": [
    "C100_column_partial",
    "C100_refuted",
    "C100_refuted_norow",
    "C100_scans"
   ],
   "note": "REFUTED when a statement both uses and saves the column, and when a query returns no row (value of an earlier run of the trx). Proved: if every use comes after the saving statements of the trx, and every trx begins with a query, each use gets the value saved last in the run of the client."
  },
  {
   "property": "C101",
   "status": "proved",
   "theorems": [
    "C101_same",
    "C101_statement",
    "C101_new",
    "C101_own"
   ],
   "note": "For all runs of prepared stages by key name. Joins C01 (allocation), C30 (trx of a client) and C99 (values). Conditions as in the statement; 'sized': each generator returns as many values as its key has placeholders."
  },
  {
   "property": "C102",
   "status": "proved",
   "theorems": [
    "C102_saved",
    "C102_order",
    "C102_accepted"
   ],
   "note": "C102_order derives from the trx files that the column is saved before it is used; C102_accepted joins it with the execution. What happens when one statement uses and saves the column, and when no row is found, is refuted in C100."
  },
  {
   "property": "C103",
   "status": "proved",
   "theorems": [
    "C103_saved_once",
    "C103_not_twice"
   ],
   "note": "The statement that saves a column may itself use it. @PREV as name of a saved column is left out of the clause about uses."
  },
  {
   "property": "C104",
   "status": "partial",
   "theorems": [
    "C104_clients",
    "C104_counts_partial",
    "C104_at_most_partial",
    "C104_one_report_partial",
    "C104_refuted"
   ],
   "note": "REFUTED: a recording written between two collections to statistics loaded before the first is in no report (C104_refuted; C39). Proved: exact counts when no statistics are read during a write and the last collection follows the clients' end (always so without periodic statistics, C104_one_report_partial); never more than executed in any interleaving. Trx must begin with a query (C29_refuted)."
  },
  {
   "property": "C105",
   "status": "proved",
   "theorems": [
    "C105_valid",
    "C105_prepare",
    "C105_stages",
    "C105_nothing",
    "C105_help",
    "C105_client"
   ],
   "note": "The command line as parsed and the files as decoded are given."
  },
  {
   "property": "C106",
   "status": "partial",
   "theorems": [
    "C106_zero_partial",
    "C106_nonzero",
    "C106_last",
    "C106_refuted",
    "C106_refuted_ctrl_c"
   ],
   "note": "REFUTED: with --client the status is 0 whatever fails, and after CTRL-C it is 0 although stages were not run. Without --client and CTRL-C, 0 means every stage ended (C106_zero_partial); the causes of other statuses are exact (C106_nonzero)."
  },
  {
   "property": "C107",
   "status": "proved",
   "theorems": [
    "C107_stage",
    "C107_ends"
   ],
   "note": "That the forced exit comes 7.5 seconds after CTRL-C is not modelled, only that it can come from every state after CTRL-C and from none before."
  },
  {
   "property": "C108",
   "status": "partial",
   "theorems": [
    "C108_tls_partial",
    "C108_refuted"
   ],
   "note": "REFUTED: tls.disable does not keep a connection to an Amazon RDS host from using TLS (C108_refuted). Proved: which TLS is used in every other case (C108_tls_partial)."
  },
  {
   "property": "C109",
   "status": "partial",
   "theorems": [
    "C109_barrier_partial",
    "C109_refuted"
   ],
   "note": "REFUTED: a report of a successful boot that is sent again after a second counts twice if the first is still being handled (C109_refuted). Proved when no attempt of a request is given up while the server handles it (requests for the run signal excepted), for remotes with distinct names; attempts may be lost, refused, repeated, answers lost, processes started again."
  },
  {
   "property": "C11",
   "status": "proved",
   "theorems": [
    "C11_values",
    "C11_defaults",
    "C11_no_duplicates",
    "C11_increasing"
   ],
   "note": "Calls are atomic (atomic.AddUint64), so every interleaving is a sequence of calls."
  },
  {
   "property": "C110",
   "status": "partial",
   "theorems": [
    "C110_end_partial",
    "C110_refuted"
   ],
   "note": "REFUTED: a report of being done that is sent again after half a second counts twice if the first is still being handled (C110_refuted). Proved under the same conditions as C109."
  },
  {
   "property": "C111",
   "status": "proved",
   "theorems": [
    "C111_own_stage"
   ],
   "note": "For every network and schedule."
  },
  {
   "property": "C112",
   "status": "proved",
   "theorems": [
    "C112_clients",
    "C112_default"
   ],
   "note": "From configuration file to clients; DDL of a trx as recorded when its file was loaded (C46, C72). Rate limits are C26 and C27."
  },
  {
   "property": "C113",
   "status": "proved",
   "theorems": [
    "C113_names"
   ],
   "note": "Any requests and interleavings. Log lines are not events of their own: the name in them is that of the event. Texts of boot errors are logged as they are and not part of the claim."
  },
  {
   "property": "C114",
   "status": "proved",
   "theorems": [
    "C114_iterations"
   ],
   "note": ""
  },
  {
   "property": "C115",
   "status": "proved",
   "theorems": [
    "C115_iter"
   ],
   "note": "From the configuration file and the trx files to the executed query texts."
  },
  {
   "property": "C116",
   "status": "proved",
   "theorems": [
    "C116_iter_clients",
    "C116_iter_exec_group"
   ],
   "note": "Hypothesis: N plus the number of clients fits 32 bits (in the statement; see C28 for what happens otherwise)."
  },
  {
   "property": "C117",
   "status": "proved",
   "theorems": [
    "C117_rate",
    "C117_net",
    "C117_run"
   ],
   "note": "C117_net: the limiters of a configured stage exist as a net; C117_run: runs with limiters are runs of the loop, so C114-C116 hold for them. The spacing of ticks is the contract of x/time/rate with burst 1."
  },
  {
   "property": "C118",
   "status": "proved",
   "theorems": [
    "C118_window"
   ],
   "note": "The spacing of ticks within the window is a hypothesis, as in C117."
  },
  {
   "property": "C119",
   "status": "proved",
   "theorems": [
    "C119_no_deadlock"
   ],
   "note": "Possibility from every reachable state; that goroutines that can move eventually do is up to the Go scheduler. With competing clients it does not say that the scheduler is fair."
  },
  {
   "property": "C12",
   "status": "proved",
   "theorems": [
    "C12_exact_string",
    "C12_letters_distinct",
    "C12_ends",
    "C12_positive"
   ],
   "note": ""
  },
  {
   "property": "C120",
   "status": "proved",
   "theorems": [
    "C120_rows_bound"
   ],
   "note": "From configuration and trx file; C120_C121_example: a run that exceeds the limit by three rows."
  },
  {
   "property": "C121",
   "status": "proved",
   "theorems": [
    "C121_rows_reached"
   ],
   "note": "Hypothesis: affected rows are not negative and counters fit int64; size limits and several limits on the statement: only the first half."
  },
  {
   "property": "C122",
   "status": "partial",
   "theorems": [
    "C122_refuted",
    "C122_partial",
    "C122_format"
   ],
   "note": "REFUTED: the number of values that Format promises is not compared with the placeholders, so '@d AND @PREV' with an int gets nil and '@r' with an int-range shifts the values after it. Proved: built-in generators return what Format promises; if each key of a client's statements has a generator for as many values as it has placeholders, all executions get exactly as many non-nil values as placeholders (values of keys shared by clients are the environment's)."
  },
  {
   "property": "C123",
   "status": "partial",
   "theorems": [
    "C123_refuted",
    "C123_partial"
   ],
   "note": "REFUTED when another key of the statement has more values than placeholders. Proved for keys of one client (scope statement, trx, iter, client), parameters with which the generator keeps its promise, and statements for which C122_partial holds (sized): every executed value is one that the configured generator's documentation allows."
  },
  {
   "property": "C124",
   "status": "proved",
   "theorems": [
    "C124_first_wins",
    "C124_refused",
    "C124_builtin",
    "C124_copy"
   ],
   "note": "Copy is proved for generators that were just made (the only ones copied); their random sources are not part of the state."
  },
  {
   "property": "C125",
   "status": "proved",
   "theorems": [
    "C125_goes_on",
    "C125_few_checks"
   ],
   "note": "From configuration and trx file."
  },
  {
   "property": "C126",
   "status": "proved",
   "theorems": [
    "C126_stops",
    "C126_not_early"
   ],
   "note": "From configuration and trx file; one size limit on the statement."
  },
  {
   "property": "C127",
   "status": "partial",
   "theorems": [
    "C127_text_partial",
    "C127_run_partial",
    "C127_refuted",
    "C127_refuted_quote"
   ],
   "note": "REFUTED: queries with a per cent sign are sent as something else; saved columns are not quoted by default though documented. Proved from the trx file: prepared statements are prepared with ? in place of each key; other statements are sent as the text of the file with the values of the execution in place of the keys (numbers in decimal, strings quoted, saved columns as quote-value says). Missing: copies, CSV templates, keys that begin with another key, keys that other stages see, several @PREV of different kinds."
  },
  {
   "property": "C128",
   "status": "proved",
   "theorems": [
    "C128_order",
    "C128_default"
   ],
   "note": "From the configuration file, for stages not disturbed by a runtime or a stop. C128_default: a stage without a workload; that the queries of a trx with DDL were executed assumes no data limit, no failed query and no reported error."
  },
  {
   "property": "C129",
   "status": "proved",
   "theorems": [
    "C129_iter",
    "C129_iter_clients",
    "C129_ends",
    "C129_iter_exec_group"
   ],
   "note": "C129_ends counts the steps of the model: a step that waits (rate limiters, data limits, the database) is one step. It is stated for a stage with a workload. Iteration counts fit 32 bits together with the number of clients (see C116)."
  },
  {
   "property": "C13",
   "status": "partial",
   "theorems": [
    "C13_range_partial",
    "C13_negative_partial",
    "C13_values",
    "C13_accepted",
    "C13_refuted"
   ],
   "note": "REFUTED: accepted generators panic (1..4, default p), return the smallest int64 (1..9, default p), exceed a negative max, or exceed a max near 2^63. Proved for |min|,max up to 2^48, max >= 0 and at least two values (300 <= size*p suffices); with negative max exceeded by at most 1. binary64 is Flocq's; conversions of NaN and infinities as on amd64."
  },
  {
   "property": "C130",
   "status": "proved",
   "theorems": [
    "C130_report"
   ],
   "note": "for stages whose client groups have iter as the only limit, with one collection at the end (periodic reports: C104); trx files that begin with an idle statement are excluded"
  },
  {
   "property": "C131",
   "status": "proved",
   "theorems": [
    "C131_client",
    "C131_returns",
    "C131_ends"
   ],
   "note": "From any state of Stage.Run with its clients in which a context is done."
  },
  {
   "property": "C132",
   "status": "proved",
   "theorems": [
    "C132_report",
    "C132_reports",
    "C132_kinds"
   ],
   "note": "For stages with a workload; C104 is about the statistics alone."
  },
  {
   "property": "C133",
   "status": "partial",
   "theorems": [
    "C133_order_partial",
    "C133_after",
    "C133_refuted"
   ],
   "note": "REFUTED: a client of a stage with a runtime may still try a query after clients of the next stage did (C133_refuted). C133_order_partial: holds for every earlier stage without a runtime, also if finch is stopped. C133_after: however a stage ended, once a later one has begun its clients try at most one query, which fails, and change nothing."
  },
  {
   "property": "C134",
   "status": "proved",
   "theorems": [
    "C134_ends",
    "C134_iter",
    "C134_order",
    "C134_iter_clients",
    "C134_iter_exec_group"
   ],
   "note": "Single instance; stages are prepared without an error (C92). C134_order: stages without a runtime (with one, see C133)."
  },
  {
   "property": "C135",
   "status": "partial",
   "theorems": [
    "C135_partial",
    "C135_fits",
    "C135_refuted"
   ],
   "note": "REFUTED: with exec-group or workload scope a client-id key gives a client the numbers of a client of another client group with the same client number (C135_refuted). Proved for all other generators and scopes, and for client-id if no other user of the generator has the client's number; the uses of the shared generator are those of a history of ScopeModel.v's m_run."
  },
  {
   "property": "C136",
   "status": "partial",
   "theorems": [
    "C136_clients_partial",
    "C136_iterations_partial",
    "C136_refuted"
   ],
   "note": "REFUTED for exec-group scope: clients of two client groups insert the same number (C136_refuted). Proved for client-group scope in every interleaving, until the counter overflows; the uses of the shared generator are those of a history of ScopeModel.v's m_run."
  },
  {
   "property": "C137",
   "status": "partial",
   "theorems": [
    "C137_untouched",
    "C137_refuses",
    "C137_made",
    "C137_partial",
    "C137_same_file",
    "C137_stops",
    "C137_refuted"
   ],
   "note": "REFUTED: if _all.yaml names a csv file then the second stage cannot make its reporters and the run ends with an error (C137_refuted; C137_same_file: this is so in every run). Proved if the stages name different files; existing files are never changed and always refused."
  },
  {
   "property": "C138",
   "status": "partial",
   "theorems": [
    "C138_server",
    "C138_remote",
    "C138_refuted"
   ],
   "note": "REFUTED: a remote makes and uses reporters although stats.disable is true, and cannot boot if they are not valid (C138_refuted). Proved for the server, and for remotes of stages whose statistics are not disabled."
  },
  {
   "property": "C139",
   "status": "partial",
   "theorems": [
    "C139_rows",
    "C139_once",
    "C139_end_partial",
    "C139_frequency",
    "C139_refuted"
   ],
   "note": "REFUTED: Stop does not report if the last report is less than half the frequency ago, so the end of a stage can be in no report (C139_refuted). Proved: rows are numbered, without gap, runtimes are sums of intervals (C139_rows), one row without frequency (C139_once), what is missing at most (C139_end_partial), intervals of the configured length (C139_frequency)."
  },
  {
   "property": "C14",
   "status": "proved",
   "theorems": [
    "C14_counters",
    "C14_accepted",
    "C14_default"
   ],
   "note": ""
  },
  {
   "property": "C140",
   "status": "partial",
   "theorems": [
    "C140_rate",
    "C140_whole",
    "C140_csv_partial",
    "C140_stdout_partial",
    "C140_refuted"
   ],
   "note": "REFUTED: the combined rates of several instances use the interval of the instance whose statistics came first (C140_refuted). Proved: the floating point computation (C140_rate, C140_whole), and the columns of csv and stdout lines for the interval printed in the line (C140_csv_partial, C140_stdout_partial)."
  },
  {
   "property": "C141",
   "status": "proved",
   "theorems": [
    "C141_iter",
    "C141_ddl",
    "C141_iter_clients",
    "C141_iter_exec_group"
   ],
   "note": "Single instance. Limits with which the counter wraps are in C28 (refuted there)."
  },
  {
   "property": "C142",
   "status": "partial",
   "theorems": [
    "C142_partial",
    "C142_limits_partial",
    "C142_refuted",
    "C142_limits_refuted"
   ],
   "note": "REFUTED: a client at its own iter still takes one count of iter-clients before it stops, so two clients with iter 3 and iter-clients 5 may execute 4 iterations (C142_refuted); clients stopped by iter-clients have been counted for iter-exec-group, so an execution group with iter-exec-group 6 may execute 3 (C142_limits_refuted). Proved: each has begun M iterations, or together at least N+1 minus the number of clients; for any combination of the three limits each client has reached its own iter, or its group or execution group at least N+1 minus their number of clients."
  },
  {
   "property": "C143",
   "status": "proved",
   "theorems": [
    "C143"
   ],
   "note": "Exactly min(N, X) iterations for a client group alone in its execution group; with several groups in it see C142_limits_partial."
  },
  {
   "property": "C15",
   "status": "proved",
   "theorems": [
    "C15_last_saved",
    "C15_stable"
   ],
   "note": ""
  },
  {
   "property": "C16",
   "status": "proved",
   "theorems": [
    "C16_rows_bound",
    "C16_rows_bound_no_offset",
    "C16_stops",
    "C16_check",
    "C16_bound_tight"
   ],
   "note": "For limits below 2^63 (larger ones wrap to a negative limit and stop at once). Interleaving at the granularity of locked limiter operations; the bound is shown to be attained."
  },
  {
   "property": "C17",
   "status": "partial",
   "theorems": [
    "C17_refuted",
    "C17_never_executes",
    "C17_no_modifier_no_limit_partial"
   ],
   "note": "REFUTED: NewRows(0) returns a nil *Rows which becomes a non-nil Data interface; the first check panics, so the statement never executes."
  },
  {
   "property": "C18",
   "status": "proved",
   "theorems": [
    "C18_check_interval",
    "C18_stops_soon",
    "C18_not_early"
   ],
   "note": "The database rejects the empty statement; all clients of the statement use the same current database."
  },
  {
   "property": "C19",
   "status": "partial",
   "theorems": [
    "C19_refuted",
    "C19_always_stops_partial",
    "C19_clients_stop"
   ],
   "note": "REFUTED: rows.Close() is called before rows.Next(), so ANALYZE TABLE gets no tables, fails, and every m-th check stops a client whatever the size is. C19_clients_stop: from configuration and trx file, all clients stop after a few executions."
  },
  {
   "property": "C20",
   "status": "proved",
   "theorems": [
    "C20_more",
    "C20_affected",
    "C20_all_asked"
   ],
   "note": "For non-zero row limits (rows: 0 is C17)."
  },
  {
   "property": "C21",
   "status": "proved",
   "theorems": [
    "C21_window",
    "C21_from_start",
    "C21_rate"
   ],
   "note": "The spacing of the ticks of a golang.org/x/time/rate limiter with burst 1 is an assumption of C21_rate."
  },
  {
   "property": "C22",
   "status": "proved",
   "theorems": [
    "C22_each_component",
    "C22_window",
    "C22_rate",
    "C22_zero_does_not_limit",
    "C22_leaf_contained"
   ],
   "note": ""
  },
  {
   "property": "C23",
   "status": "proved",
   "theorems": [
    "C23_exec_groups_partition",
    "C23_configuration_kept"
   ],
   "note": "all workloads, including the automatic one"
  },
  {
   "property": "C24",
   "status": "partial",
   "theorems": [
    "C24_refuted",
    "C24_ddl_name_unique",
    "C24_ddl_alone_partial",
    "C24_dml_together",
    "C24_ddl_iter"
   ],
   "note": "REFUTED: a user-given name like ddl1 next to an unnamed group with DDL puts both in one exec group. Everything else is proved; DDL isolation is proved when no user-given name has the form of an automatic name."
  },
  {
   "property": "C25",
   "status": "proved",
   "theorems": [
    "C25_default_workload"
   ],
   "note": "all trx lists and DDL markings"
  },
  {
   "property": "C26",
   "status": "proved",
   "theorems": [
    "C26_client_statements",
    "C26_number_of_clients"
   ],
   "note": "every allocation that does not panic, trx with at least one statement"
  },
  {
   "property": "C27",
   "status": "proved",
   "theorems": [
    "C27_counters_shared",
    "C27_run_level_unique"
   ],
   "note": "counters as object identities"
  },
  {
   "property": "C28",
   "status": "partial",
   "theorems": [
    "C28_iter",
    "C28_iter_clients_partial",
    "C28_iter_exec_group_partial",
    "C28_iter_clients_exact_partial",
    "C28_iter_exec_group_exact_partial",
    "C28_refuted_unset",
    "C28_refuted_wrap"
   ],
   "note": "REFUTED: client groups of the exec group that do not set iter-exec-group are not limited by it; limits of 2^32-1 do not limit and limits >= 2^32 are truncated (uint32). Proved for limits plus clients below 2^32 and groups that set the limit."
  },
  {
   "property": "C29",
   "status": "partial",
   "theorems": [
    "C29_recorded_partial",
    "C29_disabled_partial",
    "C29_refuted"
   ],
   "note": "REFUTED when a trx begins with an idle time (recorded under the trx before it). Proved for clients whose trx all begin with a query; C30_clients_have_trx shows the hypotheses on clients hold for every allocated client."
  },
  {
   "property": "C30",
   "status": "partial",
   "theorems": [
    "C30_trx_boundaries_partial",
    "C30_clients_have_trx",
    "C30_refuted"
   ],
   "note": "REFUTED when a trx begins with an idle time (index -1 panic). Proved for clients whose trx all begin with a query."
  },
  {
   "property": "C31",
   "status": "partial",
   "theorems": [
    "C31_keep_connection_partial",
    "C31_reconnect",
    "C31_ddl_stops",
    "C31_refuted"
   ],
   "note": "REFUTED for 1062: Eabort is 0, so duplicate key errors reconnect. Proved for all other codes."
  },
  {
   "property": "C32",
   "status": "partial",
   "theorems": [
    "C32_rollback_partial",
    "C32_refuted"
   ],
   "note": "REFUTED for the last statement of a trx of several statements (the in-trx flag is already reset). Proved for all other positions."
  },
  {
   "property": "C33",
   "status": "partial",
   "theorems": [
    "C33_prepared_partial",
    "C33_prepared_once",
    "C33_refuted"
   ],
   "note": "REFUTED after a reconnect: statements are not prepared again. Proved until the first reconnect."
  },
  {
   "property": "C34",
   "status": "partial",
   "theorems": [
    "C34_finish_once",
    "C34_finished_is_final",
    "C34_error_partial",
    "C34_refuted"
   ],
   "note": "Reporting exactly once is proved. REFUTED for the error: the end of the run during PREPARE or ROLLBACK is reported as an error (wrapped with %s). Proved otherwise."
  },
  {
   "property": "C35",
   "status": "proved",
   "theorems": [
    "C35_values_placed"
   ],
   "note": "For every run and step of a client."
  },
  {
   "property": "C36",
   "status": "proved",
   "theorems": [
    "C36_recorded_exact"
   ],
   "note": "For every event sequence and every bucket function; floating point logarithm is an oracle, counters unbounded. Exactness for non-negative times, no crash for any."
  },
  {
   "property": "C37",
   "status": "partial",
   "theorems": [
    "C37_combined_partial",
    "C37_any_order",
    "C37_refuted"
   ],
   "note": "REFUTED: a part without events of a class that follows a part with events makes the least time of the class 0. Proved: counts, buckets, maximum and errors exact for every split and order; least time exact iff no such gap."
  },
  {
   "property": "C38",
   "status": "partial",
   "theorems": [
    "C38_distinct_buckets_partial",
    "C38_between",
    "C38_no_events",
    "C38_unreached",
    "C38_refuted",
    "C38_refuted_dependent"
   ],
   "note": "REFUTED: at most one requested percentile is found per bucket, so a second percentile reached in the same bucket gets the next bucket's value, or 0 at the last bucket; and the value can be the middle of the bucket. Proved: right bucket when the percentiles are first reached in different buckets; bounds; zero without events."
  },
  {
   "property": "C39",
   "status": "partial",
   "theorems": [
    "C39_exactly_once_partial",
    "C39_at_most_once",
    "C39_refuted"
   ],
   "note": "REFUTED: an event whose buffer pointer was loaded before a swap and written after the read is lost. Proved: exactly once if no read overlaps a write to the same buffer; at most once in every interleaving."
  },
  {
   "property": "C40",
   "status": "partial",
   "theorems": [
    "C40_local",
    "C40_csv",
    "C40_stdout_partial",
    "C40_refuted"
   ],
   "note": "REFUTED for the combined line on stdout: error counts of earlier intervals stay for codes the first instance never had. Proved: local instance and per-trx statistics, CSV report, counts and times of the combined line, errors when the codes are the first instance's."
  },
  {
   "property": "C41",
   "status": "partial",
   "theorems": [
    "C41_complete_partial",
    "C41_past_discarded",
    "C41_refuted_twice",
    "C41_refuted_order"
   ],
   "note": "REFUTED: a late remote instance makes two local sets (sharing the later statistics) count as a complete interval; a jump of interval numbers mixes intervals and reported numbers decrease. Proved: complete, exactly once, own statistics if every interval is delivered before the next; past intervals discarded."
  },
  {
   "property": "C42",
   "status": "partial",
   "theorems": [
    "C42_all_before",
    "C42_timeout_partial",
    "C42_refuted",
    "C42_refuted_tail"
   ],
   "note": "REFUTED: if the last statistics arrive during the wait, the wait goes on until the timeout and a second empty report is made (CSV crashes); with periodic statistics events since a recent report are never reported. Proved: the cases all-before and missing-until-timeout."
  },
  {
   "property": "C43",
   "status": "partial",
   "theorems": [
    "C43_inherit_partial",
    "C43_refuted",
    "C43_refuted_report"
   ],
   "note": "REFUTED: stats.freq of a stage is always overwritten by _all.yaml's and reporters configured in _all.yaml replace the stage's of the same name (C43_refuted, C43_refuted_report). Proved for all mysql/tls settings and params: stage value if set, else base value."
  },
  {
   "property": "C44",
   "status": "partial",
   "theorems": [
    "C44_param_partial",
    "C44_refuted",
    "C44_refuted_no_base"
   ],
   "note": "REFUTED: --param never overrides a param set in the stage file (C44_refuted) and is ignored without an _all.yaml (C44_refuted_no_base). Proved: otherwise the last --param k=v wins over _all.yaml."
  },
  {
   "property": "C45",
   "status": "proved",
   "theorems": [
    "C45_workload"
   ],
   "note": "Accepted workloads name only configured trx and are contiguous per exec group."
  },
  {
   "property": "C46",
   "status": "partial",
   "theorems": [
    "C46_files_partial",
    "C46_refuted"
   ],
   "note": "REFUTED: two files with the same name are accepted and the statements of the first are lost. Proved for distinct names."
  },
  {
   "property": "C47",
   "status": "partial",
   "theorems": [
    "C47_dsn",
    "C47_settings_partial",
    "C47_refuted",
    "C47_refuted_socket"
   ],
   "note": "REFUTED: TLS settings of my.cnf are dropped (C47_refuted) and a my.cnf socket beats the stage's hostname (C47_refuted_socket). Proved: explicit DSN used as is; username, password and address precedence."
  },
  {
   "property": "C48",
   "status": "partial",
   "theorems": [
    "C48_vars_partial",
    "C48_braces",
    "C48_refuted",
    "C48_refuted_rescan"
   ],
   "note": "REFUTED: a reference that is the beginning of another one corrupts it (C48_refuted); values of braced references are searched again (C48_refuted_rescan). Proved without these two."
  },
  {
   "property": "C49",
   "status": "partial",
   "theorems": [
    "C49_bound",
    "C49_order_partial",
    "C49_refused",
    "C49_out_of_order",
    "C49_refuted"
   ],
   "note": "REFUTED in one respect: once a stage is being ended its stage ID is no longer checked, so a remote's request naming another stage is accepted. Proved for every schedule: at most the needed number of distinct remotes; unknown, malformed and out of order requests are refused and change nothing. The order boot, run, done is proved for remotes whose requests for a stage and reports of having booted or run do not overlap (requests for the run signal, pings, statistics and files may)."
  },
  {
   "property": "C50",
   "status": "partial",
   "theorems": [
    "C50_refuted",
    "C50_again_partial"
   ],
   "note": "REFUTED: after a reported boot error no request for GET /boot makes progress, for any continuation. Only another POST /boot (without a new GET /boot) makes the remote count."
  },
  {
   "property": "C51",
   "status": "partial",
   "theorems": [
    "C51_barrier_partial",
    "C51_local",
    "C51_test",
    "C51_refuted"
   ],
   "note": "REFUTED for overlapping requests: two concurrent POST /boot of one remote count as two instances. Proved for remotes whose requests for a stage and reports of having booted or run do not overlap (requests for the run signal, pings, statistics and files may); the number of acks counted and the --test part are proved for every schedule."
  },
  {
   "property": "C52",
   "status": "partial",
   "theorems": [
    "C52_attempts",
    "C52_success",
    "C52_failure",
    "C52_body_partial",
    "C52_refuted"
   ],
   "note": "REFUTED: a retried request is sent with what the failed attempt left of the body reader, so the server may get an empty body (C52_refuted). Proved: number of attempts, when a request succeeds, why it can fail, and every attempt sends a suffix of the data, all of it if earlier attempts read nothing."
  },
  {
   "property": "C53",
   "status": "partial",
   "theorems": [
    "C53_refuted",
    "C53_left_partial"
   ],
   "note": "REFUTED: the timeout's break only leaves the select, so the server waits for a lost remote for ever. Proved: once no remote is left the next stage is set."
  },
  {
   "property": "C54",
   "status": "proved",
   "theorems": [
    "C54_statements",
    "C54_plain_file"
   ],
   "note": "Lines are trimmed; a run of modifier lines without SQL belongs to the next statement; a file without statements or with an unused saved column is refused."
  },
  {
   "property": "C55",
   "status": "partial",
   "theorems": [
    "C55_copies_partial",
    "C55_none",
    "C55_negative",
    "C55_refuted"
   ],
   "note": "REFUTED: with copies: 1 the copy number is 0. Proved for N = 0, N < 0 and N >= 2, where no other modifier mentions copies and save- modifiers do not come before copies."
  },
  {
   "property": "C56",
   "status": "partial",
   "theorems": [
    "C56_every_text",
    "C56_placeholders_partial",
    "C56_sent_partial",
    "C56_refuted",
    "C56_refuted_prev",
    "C56_refuted_percent"
   ],
   "note": "REFUTED: a key that is the beginning of another one, two @PREV after keys with different formats, and per cent signs in text. Proved otherwise."
  },
  {
   "property": "C57",
   "status": "proved",
   "theorems": [
    "C57_order",
    "C57_stop",
    "C57_all",
    "C57_ends"
   ],
   "note": "Stage.Run as a state machine interleaved with clients, timer and stop. Times are not modelled: the 10 ms of spinning are a bounded number of turns."
  },
  {
   "property": "C58",
   "status": "proved",
   "theorems": [
    "C58_one_port"
   ],
   "note": "Every WithPort result has exactly one port."
  },
  {
   "property": "C59",
   "status": "partial",
   "theorems": [
    "C59_refuted",
    "C59_limits_apply_partial",
    "C59_limiters_shared"
   ],
   "note": "REFUTED: qps-exec-group/tps-exec-group set by any but the first client group of an exec group is ignored (workload.go 134-140). Proved with the exec group's limit taken from its first client group."
  },
  {
   "property": "C60",
   "status": "partial",
   "theorems": [
    "C60_run_counters_partial",
    "C60_refuted_conn"
   ],
   "note": "REFUTED for the connection counter (counts failed queries even if the connection is kept) and for trx beginning with an idle time. Proved otherwise."
  },
  {
   "property": "C61",
   "status": "proved",
   "theorems": [
    "C61_permits"
   ],
   "note": "For every run of a client."
  },
  {
   "property": "C62",
   "status": "partial",
   "theorems": [
    "C62_saved_partial",
    "C62_refuted"
   ],
   "note": "REFUTED: if a trx begins with an idle time the client panics after its first query and before counting or saving. Proved for clients whose trx all begin with a query."
  },
  {
   "property": "C63",
   "status": "partial",
   "theorems": [
    "C63_sent_partial",
    "C63_refuted"
   ],
   "note": "REFUTED: queued statistics are pointers to the collector's statistics, a delayed send carries a later interval's values; more than five are dropped. Proved when every interval is sent before the next ends."
  },
  {
   "property": "C64",
   "status": "partial",
   "theorems": [
    "C64_string_int_partial",
    "C64_refuted"
   ],
   "note": "REFUTED: iter, iter-clients and iter-exec-group accept plain digits only. Proved for every interpolated number setting."
  },
  {
   "property": "C65",
   "status": "partial",
   "theorems": [
    "C65_accepted_partial",
    "C65_refuted"
   ],
   "note": "REFUTED: TLS files are never checked (C65_refuted). Proved for trx, data, scopes, counts, durations and reporters."
  },
  {
   "property": "C66",
   "status": "partial",
   "theorems": [
    "C66_command_line_partial",
    "C66_refuted"
   ],
   "note": "REFUTED: a DSN with a dollar sign is interpolated, so loading fails (C66_refuted). Proved for values without a dollar sign."
  },
  {
   "property": "C67",
   "status": "partial",
   "theorems": [
    "C67_order_partial",
    "C67_refuted"
   ],
   "note": "REFUTED: params that refer to params depend on the visiting order (C67_refuted). Proved if params are not chained."
  },
  {
   "property": "C68",
   "status": "proved",
   "theorems": [
    "C68_independent"
   ],
   "note": "Two successful loads with the same file at the same position give the same stage."
  },
  {
   "property": "C69",
   "status": "proved",
   "theorems": [
    "C69_same_source"
   ],
   "note": "Every connection made after SetConfig uses the data source of that configuration."
  },
  {
   "property": "C70",
   "status": "partial",
   "theorems": [
    "C70_literal_partial",
    "C70_refuted"
   ],
   "note": "REFUTED: digits in names are converted as numbers (db1m becomes db1000000). Proved for modifiers without digits and dollar signs."
  },
  {
   "property": "C71",
   "status": "proved",
   "theorems": [
    "C71_keys"
   ],
   "note": ""
  },
  {
   "property": "C72",
   "status": "proved",
   "theorems": [
    "C72_kind"
   ],
   "note": ""
  },
  {
   "property": "C73",
   "status": "partial",
   "theorems": [
    "C73_end_partial",
    "C73_count",
    "C73_refuted"
   ],
   "note": "REFUTED for overlapping requests: two concurrent POST /run of one remote count as two instances. Proved for remotes whose requests for a stage and reports of having booted or run do not overlap (requests for the run signal, pings, statistics and files may); the number of done messages is proved for every schedule."
  },
  {
   "property": "C74",
   "status": "partial",
   "theorems": [
    "C74_refuted"
   ],
   "note": "REFUTED: cfg.Test is never set, so with --test no GET /run is ever answered with run (200) or reset (205)."
  },
  {
   "property": "C75",
   "status": "partial",
   "theorems": [
    "C75_refuted",
    "C75_waiting_partial"
   ],
   "note": "REFUTED: a remote that has gone is assigned the place and no other remote makes progress, for any continuation. Proved: if no request of a remote that has gone is served before, the free places go to the remotes that wait, in any order."
  },
  {
   "property": "C76",
   "status": "partial",
   "theorems": [
    "C76_error_partial",
    "C76_success",
    "C76_refuted",
    "C76_attempts"
   ],
   "note": "REFUTED: after a failed first attempt the error is sent with an empty body, which the server takes for a successful boot. Proved when no failed attempt read any of the body."
  },
  {
   "property": "C77",
   "status": "partial",
   "theorems": [
    "C77_files_partial",
    "C77_refuted"
   ],
   "note": "REFUTED for trx files with equal base names and for a file listed twice. Proved for distinct base names in a fresh directory."
  },
  {
   "property": "C78",
   "status": "partial",
   "theorems": [
    "C78_refuted",
    "C78_refuted_always",
    "C98_nothing"
   ],
   "note": "REFUTED: a client that outlives its runtime sends to the done channel later and the next group starts; unless finch is stopped every exec group is always started. Proved instead: a client started after the runtime elapsed connects to nothing, executes nothing and reports no error (C98_nothing)."
  },
  {
   "property": "C79",
   "status": "partial",
   "theorems": [
    "C79_distinct_partial",
    "C79_count_partial",
    "C79_refuted"
   ],
   "note": "REFUTED: negative min or huge ranges give the same value for different draws, and p=29 of 100 gives 28 values. Proved: distinct values for 0 <= min, max <= 2^42; number of values within one of p percent."
  },
  {
   "property": "C80",
   "status": "partial",
   "theorems": [
    "C80_csv_partial",
    "C80_stdout_partial",
    "C80_refuted"
   ],
   "note": "REFUTED: compute names are not quoted: a comma adds a CSV column, a percent sign on stdout is taken for a verb. Proved for all other names, all statistics, numbers of instances and percentiles options."
  },
  {
   "property": "C81",
   "status": "partial",
   "theorems": [
    "C81_exactly",
    "C81_accepted",
    "C81_accepts_partial",
    "C81_refuses",
    "C81_refuted"
   ],
   "note": "REFUTED: the documented P999 (also the documented default) is refused as 999 is above 100. Proved: exactly the lists of values between 0 and 100 (and NaN) are accepted (C81_exactly), named as written. ParseFloat is modelled for digits with an optional point and NaN."
  },
  {
   "property": "C82",
   "status": "partial",
   "theorems": [
    "C82_combined_partial",
    "C82_neither_partial",
    "C82_refuted"
   ],
   "note": "REFUTED: with no report configured, validation sets each-instance, which switches combined off. Proved for an explicit combined option and for neither option given."
  },
  {
   "property": "C83",
   "status": "proved",
   "theorems": [
    "C83_effects",
    "C83_unambiguous",
    "C83_accepts",
    "C83_refused"
   ],
   "note": "Modifiers are words separated by white space; durations and byte sizes are parsed by oracles."
  },
  {
   "property": "C84",
   "status": "proved",
   "theorems": [
    "C84_order",
    "C84_next",
    "C84_prepare",
    "C84_run",
    "C84_run_local",
    "C84_end",
    "C84_test",
    "C84_return"
   ],
   "note": "Every schedule of the machine in ServeModel. That the local instance has ended when the stage ends needs that no remote is counted twice (C73) if there are remotes."
  },
  {
   "property": "C85",
   "status": "partial",
   "theorems": [
    "C85_not_run_partial",
    "C85_refuted",
    "C85_refuted_panic",
    "C85_refuted_hang"
   ],
   "note": "REFUTED: Stage.Disable is only read by Validate, so a disabled stage with compute.instances set is run like any other; without it Server.run hangs (capacity 0), without trx it panics. Proved: without compute.instances it is not run, but neither is any later stage."
  },
  {
   "property": "C86",
   "status": "partial",
   "theorems": [
    "C86_ends_partial",
    "C86_refuted",
    "C86_refuted_remotes"
   ],
   "note": "REFUTED: instances 0 is accepted and hangs for ever; two instances without --server wait until CTRL-C. Proved for stages of the local instance alone: at most 8n+1 steps, never stuck, every stage run."
  },
  {
   "property": "C87",
   "status": "proved",
   "theorems": [
    "C87_order",
    "C87_run",
    "C87_boot",
    "C87_ids",
    "C87_done",
    "C87_return",
    "C87_stop",
    "C87_test"
   ],
   "note": "Client.run with arbitrary answers, outcomes and schedule."
  },
  {
   "property": "C88",
   "status": "partial",
   "theorems": [
    "C88_told_partial",
    "C88_refuted"
   ],
   "note": "REFUTED: a remote that cannot fetch the trx files or make its collector returns without POST /boot. Proved: in all other cases POST /boot is sent."
  },
  {
   "property": "C89",
   "status": "partial",
   "theorems": [
    "C89_reporters",
    "C89_run",
    "C89_refuted"
   ],
   "note": "REFUTED for stats.disable: the remote has reporters all the same. Proved: which reporters a remote has."
  },
  {
   "property": "C90",
   "status": "proved",
   "theorems": [
    "C90_request",
    "C90_server",
    "C90_file",
    "C90_bytes"
   ],
   "note": "net/url modelled from its documentation."
  },
  {
   "property": "C91",
   "status": "partial",
   "theorems": [
    "C91_address_partial",
    "C91_refuted"
   ],
   "note": "REFUTED: a trailing slash becomes part of the path. Proved: host with or without port and http://."
  },
  {
   "property": "C92",
   "status": "partial",
   "theorems": [
    "C92_run_ok",
    "C92_prepared_partial",
    "C92_refuted"
   ],
   "note": "REFUTED: an inserted ID saved in a globally scoped key (or @PREV) is accepted, and Clients dereferences a nil generator. Proved: in every other accepted run all clients of all stages are made, and the stages meet the requirements of C01-C05."
  },
  {
   "property": "C93",
   "status": "partial",
   "theorems": [
    "C93_generator_partial",
    "C93_refuted",
    "C93_refuted_stages",
    "C93_scope"
   ],
   "note": "REFUTED: keys are shared by all trx of a stage (and stage scoped keys by later stages), so the first configuration wins. Proved: if the trx that configure the key agree and it does not come from an earlier stage, every use has the configured generator, params and scope."
  },
  {
   "property": "C94",
   "status": "partial",
   "theorems": [
    "C94_queries_partial",
    "C94_default_partial",
    "C94_refuted"
   ],
   "note": "REFUTED for two trx with the same name (the later replaces the earlier). Proved for different names, for every configuration, stage, exec group, client group and client, and for a stage without a workload."
  },
  {
   "property": "C95",
   "status": "partial",
   "theorems": [
    "C95_driver_partial",
    "C95_refuted",
    "C95_refuted_file"
   ],
   "note": "REFUTED: a user name with a colon is split (C95_refuted) and the newline at the end of a password file is kept (C95_refuted_file). Proved: without colon in the user name, @ in the address, / and ? in the database, the driver gets what is configured, with any password."
  },
  {
   "property": "C96",
   "status": "proved",
   "theorems": [
    "C96_settings",
    "C96_mycnf",
    "C96_dsn"
   ],
   "note": "Non-interference for passwords from settings and password files, my.cnf and explicit DSNs. Debug dumps of the configuration are outside the claim."
  },
  {
   "property": "C97",
   "status": "partial",
   "theorems": [
    "C97_accepted_partial",
    "C97_settings_partial",
    "C97_refuted",
    "C97_refuted_slash"
   ],
   "note": "REFUTED: every DSN the driver does not accept panics (nil dereference in RedactedDSN). Proved: accepted DSNs never panic, and neither do settings without separators in address and database."
  },
  {
   "property": "C98",
   "status": "partial",
   "theorems": [
    "C98_stops_partial",
    "C98_nothing",
    "C98_refuted"
   ],
   "note": "REFUTED: a client with only idle times never looks at its context and, without an iteration limit, never ends. Proved for every client with at least one query: it ends within 2n+1 steps, at most one statement is tried and none succeeds, from every reachable state. Hypothesis on the environment (after_done): a query with a done context fails."
  },
  {
   "property": "C99",
   "status": "partial",
   "theorems": [
    "C99_executed",
    "C99_generated_partial",
    "C99_same_partial",
    "C99_statement_partial",
    "C99_new_partial",
    "C99_refuted_client"
   ],
   "note": "REFUTED for client scope on one connection: a failed statement that is recovered from counts as a new connection (C99_refuted_client). Proved for statement, trx, iter and connection instances; hypotheses: every trx begins with a query (not an idle time), generators used by this client only (scopes up to client; C01 says so), and the key is not a saved column (C100)."
  }
 ]
}