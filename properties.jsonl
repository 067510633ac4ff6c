{"id": "C01", "title": "A data key is one generator per scope instance", "statement": "When a stage is allocated, two places in the workload where the same data key @d is used are served by the same data generator instance if and only if both places lie in the same instance of the configured scope (same statement, same trx, same client for iter/client, same client group, same exec group, same stage); with value scope every use has its own instance; @PREV never gets one.", "quantifier": "every workload shape (any number of stages, exec groups, client groups, clients, trx, statements), every key, every scope except global", "why_tests_cant": "The sharing decision compares counters at nine nested levels that reset and grow in different orders; a test checks a few hand-written workloads, not every nesting and every reset pattern.", "anchors": ["finch.go: RunLevel.GreaterThan, RunLevel.array", "data/scope.go: Scope.Copy", "workload/workload.go: Allocator.Clients"]}
{"id": "C02", "title": "Global scope: one generator for the whole run", "statement": "A data key with global scope is served by exactly one data generator, the same one in every stage of the run, and each use of the key in a statement gets that generator.", "quantifier": "every run (list of stages), every use of a globally scoped key", "why_tests_cant": "Requires reasoning about the whole history of stages and the reset between them; unit tests exercise one Scope.Copy call at a time.", "anchors": ["finch.go: RunLevel.GreaterThan", "data/scope.go: Scope.Copy, Scope.Reset", "workload/workload.go: Allocator.Clients"]}
{"id": "C03", "title": "Single-client scopes: called once per scope iteration", "statement": "For a key with statement, trx, iter or client scope, an implicit use (@d) calls the generator exactly when it is the first use since the scope's counter advanced and otherwise returns the value returned last; an explicit use (@d()) always calls it, and later implicit uses in the same scope iteration return that newest value.", "quantifier": "every sequence of implicit and explicit uses with non-decreasing run counters, every generator", "why_tests_cant": "The claim is about unbounded histories of counters and mixed implicit/explicit uses.", "anchors": ["data/scope.go: NewScopedGenerator, ScopedGenerator.Values, ScopedGenerator.Call"]}
{"id": "C04", "title": "Multi-client scopes: called when each client starts a new iteration", "statement": "For a key with client-group, exec-group or workload scope the shared generator is called exactly once for every (client, iteration) pair among the clients sharing it (plus once per explicit call), and within an iteration a client keeps seeing the value generated for it, no matter what other clients do.", "quantifier": "every interleaving of uses by every set of clients in every set of client groups sharing the key", "why_tests_cant": "Needs all interleavings of all clients, and all assignments of client numbers to groups.", "anchors": ["data/scope.go: ScopedGenerator.Values, ScopedGenerator.Call", "workload/workload.go: Allocator.Clients"]}
{"id": "C05", "title": "One-time scopes: generated once", "statement": "A key with stage or global scope is generated once, at its first implicit use, and every later implicit use returns that same value; an explicit call generates a new value.", "quantifier": "every sequence of implicit and explicit uses", "why_tests_cant": "Unbounded use histories; no test drives a one-time generator through a workload.", "anchors": ["data/scope.go: ScopedGenerator.Values, NewScopedGenerator"]}
{"id": "C06", "title": "CSV rows: each row generates every key once", "statement": "In a CSV substitution /*!csv N (COLS)*/ every row-scoped data key is turned into an explicit call at its first occurrence in the row, and nothing else in the row text changes, so each row has fresh values and repeated keys in a row share the value.", "quantifier": "every row template, every set of row scoped keys, every iteration order of the key set", "why_tests_cant": "Depends on all overlaps between key names and on the unspecified map iteration order, which a test run samples once.", "anchors": ["trx/trx.go: RowScope, DataKeyPattern, File.statements", "docs/content/data/scope.md: Row"]}
{"id": "C07", "title": "int (uniform) stays in [min,max] and can produce every value", "statement": "With uniform distribution and valid bounds the int generator returns only integers in [min,max], and every integer of [min,max] is returned for some random draw.", "quantifier": "all int64 min <= max, every random draw", "why_tests_cant": "Random draws and all bounds cannot be enumerated; an off-by-one at max is invisible to sampling.", "anchors": ["data/integer.go: NewInt, Int.Values"]}
{"id": "C08", "title": "int (normal) stays in [min,max]", "statement": "With normal distribution the int generator never returns a value outside [min,max].", "quantifier": "all bounds, default or configured mean, every pair of random draws", "why_tests_cant": "The fallback path needs two rare draws; sampling does not reach it reliably.", "anchors": ["data/integer.go: NewInt, Int.Values"]}
{"id": "C09", "title": "int-range pairs are ordered, sized and in bounds", "statement": "Every pair {n, m} returned by int-range satisfies min <= n <= m <= max, and m = n+size-1 unless that exceeds max, in which case m = max; parameters for which this is impossible (size < 1) are rejected when the generator is made.", "quantifier": "all accepted int64 parameters, every random draw", "why_tests_cant": "All parameter triples and draws, including the int64 extremes.", "anchors": ["data/integer.go: NewIntRange, IntRange.Values", "docs/content/data/generators.md: int-range"]}
{"id": "C10", "title": "int-range-seq visits the range exactly once per pass", "statement": "Successive pairs returned by int-range-seq, in whatever order concurrent clients take them, are consecutive chunks that partition [begin,end]: each integer is covered exactly once per pass, every chunk but the last of a pass has length size, and after end the sequence restarts at begin; parameters for which this is impossible (size < 1) are rejected.", "quantifier": "all accepted parameters, every number of calls and passes", "why_tests_cant": "Unbounded sequences of calls and all parameter values.", "anchors": ["data/integer.go: NewIntRangeSeq, IntRangeSeq.Values"]}
{"id": "C11", "title": "auto-inc hands out start+step, start+2*step, ... without duplicates under concurrency", "statement": "The k-th call of an auto-inc generator returns (start + k*step) mod 2^64 whichever clients call it in whatever interleaving, no two of the first 2^64/gcd(step,2^64) calls return the same number, and while the sum does not overflow the values strictly increase when step >= 1.", "quantifier": "all uint64 start and step, every number of calls, every interleaving of clients", "why_tests_cant": "All interleavings and wrap-around near 2^64.", "anchors": ["data/integer.go: NewAutoInc, AutoInc.Values, AutoInc.Copy"]}
{"id": "C12", "title": "str-fill-az yields exactly len letters", "statement": "str-fill-az returns a string of exactly len characters, all in a-z or A-Z, whatever the random source yields, and each 6-bit index below 52 selects its own letter (so no letter is favoured).", "quantifier": "every len >= 1, every sequence of 63-bit random numbers on which the loop ends", "why_tests_cant": "The rejection loop and bit-caching depend on the whole random stream.", "anchors": ["data/string.go: StrFillAz.Values"]}
{"id": "C13", "title": "int-gaps returns values in [min,max]", "statement": "An accepted int-gaps generator returns an integer in [min,max] for every random draw and never crashes.", "quantifier": "all accepted min, max, p and every draw", "why_tests_cant": "Floating point rounding over all parameter combinations; degenerate percentages are rare in tests.", "anchors": ["data/integer.go: NewIntGaps, IntGaps.Values"]}
{"id": "C14", "title": "client-id identifies the caller", "statement": "client-id returns as many values as it has configured ids, in the configured order, each equal to the calling client's own current counter at that level, also when the generator is shared by several clients.", "quantifier": "every configured id list, every interleaving of callers", "why_tests_cant": "All interleavings of sharing clients and all id lists.", "anchors": ["data/id.go: NewClientId, ClientId.Values, ClientId.Format"]}
{"id": "C15", "title": "column keys return the last saved value", "statement": "A column data key returns the value saved from the last row scanned (or the last insert id), unchanged by the driver reusing its buffers and until the next scan; it returns no value before the first scan.", "quantifier": "every sequence of scans, buffer reuses and reads", "why_tests_cant": "Aliasing between the saved value and the driver buffer shows only under particular reuse histories.", "anchors": ["data/column.go: Column.Scan, Column.Values"]}
{"id": "C16", "title": "-- rows: N bounds the rows written", "statement": "With `-- rows: N` (N >= 1) on a statement run by k clients, each execution affecting at most r rows, the statement is executed only while fewer than N rows are counted, so the total never exceeds N-1+k*r (N-1+r with one client), and once N rows are counted every client stops at its next attempt.", "quantifier": "every N, r, k and every interleaving of the clients' check, execute and count steps", "why_tests_cant": "Overshoot depends on the interleaving of check and count across clients.", "anchors": ["limit/data.go: Rows.More, Rows.Affected, NewRows", "client/client.go: Client.Run"]}
{"id": "C17", "title": "-- rows: 0 is no limit", "statement": "A rows limit of zero means no row limit: the statement can be executed any number of times (as with every other limit, zero or unset is unlimited).", "quantifier": "every trx file with a zero row limit, every execution", "why_tests_cant": "Depends on nil-interface semantics on the execution path; no test has a zero limit.", "anchors": ["limit/data.go: NewRows, Or", "trx/trx.go: File.statements", "client/client.go: Client.Run"]}
{"id": "C18", "title": "-- table-size stops soon after the size is reached", "statement": "With `-- table-size`, once the table has reached the configured size at most m-1 more executions are allowed (m = 3 up to 1 GiB, 1000 from 100 GiB, else 5) before a client is stopped, and no client is stopped while the table is below the size unless a size query fails.", "quantifier": "every size history (any growth pattern), every interleaving of clients sharing the limit, every query failure pattern", "why_tests_cant": "Check phase and growth pattern combine in unboundedly many ways.", "anchors": ["limit/data.go: NewSize, Size.More"]}
{"id": "C19", "title": "-- database-size loads until the database reaches the size", "statement": "With `-- database-size DB SIZE` clients keep inserting until the total size of database DB is at least SIZE (provided the database answers the size queries).", "quantifier": "every database content and every number of executions", "why_tests_cant": "Needs a live MySQL and the semantics of closed result sets; not covered by unit tests.", "anchors": ["limit/data.go: Size.More"]}
{"id": "C20", "title": "Several data limits combine: the first reached stops", "statement": "When a statement has several data limits, execution is allowed only while every one of them allows it, and every limit counts all rows affected.", "quantifier": "every list of limits, every history", "why_tests_cant": "All combinations and histories.", "anchors": ["limit/data.go: Or, or.More, or.Affected"]}
{"id": "C21", "title": "QPS/TPS limiters never release more permits than the rate allows", "statement": "All clients drawing from one QPS (or TPS) limiter together receive, in any time window, at most as many permits as the limiter's rate yields in that window plus one (the buffered one); unused permits do not accumulate.", "quantifier": "every interleaving of the limiter and any number of clients, every window", "why_tests_cant": "Every schedule of the producer goroutine and the consumers.", "anchors": ["limit/rate.go: NewRate, rate.run, rate.Allow", "client/client.go: Client.Run"]}
{"id": "C22", "title": "Combined rate limits respect every component", "statement": "A limiter combined from stage, exec-group, client-group and client limits releases at most as many permits as each of its components released to it; a component of rate 0 does not limit; when all are 0 there is no limiter.", "quantifier": "every tree of combined limiters, every schedule", "why_tests_cant": "Nondeterministic select in a combinator goroutine; all schedules.", "anchors": ["limit/rate.go: And, and.run", "workload/workload.go: Allocator.Clients"]}
{"id": "C23", "title": "Exec groups are the maximal runs of equally named client groups, in order", "statement": "The exec groups of a stage partition its client groups: concatenated they list every client group exactly once in workload order, no exec group is empty, the client groups of one exec group all have the same (non-empty) name, and neighbouring exec groups have different names.", "quantifier": "every workload (any number of client groups, any names, DDL or not)", "why_tests_cant": "All name patterns and lengths.", "anchors": ["workload/workload.go: Allocator.Groups", "docs/content/benchmark/workload.md: Principles"]}
{"id": "C24", "title": "Automatic names and iter isolate DDL", "statement": "A client group without a name gets a name; if one of its trx has DDL it forms an exec group of its own with a name not used by any other unnamed group, two consecutive unnamed client groups without DDL share an exec group, and any client group with DDL and no iter limit runs one iteration.", "quantifier": "every workload and every DDL marking of trx", "why_tests_cant": "All workloads; collisions between automatic and user names.", "anchors": ["workload/workload.go: Allocator.Groups, hasDDL"]}
{"id": "C25", "title": "The default workload runs every trx once per position, in order, DDL alone", "statement": "When no workload is configured the automatically built client groups, read in order, list all trx in stage order, each trx with DDL alone in its group with one client and one iteration, consecutive trx without DDL together in one group with one client.", "quantifier": "every list of trx and DDL marking", "why_tests_cant": "All trx lists.", "anchors": ["workload/workload.go: Allocator.AutoAssign"]}
{"id": "C26", "title": "A client executes exactly its assigned trx, in order", "statement": "Every client of a client group has as its statement list the concatenation of the statements of the group's trx in the listed order (repeats included), with the begin mark exactly on the first and the end mark exactly on the last statement of each trx, and one statistics slot per listed trx.", "quantifier": "every workload and trx set (each trx having at least one statement)", "why_tests_cant": "All shapes; index arithmetic across trx.", "anchors": ["workload/workload.go: Allocator.Clients"]}
{"id": "C27", "title": "Iteration counters are shared exactly by the clients they limit", "statement": "The iter-clients counter is shared by all clients of one client group and by no other client; the iter-exec-group counter is shared by all clients of one exec group whose client group sets it and by no client of another exec group; each client's run level (stage, exec group, client group, client) is unique.", "quantifier": "every workload", "why_tests_cant": "All workload shapes; pointer sharing is not visible to value comparison tests.", "anchors": ["workload/workload.go: Allocator.Clients"]}
{"id": "C28", "title": "Iteration limits hold under every schedule", "statement": "With iter = N a client executes at most N iterations; with iter-clients = N the clients of the group together execute at most N iterations; with iter-exec-group = N the clients of the exec group together at most N; and when only one of the shared limits is set and nothing else stops the clients, exactly N iterations are executed in total.", "quantifier": "every number of clients, every combination of limits, every interleaving of the counter updates", "why_tests_cant": "All interleavings of atomic increments between any number of clients; counter wrap-around.", "anchors": ["client/client.go: Client.Run"]}
{"id": "C29", "title": "Every executed query is recorded once in its class and trx", "statement": "Each query execution (successful or failing) is recorded exactly once in the statistics of the trx it belongs to: SELECT as read, INSERT/UPDATE/DELETE/REPLACE as write, COMMIT as commit, anything else in the total only; nothing is recorded for queries not executed; and each failing execution (other than by cancellation) counts one error under its MySQL error code.", "quantifier": "every statement list, every sequence of query outcomes, every iteration count", "why_tests_cant": "All outcome histories of the loop including error recovery.", "anchors": ["client/client.go: Client.Run", "stats/stats.go: Trx.Record, Trx.Error"]}
{"id": "C30", "title": "Statistics and trx scope follow trx boundaries for every statement list", "statement": "Whenever a statement of the n-th assigned trx is executed, the client attributes it to slot n (never outside the slots) and the trx counter has been advanced once for that execution of the trx, whichever statements of the trx carry modifiers such as idle.", "quantifier": "every statement list with any modifiers, every outcome history", "why_tests_cant": "Depends on every placement of modifiers and every error position.", "anchors": ["client/client.go: Client.Run", "workload/workload.go: Allocator.Clients"]}
{"id": "C31", "title": "Documented errors are handled without reconnecting; others reconnect; then a new iteration starts", "statement": "After a query error with code 1205, 1213, 1290, 1317, 1836 or 1062 the client keeps its connection and starts a new iteration from its first trx; after any other error it reconnects and starts a new iteration, except that an unhandled error on DDL stops the client.", "quantifier": "every MySQL error code, every statement, every connection outcome", "why_tests_cant": "All codes and positions; the flag constants make one documented class unreachable.", "anchors": ["client/client.go: Client.Connect, Client.Run", "finch.go: MySQLErrorHandling, Eabort", "docs/content/benchmark/error-handling.md"]}
{"id": "C32", "title": "Lock wait timeout and read-only errors roll back the open transaction", "statement": "If a statement of a trx fails with lock wait timeout or a read-only error (1205, 1290, 1836) the client executes ROLLBACK before starting the next iteration, so no locks or changes of the failed trx leak into it.", "quantifier": "every position of the failing statement in every trx", "why_tests_cant": "Every failing position; the in-trx flag is reset on the last statement.", "anchors": ["client/client.go: Client.Run, Client.Connect"]}
{"id": "C33", "title": "Prepared statements are used only on the connection they were prepared on", "statement": "Whenever a client executes a prepared statement, that statement was prepared on the client's current connection (so after a reconnect they are prepared again).", "quantifier": "every history of errors and reconnects, every placement of prepare modifiers and copies", "why_tests_cant": "Requires histories with reconnects; unit tests do not kill connections.", "anchors": ["client/client.go: Client.Connect, Client.Run"]}
{"id": "C34", "title": "Every client finishes exactly once and cancellation is not an error", "statement": "Every started client reports completion to the stage exactly once, however it stops (limit, error, cancellation, panic), and it reports an error exactly when it stopped for a reason other than a limit or cancellation/expired runtime.", "quantifier": "every execution of a client", "why_tests_cant": "All exit paths including panics and cancellation at any point.", "anchors": ["client/client.go: Client.Run"]}
{"id": "C35", "title": "Values are placed under their own data key", "statement": "For every executed query the i-th placeholder receives the value its own data key produced for this execution (for @PREV the next value of the preceding key), provided each key produces as many values as its placeholders consume; no placeholder receives a value of another key or of an earlier execution.", "quantifier": "every input list, every generator arity, every iteration", "why_tests_cant": "All input lists and arities and previous contents of the reused buffer.", "anchors": ["client/client.go: Client.Run", "data/generator.go: Generator.Format"]}
{"id": "C36", "title": "Recorded statistics are exact", "statement": "After any sequence of recorded query times, count, minimum and maximum per class are exact (class total covering all classes), the bucket counts of a class sum to its count, and recording never crashes whatever the measured time.", "quantifier": "every sequence of (class, time) pairs", "why_tests_cant": "Unbounded event sequences and extreme times.", "anchors": ["stats/stats.go: Stats.Record, Stats.Reset"]}
{"id": "C37", "title": "Combining statistics equals recording everything together", "statement": "Combining the statistics of several clients, trx or instances gives the same counts, buckets, minimum, maximum and error counts as recording all their events in one place, in whatever order they are combined.", "quantifier": "every split of every event sequence, including parts without any event", "why_tests_cant": "All splits; empty parts are the corner case.", "anchors": ["stats/stats.go: Stats.Combine, Stats.Copy", "stats/collector.go: Instance.Combine, Collector.Collect"]}
{"id": "C38", "title": "Reported percentiles are the right histogram buckets", "statement": "For every requested list of percentiles the reported value for P is the upper bound of the first bucket at which the cumulative fraction of events reaches P, independently of which other percentiles are requested; with no events all are zero.", "quantifier": "every histogram, every sorted list of percentiles", "why_tests_cant": "All histograms and all percentile lists.", "anchors": ["stats/stats.go: Stats.Percentiles"]}
{"id": "C39", "title": "No recorded query is lost or counted twice across intervals", "statement": "Each query recorded by a client is included in exactly one reported interval (the one collected at or after it was recorded), for every interleaving of recording and collecting.", "quantifier": "every interleaving of a client's recording steps with the collector's swap, read and reset steps", "why_tests_cant": "Race between lock-free recording and the buffer swap; needs all interleavings.", "anchors": ["stats/stats.go: Trx.Record, Trx.Swap", "stats/collector.go: Collector.Collect"]}
{"id": "C40", "title": "Interval reports contain only that interval's events and errors", "statement": "Each reported interval (per instance and combined) shows only the counts, times and error counts of that interval; nothing is carried over from earlier intervals.", "quantifier": "every sequence of intervals and error codes", "why_tests_cant": "Reused accumulators across an unbounded sequence of intervals.", "anchors": ["stats/stats.go: Stats.Reset, Stats.Copy", "stats/collector.go: Instance.Combine", "stats/stdout.go: Stdout.Report"]}
{"id": "C41", "title": "Each interval is reported once with at most one set of statistics per instance", "statement": "With n compute instances each reported interval contains at most one set of statistics from each instance, all belonging to that interval; reported interval numbers strictly increase; statistics of past intervals are discarded; and if every instance delivers each interval before any instance delivers the next, every interval is reported complete.", "quantifier": "every number of instances, every order of local collection and remote arrivals", "why_tests_cant": "All arrival orders of n instances over unboundedly many intervals.", "anchors": ["stats/collector.go: Collector.Collect, Collector.Recv, Collector.Report"]}
{"id": "C42", "title": "Stopping statistics reports the final interval once, without crashing", "statement": "When a stage ends, the final interval is reported exactly once: complete when all instances delivered in time, otherwise incomplete after the timeout with whatever arrived; if nothing arrived nothing crashes.", "quantifier": "every arrival order and every subset of missing instances", "why_tests_cant": "Timing of the last deliveries versus the stop loop.", "anchors": ["stats/collector.go: Collector.Stop, Collector.Report", "stats/csv.go: CSV.Report", "stats/remote.go: Server.Report"]}
{"id": "C43", "title": "Stage files override _all.yaml, which fills what the stage leaves unset", "statement": "For every setting of the mysql, params and stats sections, the effective value is the stage file's if the stage file sets it, else _all.yaml's; nothing else changes.", "quantifier": "every pair of base and stage configuration", "why_tests_cant": "All combinations of set and unset fields.", "anchors": ["config/file.go: Stage.With, MySQL.With, TLS.With", "docs/content/syntax/all-file.md"]}
{"id": "C44", "title": "--param overrides all files", "statement": "The effective value of a parameter given with --param on the command line is that value, whatever _all.yaml and the stage file say and whether or not they define parameters.", "quantifier": "every list of --param options, every base and stage parameter map", "why_tests_cant": "All presence combinations.", "anchors": ["config/config.go: Load", "config/file.go: Stage.With", "docs/content/syntax/params.md: Inheritance"]}
{"id": "C45", "title": "Accepted workloads have contiguous exec group names and only defined trx", "statement": "If a stage configuration is accepted then client groups with the same explicit name are contiguous in the workload, every assigned trx name is defined by the stage, and either all or none of the client groups list trx.", "quantifier": "every workload and trx list", "why_tests_cant": "All name patterns.", "anchors": ["config/file.go: Stage.Validate"]}
{"id": "C46", "title": "Every listed trx file is what its name runs", "statement": "For every trx file listed in a stage, the statements executed under its name are the statements of that file.", "quantifier": "every list of trx files and names", "why_tests_cant": "All name collisions between files.", "anchors": ["trx/trx.go: Load, File.Load", "config/file.go: Stage.Validate"]}
{"id": "C47", "title": "MySQL connection precedence", "statement": "An explicit DSN is used as is; otherwise each connection setting comes from the stage/_all.yaml mysql section if set there, else from the my.cnf file (including its TLS settings), else the documented default (finch/amazing at 127.0.0.1 over TCP).", "quantifier": "every combination of set and unset settings", "why_tests_cant": "All combinations.", "anchors": ["dbconn/factory.go: setDSN", "dbconn/mycnf.go: ParseMyCnf", "config/file.go: MySQL.With"]}
{"id": "C48", "title": "$params interpolation replaces each reference by its own value", "statement": "Interpolating a string replaces every $params.NAME and ${params.NAME} reference by the value of exactly that parameter, leaves all other text unchanged, and fails if a referenced parameter is undefined.", "quantifier": "every string and parameter map", "why_tests_cant": "All overlaps of names and texts.", "anchors": ["config/config.go: Vars"]}
{"id": "C49", "title": "A stage accepts at most the configured number of remotes and each follows boot, run, done", "statement": "At no time are more remote instances assigned to a stage than it needs; a remote gets the run signal only after it reported a successful boot for this stage; requests for another stage, from unknown instances or out of order are refused and change nothing.", "quantifier": "every sequence of requests from any instances (including repeats, concurrent and out of order requests) and stage changes", "why_tests_cant": "All request interleavings of any number of remotes.", "anchors": ["compute/api.go: API.boot, API.run, API.file, API.client, API.Stage"]}
{"id": "C50", "title": "A remote that failed to boot can boot again", "statement": "After a remote reports a boot error it can request /boot again and, on success, count towards the required instances.", "quantifier": "every history of boot failures", "why_tests_cant": "Histories across several requests and states.", "anchors": ["compute/api.go: API.boot, API.client", "compute/client.go: Client.run"]}
{"id": "C51", "title": "No instance runs before all required instances booted", "statement": "The local instance and the remotes start running a stage only after the configured number of instances have booted successfully, and with --test none runs at all.", "quantifier": "every order of boots, failures and disconnections, every instance count", "why_tests_cant": "All orders.", "anchors": ["compute/server.go: Server.run", "compute/api.go: API.run"]}
{"id": "C52", "title": "Retried protocol requests carry the same content", "statement": "Every attempt of a client-server request carries the complete request body, at most the configured number of attempts is made, and the call succeeds exactly if some attempt was answered with success.", "quantifier": "every body, every number of tries and every sequence of attempt outcomes", "why_tests_cant": "Needs failures of particular attempts.", "anchors": ["proto/proto.go: request"]}
{"id": "C53", "title": "Ending a stage does not hang on lost remotes", "statement": "When the server ends a stage it waits a bounded time for remotes to disconnect, then forgets them and continues.", "quantifier": "every set of remotes that never answer, every schedule", "why_tests_cant": "Liveness under remote failure.", "anchors": ["compute/api.go: API.Stage"]}
{"id": "C54", "title": "Trx files split into statements at blank lines", "statement": "The statements of a trx file are exactly its maximal runs of non-blank lines (joined by spaces, modifier lines excluded), in order, each with the modifier lines that precede it, up to an optional `-- EOF` line.", "quantifier": "every trx file text", "why_tests_cant": "All line layouts.", "anchors": ["trx/trx.go: File.Load, File.line"]}
{"id": "C55", "title": "-- copies: N yields N statements as if written N times", "statement": "A statement with `-- copies: N` contributes exactly N statements (none for 0, an error below 0) identical to writing it N times, with /*!copy-number*/ replaced by 1..N, and with prepare a single prepared statement serves all N when the copies are identical.", "quantifier": "every N and statement", "why_tests_cant": "All N, recursion with modifiers in any order.", "anchors": ["trx/trx.go: File.statements", "client/client.go: Client.Connect", "docs/content/syntax/trx-file.md: copies"]}
{"id": "C56", "title": "Each data key in a query is replaced by its own placeholder", "statement": "In the query sent to MySQL every data key occurrence is replaced by that key's own placeholder (its format, or ? when prepared) and all other text is unchanged, independently of map iteration order.", "quantifier": "every query text, every set of data keys", "why_tests_cant": "Overlapping key names and unspecified map order.", "anchors": ["trx/trx.go: File.statements", "docs/content/data/keys.md"]}
{"id": "C57", "title": "Exec groups run one at a time, in order", "statement": "Clients of an exec group start only after all clients of all previous exec groups have finished, unless the stage's runtime elapsed or finch was stopped, and after finch is stopped no further exec group starts.", "quantifier": "every workload, every completion order, every moment of cancellation", "why_tests_cant": "All completion orders and cancellation moments.", "anchors": ["stage/stage.go: Stage.Run"]}
{"id": "C58", "title": "Addresses always get exactly one port", "statement": "Adding a default port to an address leaves it unchanged if it already ends in :digits and otherwise appends :port, so the result always ends in :digits and doing it again changes nothing.", "quantifier": "every string and every non-empty digit string port", "why_tests_cant": "All strings.", "anchors": ["finch.go: WithPort"]}
{"id": "C59", "title": "Every rate limit limits exactly the clients it is set for, through one shared limiter", "statement": "Each client waits on exactly the qps (tps) limits that apply to it: the stage's, its exec group's, its client group's and its own, each if set; each limit is one limiter shared by precisely the clients it applies to (all clients of the stage, of the exec group, of the client group, or the one client), and qps and tps limiters are never shared with each other.", "quantifier": "every workload, every combination of set and unset limits", "why_tests_cant": "Limiter identity and sharing across all workload shapes; a copy instead of a shared limiter multiplies the rate without any single client noticing.", "anchors": ["workload/workload.go: Allocator.Clients", "limit/rate.go: And, NewRate", "docs/content/data/limits.md"]}
{"id": "C60", "title": "Run counters given to data generators count the client's own work", "statement": "Whenever a query is executed, the counters its generators receive are: the number of queries this client has executed including this one, the number of trx executions it has started, the number of iterations it has started, the number of connections it has made, and the numbers of the client, client group, exec group and stage it belongs to.", "quantifier": "every statement list, every history of query errors and reconnects, every iteration", "why_tests_cant": "Counters depend on the whole history of the client, including every error and reconnect.", "anchors": ["client/client.go: Client.Run", "finch.go: RunCount"]}
{"id": "C61", "title": "Every query is preceded by exactly its permits", "statement": "If a QPS limit applies to a client, each query it executes is preceded by exactly one QPS permit taken for it; if a TPS limit applies, each BEGIN is preceded by exactly one TPS permit; no permit is taken for anything else, except for at most one statement that a data limit then stops.", "quantifier": "every statement list, every error history", "why_tests_cant": "Order and number of permits over all executions.", "anchors": ["client/client.go: Client.Run"]}
{"id": "C62", "title": "Affected rows and saved values come from successful executions only, once each", "statement": "After each successful execution of a write with a data limit its affected rows are counted against the limit exactly once, and after each successful execution of a statement saving an insert ID or columns these are saved exactly once; neither happens after a failed execution.", "quantifier": "every statement list, every error history", "why_tests_cant": "All outcome histories of the loop.", "anchors": ["client/client.go: Client.Run"]}
{"id": "C63", "title": "A remote instance's statistics reach the server unchanged", "statement": "The statistics a remote compute instance collects in each interval are sent to the server exactly once, with the values of that interval, however long sending takes.", "quantifier": "every interleaving of collecting and sending, any number of intervals", "why_tests_cant": "Sending is asynchronous; needs all interleavings of the collector and the sender.", "anchors": ["stats/remote.go: Server.Report, Server.report", "stats/collector.go: Collector.Collect"]}
{"id": "C64", "title": "Every string-int setting accepts the same numbers", "statement": "A setting documented as string-int (clients, iter, qps, tps and their variants, instances, data params) accepts plain digits unchanged, human-readable numbers as the integer they mean, and references to params as the param's value.", "quantifier": "every setting, every value, every params map", "why_tests_cant": "All values and combinations of notations.", "anchors": ["config/config.go: Vars", "config/file.go: ClientGroup.Vars, ClientGroup.Validate", "docs/content/syntax/values.md"]}
{"id": "C65", "title": "Accepted configurations are well-formed", "statement": "If loading a stage succeeds then every trx has an existing file, every data key a generator and a valid scope that is the same wherever the key is configured, every count is an integer below 2^32, every duration is positive, TLS files exist and a certificate comes with its key; documented values are not refused.", "quantifier": "every set of stage files and environment", "why_tests_cant": "All inputs to the validator.", "anchors": ["config/file.go: Stage.Validate, Trx.Validate, Data.Validate, ClientGroup.Validate, TLS.Validate", "config/config.go: Load"]}
{"id": "C66", "title": "--dsn and --database override the files", "statement": "With --dsn every stage connects with that DSN, and with --database every stage and client group uses that database, whatever the files say.", "quantifier": "every set of stage files, every option value", "why_tests_cant": "All combinations of files and values.", "anchors": ["config/config.go: Load", "config/file.go: Stage.CommandLine", "docs/content/operate/command-line.md"]}
{"id": "C67", "title": "The effective configuration does not depend on Go's map iteration order", "statement": "Loading the same files twice gives the same configuration, whatever order Go visits the params in.", "quantifier": "every stage, every two visiting orders", "why_tests_cant": "Go randomises map order; a test sees one order per run.", "anchors": ["config/file.go: Stage.Vars"]}
{"id": "C68", "title": "Stage files do not influence each other", "statement": "The configuration of a stage depends on its own file, the _all.yaml of its directory, its position and the options only: the other stage files given with it make no difference.", "quantifier": "every two lists of stage files with the same file at the same position", "why_tests_cant": "All lists of files; the loader caches base files between stages.", "anchors": ["config/config.go: Load"]}
{"id": "C69", "title": "Every connection of a stage uses the stage's own data source", "statement": "All connections and tests of a stage are opened with the data source computed for that stage, although the connection package keeps it in a package variable.", "quantifier": "every sequence of SetFactory/SetConfig and Make calls", "why_tests_cant": "All call sequences over shared package state.", "anchors": ["dbconn/factory.go: SetConfig, Make, setDSN", "stage/stage.go: Stage.Prepare"]}
{"id": "C70", "title": "Modifier arguments are used as written", "statement": "The arguments of a statement modifier in a trx file (names of databases, tables and columns) are used as written, except for $params.", "quantifier": "every modifier line, every set of params", "why_tests_cant": "All texts: the number conversion of config values is applied to the whole modifier line.", "anchors": ["trx/trx.go: File.line, File.statements", "config/config.go: Vars", "docs/content/syntax/trx-file.md: Statement Modifiers"]}
{"id": "C71", "title": "Every input and output of an accepted trx file has a generator", "statement": "If a trx file is accepted, every data key of every statement has a data generator or is @PREV after another key, inputs and explicit-call flags have the same length, every saved column has a generator and is used by some statement of the file, and generators of earlier files are kept.", "quantifier": "every file text, every data configuration, every set of keys of earlier files", "why_tests_cant": "All combinations of saved columns, copies, CSV rows and shared keys; a missing generator only crashes at run time.", "anchors": ["trx/trx.go: File.Load, File.statements, File.column"]}
{"id": "C72", "title": "The kind of a statement is decided by its first word", "statement": "Whether a statement returns rows, begins or commits a transaction, writes or changes the schema is decided by its first word in any letter case, and is not changed by modifiers, copies or data keys; a trx with a schema change is marked so.", "quantifier": "every statement text and modifiers", "why_tests_cant": "All texts and spellings.", "anchors": ["trx/trx.go: File.statements, Meta.DDL"]}
{"id": "C73", "title": "A stage ends only when all its instances are done", "statement": "The server ends a stage normally only after the configured number of distinct instances booted, ran and reported that they are done.", "quantifier": "every sequence of requests from any instances, every order of completion", "why_tests_cant": "All orders of requests of any number of remotes, including repeated and overlapping ones.", "anchors": ["compute/server.go: Server.run", "compute/api.go: API.run"]}
{"id": "C74", "title": "With --test the remotes are released after boot", "statement": "With --test every remote that booted is told that the stage is over (its GET /run is answered) so that it can boot the next stage.", "quantifier": "every sequence of requests and stage changes of a server started with --test", "why_tests_cant": "Concerns all executions of the server and a flag that crosses several components.", "anchors": ["compute/api.go: API.Stage, API.run", "compute/server.go: Server.run", "config/file.go: Stage.Test"]}
{"id": "C75", "title": "A place in a stage goes to a remote that still waits for it", "statement": "If a remote gives up waiting for GET /boot (it times out after two seconds), the place it would have got goes to another waiting remote, so the stage still starts.", "quantifier": "every set of waiting remotes and every moment at which one gives up", "why_tests_cant": "Depends on the moment a connection is closed.", "anchors": ["compute/api.go: API.boot", "compute/client.go: Client.run"]}
{"id": "C76", "title": "A boot error reported by a remote is not taken for a successful boot", "statement": "If a remote fails to boot a stage and reports the error with POST /boot, the server gets the error text, so that it does not start the stage as if the remote had booted.", "quantifier": "every error text and every pattern of failed attempts to send it", "why_tests_cant": "Depends on which attempts of the retry loop fail and on the text of the error.", "anchors": ["proto/proto.go: request", "compute/client.go: Client.run", "compute/api.go: API.boot"]}
{"id": "C77", "title": "Remotes run the server's trx files", "statement": "After fetching the trx files of a stage, the files a remote loads have the content of the server's files, one for each trx of the stage, in the stage's order.", "quantifier": "every list of trx files of a stage and every content of them", "why_tests_cant": "Quantifies over all lists of file names, with repeated names and equal base names.", "anchors": ["compute/client.go: Client.getTrxFiles", "compute/api.go: API.file"]}
{"id": "C78", "title": "No exec group starts after the runtime of the stage elapsed", "statement": "Once the runtime of a stage elapsed, no further exec group of the stage starts.", "quantifier": "every list of exec groups and every interleaving of client ends, timer and stop", "why_tests_cant": "Depends on the interleaving of finishing clients with the timer.", "anchors": ["stage/stage.go: Stage.Run"]}
{"id": "C79", "title": "int-gaps reaches p percent of the integers", "statement": "An accepted int-gaps generator has exactly floor(p percent of the number of integers in [min,max]) different values, each of which is returned for exactly one of its random draws (uniform access).", "quantifier": "all accepted min, max, p with at least two values", "why_tests_cant": "Floating point rounding over all parameter combinations.", "anchors": ["data/integer.go: NewIntGaps, IntGaps.Values"]}
{"id": "C80", "title": "A report line has exactly the header's columns", "statement": "Every line of a CSV or stdout report has one value for each column of the header, in the header's order: interval, duration, runtime, clients; rate, least time, the percentiles asked for and greatest time for all queries, reads, writes and commits; errors; compute.", "quantifier": "every accepted percentiles option, every list of instances, all statistics, every compute name", "why_tests_cant": "Quantifies over all statistics, numbers of percentiles and names; the percentiles are put into the line by repeated textual replacement.", "anchors": ["stats/csv.go: NewCSV, CSV.Report", "stats/stdout.go: NewStdout, Stdout.print", "stats/reporter.go: Header, Fmt, intsToString, withPrefix"]}
{"id": "C81", "title": "The percentiles asked for are accepted and named as written", "statement": "Every list of documented percentile values (for instance P95,P99,P999) is accepted, gives one column per percentile named as written, and no value outside 0 to 100 is reported.", "quantifier": "every text of the percentiles option", "why_tests_cant": "Quantifies over all texts.", "anchors": ["stats/reporter.go: ParsePercentiles"]}
{"id": "C82", "title": "With several instances the combined statistics are printed", "statement": "When several instances report an interval, the stdout report ends with the statistics of all of them combined unless the option combined is switched off; the option each-instance decides about the lines of the instances only.", "quantifier": "every map of options and every list of instances", "why_tests_cant": "Needs the default set by validation and the interpretation by the reporter together, for all options.", "anchors": ["stats/stdout.go: NewStdout, Stdout.Report", "config/file.go: Stats.Validate", "finch.go: Bool"]}
{"id": "C83", "title": "Modifiers have exactly their documented effects", "statement": "For a statement with modifiers other than copies: it is prepared iff a prepare modifier is given, idles for the time of its last idle modifier, has the limits of all its rows, table-size and database-size modifiers, saves exactly the columns and insert ID named by its save modifiers; a modifier that is unknown or has a bad value is refused; limits and idle times change nothing about which statements are accepted.", "quantifier": "every statement text, every list of modifiers, every state of the file", "why_tests_cant": "Quantifies over all lists and texts of modifiers and their order.", "anchors": ["trx/trx.go: File.statements, File.column"]}
{"id": "C84", "title": "Stages run in the order of the command line, one after the other", "statement": "The stages given on the command line are run in that order; nothing is done for a stage before every stage before it has ended without an error and without CTRL-C; a stage is prepared in the directory of its file, runs only when as many instances were counted as booted as it has, and ends only when as many were counted as finished (C51 and C73 say who is counted); with --test no instance runs; Server.Run returns nil only when all stages ended or after CTRL-C, and returns an error only when a directory, a reporter or the local instance fails.", "quantifier": "every list of stages, every outcome of preparing them, every schedule of the server, the local and remote instances and CTRL-C", "why_tests_cant": "Needs all schedules of boot and done messages and of CTRL-C over several stages; tests run one or two fixed ones.", "anchors": ["compute/server.go: Server.Run, Server.run", "stage/stage.go: Stage.Prepare"]}
{"id": "C85", "title": "A disabled stage is skipped", "statement": "A stage with disable: true is not run on any instance, nothing of it is prepared, and the stages after it run as if it were not given.", "quantifier": "every list of stages with disabled ones among them, every schedule", "why_tests_cant": "Needs configuration loading and running together, and shows the absence of effects in every schedule.", "anchors": ["config/file.go: Stage.Validate", "compute/server.go: Server.Run, Server.run", "docs/content/syntax/stage-file.md: disable"]}
{"id": "C86", "title": "Stages that are accepted are run to their end", "statement": "If a configuration is accepted and no directory, reporter or instance fails, the run comes to its end: there is a bound on the steps of the server, it is never stuck, and in the end every stage was run.", "quantifier": "every accepted list of stages, every schedule", "why_tests_cant": "Termination and absence of deadlock over all schedules.", "anchors": ["compute/server.go: Server.Run, Server.run", "config/file.go: Compute.Validate"]}
{"id": "C87", "title": "A remote runs a stage once, when told to, and reports its boot and its end", "statement": "A remote instance prepares the stage it was sent, tells the server the outcome, and runs the stage only if the server, after it had acknowledged a successful boot, answers GET /run with 200; it runs it at most once and not at all after a failed boot or with --test (205). The end of the run is always reported before it is done, and only the end of a run is. Every request after GET /boot names the ID of the stage sent. While it runs it stops as soon as a ping is answered with anything but 200, and for no other reason of its own.", "quantifier": "every sequence of answers of the server, outcome of each step, schedule of the ping goroutine and CTRL-C", "why_tests_cant": "All interleavings of the run, the ping goroutine and lost or late answers.", "anchors": ["compute/client.go: Client.run"]}
{"id": "C88", "title": "The server is told that a remote gives up a stage", "statement": "A remote that was sent a stage and cannot boot it, for whatever reason, tells the server with POST /boot, so that the server does not wait for it.", "quantifier": "every failure of every step of booting", "why_tests_cant": "Faults in fetching files or making reporters at every step are needed, and the absence of a request is the effect.", "anchors": ["compute/client.go: Client.run, getTrxFiles"]}
{"id": "C89", "title": "Statistics of remotes are reported by the server", "statement": "On a remote the only reporters are the one that sends statistics to the server, with the instance's name and the stage ID, and stdout with the options of the stage if it has it; with stats.disable there are none.", "quantifier": "every stage configuration and server", "why_tests_cant": "All configurations of reporters.", "anchors": ["compute/client.go: Client.run 96-112", "compute/server.go: Server.run", "docs/content/syntax/stage-file.md: stats.disable"]}
{"id": "C90", "title": "The server sees what a remote says", "statement": "Whatever the name of a remote instance, the stage's name and the values of parameters are made of, the server's handlers find the same name, stage ID and file number in the URL of the request.", "quantifier": "every name without line breaks, stage name, parameter value and stage ID of letters and digits", "why_tests_cant": "All strings; escaping and parsing must be inverse to each other.", "anchors": ["proto/proto.go: Client.URL", "compute/api.go: client, file"]}
{"id": "C91", "title": "The server address may be given with or without http:// and trailing slash", "statement": "With --client ADDR[:PORT] requests go to http://ADDR:PORT, or port 33075 if none is given, also if ADDR begins with http:// or ends with a slash.", "quantifier": "every host and port", "why_tests_cant": "All strings.", "anchors": ["compute/client.go: NewClient", "finch.go: WithPort", "boot/boot.go: Up"]}
{"id": "C92", "title": "A configuration that is accepted can be prepared", "statement": "If config.Load accepts the stage files and trx.Load accepts the trx files of every stage, making the exec groups and clients of each stage (Stage.Prepare) does not panic: every data key a statement uses is loaded and every generator it needs exists. The stages given to the allocator are numbered upwards from one and have no empty trx.", "quantifier": "all stage files, trx files, generators and parameters; all stages of a run", "why_tests_cant": "Quantifies over all configurations; it relates three packages whose tests use separate inputs.", "anchors": ["config/config.go: Load", "trx/trx.go: Load", "workload/workload.go: Groups, Clients", "stage/stage.go: Prepare"]}
{"id": "C93", "title": "A data key is generated as its trx configures it", "statement": "The values of a data key used in a trx come from the generator, with the params and the scope, that stage.trx[].data configures for it in that trx, unless the key is a saved column.", "quantifier": "all trx lists, trx files, data configurations and stages", "why_tests_cant": "All combinations of several trx and stages that share key names; tests load one file.", "anchors": ["trx/trx.go: Load, statements, column", "data/scope.go: Reset", "config/file.go: Data"]}
{"id": "C94", "title": "Clients execute the statements of the files listed for them", "statement": "The statements of each client are those of the trx files that its client group lists (or of all trx of the stage if it lists none), complete and in that order.", "quantifier": "all configurations, trx files, exec groups, client groups and clients", "why_tests_cant": "Quantifies over all configurations and files, across config, trx and workload.", "anchors": ["config/config.go: Load", "trx/trx.go: Load", "workload/workload.go: Groups, Clients"]}
{"id": "C95", "title": "The driver is given the configured settings", "statement": "Without an explicit DSN, the user, password, address and database that the MySQL driver connects with are those configured (in the stage, else in my.cnf, else the defaults), whatever characters they contain.", "quantifier": "all MySQL settings, my.cnf files and password files", "why_tests_cant": "Settings are pasted into a DSN that the driver takes apart again; agreement for all strings is a round trip property, and tests use a few plain strings.", "anchors": ["dbconn/factory.go: setDSN, Make", "go-sql-driver/mysql dsn.go: ParseDSN"]}
{"id": "C96", "title": "Passwords are not shown in messages about the connection", "statement": "What Make returns for the log about a connection (and whether it fails) is the same for all non-empty passwords, wherever the password comes from: stage file, password file, my.cnf or an explicit DSN.", "quantifier": "all settings, DSNs and pairs of passwords", "why_tests_cant": "Non-interference: a property of pairs of runs over all passwords, including those with the separators of a DSN.", "anchors": ["dbconn/factory.go: Make, RedactedDSN", "stage/stage.go: Prepare"]}
{"id": "C97", "title": "A data source the driver does not accept is refused with an error", "statement": "When the driver cannot parse the DSN, Make returns an error and the program does not crash.", "quantifier": "all DSNs and settings", "why_tests_cant": "All strings, most of which no test gives; tests use valid DSNs.", "anchors": ["dbconn/factory.go: Make, RedactedDSN"]}
{"id": "C98", "title": "A client stops soon after its runtime elapsed or finch was stopped", "statement": "Once the context of a client is done (runtime elapsed, CTRL-C, stop from the server) the client ends within one pass over its statements: at most one more statement is tried, none succeeds, nothing is connected, prepared, rolled back or saved. A client started after that does nothing.", "quantifier": "every workload, every state the client can be in when the context is done, every environment behaviour after it", "why_tests_cant": "The context can be done between any two steps of a client, and the client may be in the middle of error handling or idle time; tests cancel at a few points.", "anchors": ["client/client.go: Run, Connect", "stage/stage.go: Run"]}
{"id": "C99", "title": "A data key has one value per scope instance in what a client executes", "statement": "In the statements that a client executes, all plain uses of a data key with statement, trx, iter or client scope get the same value within one instance of the scope (one statement, one run of the trx, one iteration, one connection of the client); each new instance gets a newly generated value, and the generator is called exactly once for each instance in which the key is used.", "quantifier": "all clients (statements, trx, keys), generators, and runs, including failed statements and reconnects", "why_tests_cant": "Joins the counters that the client keeps while it handles errors with the caching of the scoped generators, over runs of any length.", "anchors": ["client/client.go: Run", "data/scope.go: ScopedGenerator.Values, Call"]}
{"id": "C100", "title": "A statement that uses a saved column gets the value saved last", "statement": "A statement that uses a data key saved by save-columns or save-insert-id is executed with the value that the last statement before it in the run of the trx saved.", "quantifier": "all clients, trx, saved values and runs of the client, including failed statements and queries that return no row", "why_tests_cant": "The value depends on the counter at which the column was first used and on all results before; tests run a fixed trx once.", "anchors": ["client/client.go: Run", "data/column.go", "data/scope.go: ScopedGenerator.Values"]}
{"id": "C101", "title": "In a run, the statements of a client share the value of a data key within its scope", "statement": "Take any client that Prepare makes for a run of stages, whose trx begin with a query (not an idle time) and use no globally scoped key, and a data key of statement, trx, iter or client scope that no statement of the client saves or calls explicitly. In all that the client executes, whatever the server answers: the placeholders of the key in two statements (or two places of one statement) executed in one scope instance (statement; run of a trx; iteration; client since the last failed statement) have the same values; executed in two instances they have different values if the generator never repeats itself. No other client uses these generators.", "quantifier": "all lists of stages meeting run_ok (all accepted configurations do, C92), clients, keys, generators, server answers and executions", "why_tests_cant": "Joins the allocation of generators over all stages and groups, the client's counters and the generators' caches for executions of any length.", "anchors": ["workload/workload.go: Allocator.Clients", "data/scope.go", "client/client.go: Run"]}
{"id": "C102", "title": "In a run, a saved column is executed with what the trx saved last", "statement": "In a run of an accepted configuration, a trx scoped column that no statement both uses and saves is executed, in every statement that uses it, with the value scanned last by this client for this trx; all scans into it were made by statements of the same trx that save this column. (Same conditions on the client as C101.)", "quantifier": "all accepted configurations, trx files, clients, columns, server answers and executions", "why_tests_cant": "Needs every order of statements that trx.Load accepts, the allocation, and executions of any length.", "anchors": ["trx/trx.go: File.statements", "workload/workload.go: Allocator.Clients", "client/client.go: Run", "data/column.go"]}
{"id": "C103", "title": "Columns are saved once and before they are used", "statement": "In an accepted stage, over all its trx files in order, at most one statement saves a given column (other than _), it saves it once, no statement before it uses the column, and the column is no data key of an earlier file or stage.", "quantifier": "all lists of trx files, lines, modifiers (also copies) and data configurations", "why_tests_cant": "Every position of saving and using statements in any number of files of any length; tests have three short files.", "anchors": ["trx/trx.go: File.statements, File.column, Load"]}
{"id": "C104", "title": "The statistics reported for a stage count every executed query once", "statement": "Summed over all reports of a stage, the number of queries in the total, and for each trx under its name, is the number of statements the clients with statistics executed, in each class (read, write, commit, total), and the number of each error code is the number of executions that failed with it before the run was over; the number of clients is that of the clients with statistics; nothing is counted twice in any interleaving.", "quantifier": "all numbers of clients and trx, all client executions, all interleavings of recordings with any number of collections", "why_tests_cant": "Clients record while the collector swaps buffers; counts are spread over buffers, intervals, clients and trx, and a lost or double count needs a particular interleaving.", "anchors": ["stats/collector.go: Watch, Collect, collect", "stats/stats.go: Trx.Record, Trx.Error, Trx.Swap, Stats.Combine", "client/client.go: Run", "stage/stage.go: Prepare"]}
{"id": "C105", "title": "Nothing is run unless the whole command line is valid; then its stages are, in order", "statement": "If the command line or any stage file on it is not valid the program exits with 1 and does nothing else: no stage of another file is prepared, published or run. Otherwise the stages are exactly those of the files given, in that order, each prepared in the directory of its file, with remotes served exactly if --server is given and only booted if --test is. --help and --version do nothing but print and exit with 0. With --client no file is read and the program is a remote of the server.", "quantifier": "all command lines, files, environments and schedules of the program, its instances and CTRL-C", "why_tests_cant": "Any number of files, any of which may be the invalid one; the claim is that nothing happens in any schedule.", "anchors": ["boot/boot.go: Up", "boot/cmdline.go: ParseCommandLine", "config/config.go: Load", "compute/server.go: Server.Run", "compute/client.go: NewClient, Client.Run"]}
{"id": "C106", "title": "The exit status tells whether the stages were run", "statement": "The program exits once. The status is 0 only if every stage of the command line was run to its end (with --test: booted), or with --client the stage of the server was; it is not 0 only if the command line or a file is not valid, a stage could not be started, or the program was forced to exit after CTRL-C.", "quantifier": "all command lines, files and schedules", "why_tests_cant": "Every way in which any stage, local or remote, can fail at any time.", "anchors": ["bin/finch/main.go: main", "boot/boot.go: Up", "compute/client.go: Client.Run", "compute/server.go: Server.Run"]}
{"id": "C107", "title": "CTRL-C ends the program", "statement": "CTRL-C is taken whenever the program runs stages or is a remote. After it at most one stage does anything more, and the program can exit from every state, even if a stage does not respond; it is never forced to exit without CTRL-C.", "quantifier": "all states reachable in any schedule", "why_tests_cant": "CTRL-C at any time of any stage, including states in which the server hangs.", "anchors": ["boot/boot.go: Up", "compute/server.go: Server.Run, Server.run"]}
{"id": "C108", "title": "A connection uses TLS as configured", "statement": "Without a DSN, a connection uses the configured TLS files if there are any and TLS is not disabled; else Amazon's RDS certificates if it goes to an Amazon RDS host and neither disable-auto-tls nor tls.disable is set; else no TLS.", "quantifier": "all mysql configurations and my.cnf contents", "why_tests_cant": "Any host, port and combination of the TLS settings in the configuration and my.cnf.", "anchors": ["dbconn/factory.go: setDSN", "config/file.go: TLS.Set, TLS.LoadTLS"]}
{"id": "C109", "title": "No instance runs before all have prepared the stage", "statement": "When a remote or the local instance begins to run a stage, as many distinct instances as the stage is configured for (the local one included) have prepared this very stage successfully.", "quantifier": "all runs of a server with any number of remotes over any network: attempts of requests lost, late, repeated, answers lost, processes started again, any schedule", "why_tests_cant": "Concerns every interleaving of server, remotes and network.", "anchors": ["compute/client.go: Client.run", "compute/api.go: API.boot, API.run", "compute/server.go: Server.run", "proto/proto.go: Client.request"]}
{"id": "C110", "title": "A stage ends only when all its instances have run it", "statement": "When the server ends a stage normally, as many distinct instances as the stage is configured for have finished running it.", "quantifier": "as in C109", "why_tests_cant": "Concerns every interleaving of server, remotes and network.", "anchors": ["compute/client.go: Client.run", "compute/api.go: API.run", "compute/server.go: Server.run", "proto/proto.go: Client.request"]}
{"id": "C111", "title": "A remote works only on a stage the server has given it", "statement": "A remote prepares only the configuration of a stage to which the server has assigned it, and runs only such a stage and only after it has prepared it.", "quantifier": "all runs as in C109, without any assumption about names or timing", "why_tests_cant": "Answers and attempts may be late, lost or repeated in any order.", "anchors": ["compute/client.go: Client.run", "compute/api.go: API.boot, API.client", "proto/proto.go: Client.request"]}
{"id": "C112", "title": "A stage has the clients its workload asks for", "statement": "When a configuration has been accepted and a stage prepared, its client groups are exactly those of its workload, in order. Each has exactly the number of clients written in the file. Each client has the default database and the iteration limit of its client group; without a limit it has none, or one iteration if one of its trx has DDL. It has statistics for each of its trx in order, unless the stage or the client group disables statistics, then for none. A stage without a workload runs its trx in order in exec groups of one client: a trx with DDL alone and once, the others together with their neighbours and without a limit.", "quantifier": "all configurations, trx files, environments and stages of a run", "why_tests_cant": "The path goes through variable interpolation, validation, defaults, grouping and allocation; tests check each step on a few literal workloads and never the composition.", "anchors": ["stage/stage.go:83-111", "workload/workload.go:60-281", "config/file.go:368-420"]}
{"id": "C113", "title": "Names of instances in the server's log are one line", "statement": "Whatever name a request gives, the name under which the server keeps the instance and which it writes to its log (in every line about an answer, an assignment, a boot, a run, a file, statistics or a count) has neither a line feed nor a carriage return.", "quantifier": "every sequence of requests with any names and any interleaving", "why_tests_cant": "All byte strings and all paths from a request to a log line.", "anchors": ["compute/api.go:409-503"]}
{"id": "C114", "title": "A client executes its queries in order, iteration by iteration", "statement": "The queries a client executes, in order, are consecutive iterations numbered 1, 2, ... as its ITER counter says. Each iteration executes the queries of the client's trx (without idle times) in order from the first one. Only the last execution of an iteration may have failed. An iteration ends before the last query only after a failure, or if it is the last one and the client was stopped other than by an iteration limit.", "quantifier": "every client, every sequence of query results, errors, reconnections, data limits and cancellations", "why_tests_cant": "The order of executions depends on errors, reconnections and limits at any point of unboundedly many iterations.", "anchors": ["client/client.go:202-357"]}
{"id": "C115", "title": "iter N in the file means N times the queries", "statement": "Let a client group in an accepted configuration file have iter N, N not 0. In every concurrent run of the stage's clients, each client of the group executes each of its queries at most N times. If iter is the only iteration limit of the group, the client's statements have no data limits, and the client stops because of a limit, it has executed its first query exactly N times; if moreover no query failed, what it executed is exactly N times the queries of its trx files, in the order of the files.", "quantifier": "all configuration files, trx files, client groups, N and interleavings of the clients of a stage", "why_tests_cant": "Joins interpolation and validation of the file, loading of trx files, allocation of clients and the concurrent loop; tests cover single functions with literal inputs.", "anchors": ["config/file.go:368-420", "trx/trx.go:148-260", "workload/workload.go:134-281", "client/client.go:202-357"]}
{"id": "C116", "title": "iter-clients and iter-exec-group in the file are exact totals", "statement": "Let a client group in an accepted configuration file have iter-clients N, N not 0 (N plus the number of clients below 2^32). In every concurrent run, the clients of the group together execute each of their queries at most N times. If that is the only limit and all of them stop because of it, they have executed the first query exactly N times together, and without failures every query exactly N times. Likewise, if all client groups of an exec group set iter-exec-group to N, the clients of the exec group together start at most N iterations, and exactly N if it is the only limit and all of them stop because of it.", "quantifier": "all configuration files, trx files, client groups, N and interleavings of the clients of a stage", "why_tests_cant": "Concurrent increments of shared counters interleaved with the executions of any number of clients.", "anchors": ["config/file.go:368-420", "workload/workload.go:134-281", "client/client.go:225-238", "client/client.go:240-357"]}
{"id": "C117", "title": "qps and tps in the file bound what all their clients execute together", "statement": "Let an accepted configuration file limit the stage, an exec group (in its first client group), a client group (qps-clients, tps-clients) or each client (qps, tps) to N per second, N not 0 and at most 10^9. In every concurrent run of the stage's clients and rate limiters, the clients the limit is for together execute at most N queries (for tps: BEGIN statements) per second from the start, and one more, whatever other limits they have.", "quantifier": "all configuration files, combinations of limits, schedules of clients and limiter goroutines, and times of ticks at least 10^9/N ns apart", "why_tests_cant": "Permits pass through chains of goroutines that drop and hold them, shared by any number of clients; tests can only sample timings.", "anchors": ["config/file.go:368-420", "workload/workload.go:134-281", "limit/rate.go:24-160", "client/client.go:258-268"]}
{"id": "C118", "title": "Idle clients do not save up permits", "statement": "With a limit of N per second as in C117, in every time window of every run the clients of the limit execute at most N queries (for tps: BEGIN statements) per second, and at most 7 per client of the stage and 3 more, however long clients were slow or idle before the window.", "quantifier": "all configuration files, runs, and time windows within them", "why_tests_cant": "The bound has to hold for every state limiters and clients can be in when the window starts.", "anchors": ["limit/rate.go:44-160", "client/client.go:258-268"]}
{"id": "C119", "title": "Rate limits never stop a client for good", "statement": "At any time of any run, a client that is about to execute a query can still execute it after steps of the limiters (ticks and passing on permits) and its own only, without any step of another client, however limits of stage, exec group, client group and client are combined.", "quantifier": "all configuration files, all reachable states of clients and limiters", "why_tests_cant": "Absence of deadlock concerns all reachable states of the limiter goroutines and clients.", "anchors": ["limit/rate.go:44-160", "workload/workload.go:190-281", "client/client.go:258-268"]}
{"id": "C120", "title": "A row limit in a trx file bounds the rows that all clients write", "statement": "If a statement of a trx file that writes has '-- rows: N OFFSET', then at any time of a run, OFFSET plus the rows written by all clients of the stage with that statement is at most N-1 plus what each client writes with one execution (or OFFSET, if that is larger: then nothing is written), whatever other limits the statement has, however many client groups and trx lists contain the trx, and however clients interleave or fail.", "quantifier": "all configuration files and trx files, numbers of clients, schedules, failures and numbers of affected rows", "why_tests_cant": "The overshoot depends on which clients are between the check of the limit and the count of affected rows; tests see few interleavings.", "anchors": ["trx/trx.go:271-299", "client/client.go:310-339", "limit/data.go:14-117"]}
{"id": "C121", "title": "A client stopped by a row limit only stops when the rows are there", "statement": "If a client of a group without iteration limits reports that it reached a limit, then it did so at a statement of one of its trx that writes and has a data limit; and if that is a single '-- rows: N OFFSET', the clients of the stage have written at least N-OFFSET rows with that statement.", "quantifier": "all configuration files and trx files, numbers of clients, schedules, failures and numbers of affected rows", "why_tests_cant": "A limit that stops clients too early shows only for some interleavings of checks, executions and counts.", "anchors": ["trx/trx.go:271-299", "client/client.go:227-235,310-339", "limit/data.go:14-117"]}
{"id": "C122", "title": "Every placeholder of a statement gets a value of its own data key", "statement": "In every execution of a statement of an accepted configuration there are as many values as placeholders and none is nil, because each data key has a generator that returns as many values as the key has placeholders (its own and the @PREV after it). Every built-in generator always returns the number of values that its Format promises.", "quantifier": "all configuration and trx files, all built-in generators and parameters, all random numbers, all runs of all clients", "why_tests_cant": "The number of values depends on the generator's parameters and the position of @PREV; tests try a few combinations and never compare Format with Values for all parameters.", "anchors": ["client/client.go:268-275", "trx/trx.go:400-470", "data/generator.go:54-88"]}
{"id": "C123", "title": "Executed values are within the documented bounds of the configured generator", "statement": "Whenever a client executes a statement with data key @d, the values at its placeholders are values that the documentation of the generator configured for @d allows with the configured parameters: int and int-gaps in [min,max], int-range a range of at most 'size' in [min,max], int-range-seq one of the consecutive chunks of [begin,end], auto-inc start plus a positive multiple of step, str-fill-az 'len' letters, client-id the numbers of the client itself.", "quantifier": "all configuration and trx files, generators, parameters with which the generators keep their promises (C07-C13), random numbers, scopes of one client, clients and runs", "why_tests_cant": "Values pass through parameter parsing, Copy, scopes and the value buffer of each statement; a mix-up in any of them is not seen by tests of a single generator.", "anchors": ["data/integer.go", "data/string.go", "data/id.go", "data/scope.go", "client/client.go:268-275"]}
{"id": "C124", "title": "The first registration of a data generator counts", "statement": "A generator name is served by the first factory registered for it; registering it again is refused and changes nothing for any name; the documented built-in names are registered and cannot be replaced; Make refuses unknown names and otherwise returns a generator of that name; a Copy of a new generator behaves like a new generator.", "quantifier": "all sequences of registrations, names and parameters", "why_tests_cant": "Sequences of registrations by plug-ins are unbounded.", "anchors": ["data/generator.go:25-114"]}
{"id": "C125", "title": "Data limits of trx files do not block clients", "statement": "A client that has not returned can always go on: whatever the database answers when a size is queried, and whatever other clients do with the same limits. Between two of its other steps it checks and counts each single limit of the statement at most once.", "quantifier": "all configuration and trx files, all runs of all clients of a stage, all answers of the database", "why_tests_cant": "Blocking depends on the interleaving of clients sharing a limit; tests use one goroutine.", "anchors": ["limit/data.go:53-257", "client/client.go:310-339", "trx/trx.go:280-300"]}
{"id": "C126", "title": "table-size stops the clients of a stage soon after the size, not before", "statement": "For a statement with 'table-size: t max' in a trx file: once the table has max bytes, the K clients of the stage together execute the statement at most K + (m-1)(K+1) times more, m being 3, 5 or 1000 depending on max. A client without iteration limits that stopped did so at a statement with a data limit of one of its trx; if that is a table size, the database had said that the table has that size or could not be asked.", "quantifier": "all configuration and trx files, runs of all clients, table sizes over time", "why_tests_cant": "The overshoot depends on how checks and executions of clients interleave.", "anchors": ["limit/data.go:122-257", "client/client.go:310-339", "trx/trx.go:286-300"]}
{"id": "C127", "title": "Clients send the text of the trx file with the values in place of the data keys", "statement": "A statement of a trx file is sent to MySQL as written in the file, with the values of its execution in place of its data keys: numbers in decimal notation, strings in quotes, saved columns in quotes unless quote-value says no. A prepared statement is prepared with ? in place of its data keys.", "quantifier": "all configuration and trx files, statements, data keys, values of the built-in generators, clients and runs", "why_tests_cant": "The text passes through line scanning, key extraction, a format string per generator, copies of it per client and fmt; tests compare a few literal queries at one of these points.", "anchors": ["trx/trx.go:218-452", "data/column.go:24-60", "data/integer.go", "data/string.go", "client/client.go:268-330"]}
{"id": "C128", "title": "Exec groups run one after another, in the order of the configuration file", "statement": "While neither the stage's runtime has elapsed nor finch was stopped, a client of a later exec group does not do anything before every client of the earlier exec groups has returned, and those do nothing afterwards. Client groups with different group names, and unnamed ones of which one has DDL, are in different exec groups. Without a workload, trx run in the order of the file, and when a later client acts, the queries of an earlier trx with DDL have been executed once and in order, unless one failed.", "quantifier": "all configuration and trx files, interleavings of Stage.Run with its clients, and results of queries", "why_tests_cant": "The order emerges from goroutines, channels and contexts of Stage.Run joined with the loops of the clients; a test sees one interleaving.", "anchors": ["stage/stage.go:118-235", "client/client.go:173-357", "workload/workload.go"]}
{"id": "C129", "title": "A stage with iteration limits ends and has executed its trx as often as configured", "statement": "If every client group has an iteration limit (iter, iter-clients, iter-exec-group or DDL), the stage takes a bounded number of steps and can always go on until Stage.Run returns. When it has returned undisturbed, every client has returned; a client with iter N as its only limit, which reported no error, has executed its first query N times, and without failures N times the queries of its trx files in order and nothing else; the clients of a group with iter-clients N together have executed each query N times.", "quantifier": "all configuration and trx files, interleavings of Stage.Run with its clients, and results of queries", "why_tests_cant": "It is about all interleavings of any number of clients with shared counters and the channel of Stage.Run; a test cannot tell a stage that hangs in one interleaving from one that does not.", "anchors": ["stage/stage.go:118-235", "client/client.go:173-357", "workload/workload.go"]}
{"id": "C130", "title": "The report of a stage counts the queries of the trx files times iter times clients", "statement": "For a stage whose client groups have iter as their only limit, with one collection of statistics when the stage is done: after Stage.Run has returned undisturbed and no query failed or error was reported, the report states as many reads, writes, commits and queries in total, and for each trx by its name, as the trx files of the client groups with statistics have statements of that kind (idle statements not counted), times the clients of the group, times iter; it reports no errors, and as many clients as the groups with statistics have. Trx files begin with a query, not an idle statement (see C30 for what happens then).", "quantifier": "all configuration and trx files, interleavings of Stage.Run with its clients and recordings with the collection", "why_tests_cant": "The numbers pass through config loading, parsing of trx files, allocation of clients, the client loop, two statistics buffers per trx and their combination; a test checks each on one workload, not that they agree for every configuration and interleaving.", "anchors": ["stage/stage.go:84-235", "client/client.go:173-357", "trx/trx.go", "workload/workload.go", "stats/stats.go", "stats/collector.go"]}
{"id": "C131", "title": "When the runtime elapsed or finch was stopped, the stage and its clients end after a bounded number of steps", "statement": "Once the runtime of a stage elapsed, or finch was stopped with CTRL-C, Stage.Run returns after at most 3 + the sum over exec groups of 4 times the clients + 14 of its own steps, even if no client does anything any more. Wherever a client is when its context is done (by the stage, CTRL-C or the runtime of its client group), it returns after at most n + 3 further steps, n being the statements of its trx, in any interleaving: it tries at most one query, which fails, and it does not connect, prepare, roll back, save values or log an error any more. What a step had begun before the context was done counts as before. Clients have at least one query (clients with only idle times: see C98).", "quantifier": "all stages, states reached by any interleaving of Stage.Run with its clients and any results of queries, and all interleavings afterwards", "why_tests_cant": "A test stops a stage at a few moments; the claim is about every moment and every interleaving of the clients, the channel they send to and Stage.Run waiting on it.", "anchors": ["stage/stage.go:118-235", "client/client.go:97-171", "client/client.go:173-357"]}
{"id": "C132", "title": "The reports of a stage count each query its clients sent exactly once", "statement": "For a stage with a workload, whatever its limits, whatever queries fail and however it ends: when statistics are collected once, after the clients are done, the report states as many reads, writes, commits and queries in total, and for each trx by its name, as clients of groups with statistics executed statements of that kind and trx, as many errors by code as executions failed with it before the context was done, and the number of those clients. With any number of collections while the clients run, the reports together never count more than that, and exactly that if no collection reads statistics a client is just writing to (see C104 for when it does) and the last is made after the clients are done. Trx files begin with a query (see C30).", "quantifier": "all configuration and trx files, interleavings of Stage.Run with its clients and recordings with collections, results of queries and moments", "why_tests_cant": "Counts depend on the interleaving of recording and collecting for every client and on the attribution of statements to trx by position; a test compares the counts of one run.", "anchors": ["stats/stats.go:190-231", "stats/collector.go:98-128", "stats/collector.go:292-332", "client/client.go:240-357", "stage/stage.go:99-113", "trx/trx.go"]}
{"id": "C133", "title": "The clients of a stage are done before a client of a later stage does anything", "statement": "When finch runs several stages: whenever a client of a stage does something, all clients of every earlier stage have returned, and none of them does anything afterwards. And however an earlier stage ended, once a later stage has begun, a client of it whose context is done makes a bounded number of further steps, tries at most one query, which does not succeed, and changes nothing at MySQL.", "quantifier": "all lists of stages with their clients, interleavings of the stages and their clients, moments of CTRL-C and of the end of runtimes, results of queries", "why_tests_cant": "Whether clients overlap depends on the interleaving of the goroutines of several stages and on when contexts end; a test sees one schedule.", "anchors": ["compute/server.go:51-67", "compute/server.go:70-181", "stage/stage.go:125-232", "client/client.go:145-362"]}
{"id": "C134", "title": "A run of stages with iteration limits ends after all stages, in order, having executed their trx as often as configured", "statement": "If every client group of every stage has a limit of iterations, the whole run of finch takes a bounded number of steps whatever happens (failing queries, CTRL-C, runtimes), and as long as it is not over there is a next step other than CTRL-C or the end of a runtime: no stage or client waits forever. When it is over without CTRL-C, every client of a group with only iter N in a stage without a runtime has returned and, if it did not fail, executed N times the queries of its trx files, in order and nothing else, whichever stage it is of. If no stage has a runtime, what clients do is in the order of the stages.", "quantifier": "all lists of stage, configuration and trx files, interleavings of stages and clients, results of queries, moments", "why_tests_cant": "Termination and absence of deadlock over all schedules of several stages cannot be observed by running one.", "anchors": ["compute/server.go:51-67", "compute/server.go:70-181", "stage/stage.go:125-232", "client/client.go:145-362"]}
{"id": "C135", "title": "Statements get documented values of data keys that several clients use, in every order of their uses", "statement": "When a client executes a statement with a data key of client-group, exec-group or workload scope, the values at its placeholders are ones that the documentation of the key's generator allows with the configured parameters, and as many as the generator promises, whatever other clients use the generator at the same time. For client-id the values are the numbers of the executing client.", "quantifier": "all configurations, trx files, clients, runs, interleavings of the uses of a generator by any number of clients, random numbers", "why_tests_cant": "The values depend on the interleaving of all clients inside ScopedGenerator.Values and Call.", "anchors": ["data/scope.go:199-243", "data/integer.go:87-338", "data/id.go:83-94", "client/client.go:268-275", "workload/workload.go:150-330"]}
{"id": "C136", "title": "Clients do not get each other's numbers of a shared auto-inc key", "statement": "If a data key with the auto-inc generator has a scope that several clients share, no two clients execute statements with the same number, and one client gets another number in each of its iterations and the same one within an iteration, until the counter overflows.", "quantifier": "all configurations, trx files, pairs of clients, pairs of executions, interleavings of the uses", "why_tests_cant": "Duplicates depend on the interleaving of clients; runs without duplicates do not exclude others.", "anchors": ["data/scope.go:199-243", "data/integer.go:294-338", "client/client.go:268-275", "workload/workload.go:150-330"]}
{"id": "C137", "title": "The reports of every stage are in its csv file, and no file of another run is changed", "statement": "If the options of the configured reporters are valid and no csv file exists, every stage with statistics has exactly the reporters it asks for, and after the run its csv file has the header and one line for each report, also if _all.yaml configures the csv reporter for all stages. If a csv file exists, the run ends with an error and the file is not changed.", "quantifier": "all sequences of stages, reporter sections, orders in which maps are visited, registered custom reporters, reports, file systems", "why_tests_cant": "Runs of several stages, orders of a map and states of the file system cannot be enumerated.", "anchors": ["stats/reporter.go:32-93", "stats/csv.go:22-122", "stats/stdout.go:35-70", "compute/server.go:50-101", "docs/content/benchmark/statistics.md"]}
{"id": "C138", "title": "stats.disable disables reports on all instances; remotes report to their server and stdout only", "statement": "With stats.disable no instance reports statistics. Otherwise each remote can make its reporters if the server could: the stage's stdout reporter and the one that sends to the server, under the remote's name and the stage's ID, no other, and it creates no files.", "quantifier": "all stages, reporter sections, orders in which maps are visited, registered custom reporters, remotes", "why_tests_cant": "It relates what two programs on two machines make of every configuration.", "anchors": ["compute/client.go:96-112", "compute/server.go:96-101", "stats/reporter.go:32-93", "stats/remote.go:29-40", "docs/content/syntax/all-file.md"]}
{"id": "C139", "title": "The times in reports account for the whole runtime of a stage", "statement": "The reports of a stage are numbered from 1, their intervals follow each other without gap and the runtime of each is the sum of the intervals up to it, whenever the ticker fires; with ticks on time each interval has the configured length; without a frequency there is exactly one report whose interval is the whole runtime; and the last report accounts for the time until the stage ended.", "quantifier": "all frequencies, times of ticks, durations of reports, times at which the stage ends", "why_tests_cant": "Times at which a ticker fires and a stage ends cannot be enumerated, and tests use fixed ones.", "anchors": ["stats/collector.go:75-158", "stats/collector.go:229-252", "stats/collector.go:292-395", "docs/content/benchmark/statistics.md"]}
{"id": "C140", "title": "QPS and TPS in reports are the queries and transactions per second", "statement": "In every line of a csv or stdout report the columns QPS, r_QPS, w_QPS and TPS are the numbers of queries, reads, writes and commits counted in the line, divided by the length of the interval in seconds and rounded down: exactly so for intervals of whole seconds, otherwise up to one part in 2^51. This holds for every instance and for all instances combined.", "quantifier": "all numbers of queries, interval lengths in nanoseconds, lists of instances, percentiles", "why_tests_cant": "The rates are computed with floating point numbers that round three times; tests check a few values.", "anchors": ["stats/csv.go:59-122", "stats/stdout.go:71-135", "stats/collector.go:39-50", "stats/collector.go:292-300"]}
{"id": "C141", "title": "No run of stages exceeds an iteration limit, whatever else limits, stops or fails", "statement": "At every moment of every run of stages, a client of a group with iter N has executed each of its queries at most N times, a client whose trx contain DDL in a group without iter at most once, the clients of a group with iter-clients N (N plus the number of clients below 2^32) together at most N times, and the clients of an exec group all of whose groups set iter-exec-group to N (with the same bound) have together begun at most N iterations, also if other limits are set as well, if queries fail, if runtimes elapse and if the user presses CTRL-C.", "quantifier": "every accepted configuration, every interleaving of the clients and the stage, every failure of a query or connection, CTRL-C and runtimes at any time", "why_tests_cant": "Concerns all interleavings of all clients with all failures and combinations of limits.", "anchors": ["client/client.go:173-357", "workload/workload.go:100-260", "stage/stage.go:118-235", "compute/server.go:70-181"]}
{"id": "C142", "title": "Clients that stop because of iteration limits have reached one of them", "statement": "If a client group sets both iter M and iter-clients N, and all its clients end without an error in a run of stages that is over without CTRL-C, then each of them has executed M iterations or all of them together N. The same with any combination of iter, iter-clients and iter-exec-group in an execution group: a client ends only when it has executed its iter (one iteration for DDL), its group its iter-clients, or the execution group its iter-exec-group.", "quantifier": "every accepted configuration with such a group, every run of its stages and every interleaving of the clients", "why_tests_cant": "Depends on the order in which clients reach the checks of the two limits; a test sees one order.", "anchors": ["client/client.go:225-238", "workload/workload.go:137-208", "docs/content/benchmark/workload.md:134-146"]}
{"id": "C143", "title": "With iter-clients and iter-exec-group the lower limit counts", "statement": "If a client group that is the only one of its execution group sets both iter-clients N and iter-exec-group X (and neither iter nor a DDL trx), and its clients end without an error in a run of stages that is over without CTRL-C, then together they have executed exactly min(N, X) iterations.", "quantifier": "every accepted configuration with such a group, every number of clients (N and X plus it below 2^32), every run of its stages and every interleaving of the clients", "why_tests_cant": "A client that is stopped by iter-clients has already been counted for iter-exec-group; whether that loses iterations depends on the order of the clients' checks, and a test sees one order.", "anchors": ["client/client.go:225-238", "workload/workload.go:137-208", "docs/content/benchmark/workload.md:134-146"]}
