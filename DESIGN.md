# Formal model of square/finch: design

The source is `/repo` (Go).  It is read as text; nothing is built or run.  The model is
written in Rocq/Coq 8.16.1 under `rocq/theories`, one group of files per area:

* `XModel.v`  - executable Gallina functions following the Go code function by function.
  Each definition has a comment with file and lines and the simplifications made.
* `XSpec.v`   - the specification vocabulary: short, independent of the model's helpers.
* `XProofs.v` - lemmas.
* `XProps.v`  - only the property theorems (`exact lemma`), examples that meet their
  hypotheses, and `Print Assumptions` for each.

A property that the code violates is kept with its full statement in `properties.jsonl`; the
theorem `..._refuted` shows a concrete counterexample of the faithful model, and the strongest
version that does hold is proved beside it.

## Conventions

* Go `int64`/`uint64`/`uint32` are `Z` (or `N`); wrap-around is explicit where a property
  depends on it; elsewhere the guard "no overflow" is an explicit hypothesis.
* Maps are association lists or functions; where the unspecified iteration order of a Go map
  matters the theorem quantifies over all orders.
* Goroutines, channels and atomics are labelled transition systems: a step per atomic action,
  theorems quantify over all step sequences.
* Panics, nil and errors are explicit values (`option`, result types).
* External parties (MySQL, random source, clock, HTTP transport, operating system) are
  arguments: oracles, event lists or arbitrary functions. No axioms are used for them.

## Plan per property

What was planned before the proofs; what was proved is under "Results" and in `MANIFEST.json`.

| id | modelled | proof |
|----|----------|-------|
| C01 | `RunLevel.GreaterThan`, `Scope.Copy`, the allocation walk | induction over a lexicographically ordered walk: instance equality iff scope-instance equality |
| C02 | same, with global scope and `Reset` between stages | refutation; no generator is ever made |
| C03 | `NewScopedGenerator`, `Values`, `Call` | refinement to "last counter seen" spec |
| C04 | same, `cgIter`/`cgVals` maps | refinement per client number; refutation across client groups |
| C05 | same, one-time branch | refutation; exact characterisation of what happens |
| C06 | `RowScope` on strings, key tokenizer | positive theorem for keys with no prefix overlaps, refutation in general |
| C07, C08 | `NewInt`, `Int.Values` with the draw as argument | arithmetic; refutations |
| C09, C10, C11 | `IntRange`, `IntRangeSeq`, `AutoInc` | arithmetic, induction over calls |
| C12 | `StrFillAz.Values` over a stream of random words | loop invariant |
| C13 | `NewIntGaps`, `Values` over IEEE binary64 (Flocq) | float bounds; refutations for degenerate sizes |
| C14, C15 | `ClientId`, `Column` with an explicit heap for buffers | direct, induction over histories |
| C16, C17, C18, C19, C20 | `limit/data.go` with clients as a transition system | invariants; refutations |
| C21, C22 | `limit/rate.go` as transition systems | invariants over histories |
| C23, C24, C25, C26, C27 | `workload.go` | induction over lists |
| C28 | `Client.Run` iteration head, N clients | invariant over interleavings with `mod 2^32` counters |
| C29-C35 | `Client.Run`/`Connect` as a function of an oracle of outcomes, producing an event trace | trace invariants; refutations |
| C36, C37, C38, C40 | `stats.go` | induction over event lists; refutations |
| C39 | `Trx.Record`/`Swap` as interleaved steps | invariant; refutation of exactness |
| C41, C42 | `collector.go` as event machine | invariants; refutations |
| C43, C44, C45, C46, C47, C48 | `config/*.go`, `dbconn/*.go`, `trx.Load` on records and strings | case analysis, induction |
| C49, C50, C51, C53 | `compute/api.go`, `compute/server.go` as request/step machines | invariants; refutations |
| C52 | `proto.request` with body buffer state | induction over attempts; refutation |
| C54, C55, C56 | `trx/trx.go` on lines and strings | induction; refutations |
| C57 | `Stage.Run` as event machine | invariant |
| C58 | `WithPort` on strings | direct |
| C59, C61 | rate limiters of `Clients`, permits in `Client.Run` | identities of limiters; trace invariants |
| C60, C62 | run counters and saved values of `Client.Run` | trace invariants; refutation |
| C63 | `stats/remote.go` with an explicit heap | invariant; refutation |
| C64-C69 | configuration loading and connections | case analysis, permutation of maps |
| C70-C72 | `trx/trx.go` | induction |
| C73-C76 | protocol machine, reachability over all schedules | invariants; refutations for every continuation |
| C77 | `getTrxFiles` with local files as a map | induction; refutation |
| C78 | `Stage.Run` | refutation |
| C79 | `NewIntGaps` over Flocq's binary64 | error bounds |
| C80-C82 | report lines as text, options of reporters | splitting at separators; refutations |
| C83 | modifiers as effects on a statement | induction over the modifiers |
| C84-C86 | `Server.Run` over all stages as an event machine | trace invariants, a decreasing measure; refutations |
| C87-C89 | `Client.run` of a remote as an event machine | trace invariants; refutations |
| C90, C91 | URLs of requests, strings | inverse functions by induction on strings; refutation |
| C92-C94 | `Stage.Prepare`: config, trx and workload models composed | invariants of loading, totality of allocation; refutations |
| C95-C97 | `factory.Make` with the driver's ParseDSN and FormatDSN | round trip of parsing; non-interference; refutations |
| C98 | `Client.Run`, `Client.Connect` after the context is done | measure on the steps left; refutation |
| C99 | client and scoped generators joined: every statement calls its inputs with the client's counters | invariant on counters, C03/C60 reused |
| C100 | the same, with columns scanned by the statements | invariant on the cached value; refutations |
| C101 | allocation (C01), client and generators (C99) joined, keys by name | C01, C30 and C99 reused |
| C102 | the same for columns, from the trx files | C100, C103 reused |
| C103 | the keys registered while trx files are loaded | chain of key maps, induction over the lines |
| C104 | clients' executions joined with the double-buffered statistics, `Watch` and the collections | simulation of statistics by lists of events; sums over slots and intervals exchanged; C29, C39, C40 reused |
| C105-C107 | `boot.Up` and `main` as a process around the server's and the remote's state machines | every execution is a start followed by one execution of Server.Run or Client.run (invariant); C84, C87, C68 reused |
| C108 | `setDSN` again, now its choice of TLS | case analysis; the two regular expressions are specified by what they match |
| C109-C111 | server, any number of remotes and a network together: attempts of requests, late and lost ones, answers, restarts | invariant relating each remote, its attempt, the handler of the attempt and the server's stage; the protocol theorems (C51, C73) are reused by showing that patient remotes make the server's run sequential; C111 without any assumption |
| C112 | from the configuration file to the number of clients, their limits, databases and statistics | composition of C65, C23-C25 and the allocator |
| C113 | names the server keeps and logs | invariant over all runs of the server model |
| C114 | executions of a client, split into iterations | invariant over all runs of the client |
| C115, C116 | from the configuration file and the trx files to the executions of all clients of a stage, any interleaving | simulation of the joined loop by the loop heads (`Iter*`), composed with C65, C94 and C112 |
| C117-C119 | from the configuration file to executions over time, with the goroutines of the limiters | potential: permits in channels, half-passed permits and permits clients hold; each execution uses up one tick of the limiter the clients share |
| C120, C121 | from the configuration and trx file to rows written by all clients | the steps that concern one limit are a run of `LimitModel`; rows written = rows counted + rows in flight; a limit that said no is full |
| C125, C126 | from the configuration and trx file to clients that go on, and to size limits | where a client is in a limit fits where it is in its loop; each step decreases what is left before the next step of the loop; the steps of one limit are a run of `LimitModel`, on which C18 is proved |
| C127 | from the trx file to the text of the queries that are sent | `SendModel` prints the values themselves; the format string of a statement is the text of the file with a verb per key (C05), the verb fits the kind of value (C123) |
| C128, C129 | a stage from its configuration file to its end: the order of exec groups, that it ends, and what was executed then | `WholeModel` joins Stage.Run (C57) with the client loops (C114-C116); an invariant ties running clients to their events; every step is counted to bound a run |
| C130 | the report of a stage with iteration limits states the numbers that follow from its configuration and trx files | joins `Whole*` (C129) with the statistics (C104): what each client executed is counted by trx and summed over the client groups |
| C131 | when the runtime elapsed or finch was stopped, the stage and its clients end after a bounded number of steps, having changed nothing more | `Halt*`: from any reachable state of `Whole*`, a measure of each client and of Stage.Run decreases; a step that begins when the context is done sees it (assumption about database/sql and the driver: they do not start a query with a context that is done) |
| C132 | the reports of a stage count each query its clients sent exactly once | `Ledger*`: `Whole*` joined with the statistics (C104); counts are taken from the trace of the stage and the trx names statements carry, not from the numbering of statistics |
| C133 | the clients of a stage are done before a client of a later stage does anything | `Prog*`: a state machine of any number of stages of `Whole*`, where a stage that returned keeps its clients; every stage of a run is shown to be a run of `Whole*`; refuted if a stage has a runtime, proved if not, and bounded in either case (C131) |
| C134 | a run of stages with iteration limits ends after all stages, in order, having executed their trx as often as configured | `Final*`: the bound of a run of `Prog*` is the sum of those of its stages (C129), as each is a run of `Whole*` with at least as many actions; progress from that of the last stage begun |
| C135 | documented values of data keys that several clients use | `Shared*`: the logs of clients (`Value*`) are tied to one history of the shared generator (`m_run` of ScopeModel.v), every returned value of which was generated for a user with the same client number; refuted for client-id with clients of several client groups |
| C136 | clients do not get each other's numbers of a shared auto-inc key | `Unique*`: C04 and C11 along the same histories; proved for client-group scope, refuted for exec-group scope |
| C137 | reports of every stage are in its csv file; existing files are not changed | `Maker*`: making reporters over a file system, stage after stage; joined with `Serve*` for what happens if it fails; refuted if two stages name the same file |
| C138 | stats.disable; the reporters of remotes | `Maker*`: the same for remotes; refuted for stats.disable |
| C139 | the times in reports account for the whole runtime | `Clock*`: the times of [Start], ticks and [Stop] as given, increasing numbers; invariant over ticks; refuted for the end |
| C140 | QPS and TPS are queries per second | `Qps*`: time.Duration.Seconds and the division over Flocq's binary64, joined with the lines of `Report*`; refuted for instances whose intervals differ |
| C141 | no iteration limit is exceeded in a run of stages, whatever else happens | `CapProps`: every stage of a run of `Prog*` is a run of `Whole*`, hence of `Loop*`, also if it has not begun or was stopped; the bounds of C115 and C116, and that of groups with DDL |
| C142 | with iter and iter-clients, clients stop only when one of them is reached | `Both*`: an invariant that ties the shared counter to the iterations begun and the clients that ended; refuted by a run, with the largest shortfall proved instead, also for any combination with iter-exec-group (`client_reason`) |
| C143 | with iter-clients and iter-exec-group the lower one counts | `Min*`: an invariant over both counters: what was counted below the limits has been begun, as long as no client was stopped by iter-clients; then as C142 through `configured` |
| C122-C124 | from the configuration file to the values of executions, with the built-in generators in place of arbitrary ones; the registry | the documented values are an invariant of each generator of a client (C07-C13 per call); number of values = number of placeholders for each slot; induction over registrations |

## Areas

| files | code in /repo | left out or simplified |
|-------|---------------|------------------------|
| `Scope*`, `StmtModel`, `CallProofs`, `ServedProofs`, `RunProofs`, `GroupProofs` | `finch.go` 30-114, `data/scope.go` | generators are arbitrary state machines; a value is what the machine returns |
| `Workload*`, `WalkProofs`, `FlatProofs`, `InstanceProofs`, `WireProofs` | `workload/workload.go` | DSNs and databases of client groups are opaque |
| `Gen*`, `Gaps*` | `data/integer.go`, `data/string.go`, `data/id.go`, `data/column.go`, `data/generator.go` | the random source is an argument; the normal distribution is an oracle; float64 of int-gaps is IEEE binary64, NaN and infinity convert to int64 as on amd64 |
| `Limit*` | `limit/data.go` | MySQL is an oracle; limiter operations are atomic where the code holds the mutex |
| `Rate*` | `limit/rate.go` | the ticks of `x/time/rate` are given; their spacing is a hypothesis where used |
| `Iter*`, `Client*`, `StopProps` | `client/client.go` | MySQL, contexts and permits are oracles; one event list per client; C98 has the hypothesis that a query with a done context fails |
| `Value*` | `client/client.go` 226-351 with `data/scope.go` `ScopedGenerator` and `data/column.go` | only generators that one client uses; what a result scans into a generator is an oracle; generators shared by clients are oracles |
| `Total*` | `Collector.Watch`, `Trx.Record`, `Trx.Error`, `Trx.Swap` on the statistics themselves, `stage.Prepare`'s loop over clients; joins `Client*`, `Stats*`, `Collector*` | names of trx stand for the `*Trx`; what happens to one `*Trx` is any interleaving of the client's recordings with the collections |
| `Boot*` | `main`, `boot.Up`, `Client.Run`; joins `Config*`, `Serve*`, `Remote*` | the parsed command line and the files are given; CTRL-C before the program listens for it is left out; of time only the order (forced exit after CTRL-C) |
| `Net*` | joins `Api*` and `Remote*` with a network: attempts of requests (`proto.go`), their handlers, late attempts, lost answers, processes started again | bodies of answers other than the stage, pings and statistics are not tied to a remote (sent at any time by anyone); an answer reaches a remote after its handler has returned |
| `Loop*` | the loop of `Client.Run`: joins `Iter*` (checks at its head, shared counters) with `Client*` (statements), for all clients of a stage; `LoopProps` joins it with `Config*`, `Trx*`, `Pipe*` and `Workload*` | one step is one check or one statement; all clients may run at once (exec groups one after the other are among the interleavings) |
| `Pace*` | joins `Loop*` with `Rate*`: the waits for permits in `Client.Run` (client.go 258-266); `PaceProps` joins it with `Config*`, `Pipe*` and `Workload*` | time is a number attached to each step; ticks of a limiter of rate N at least 10^9/N ns apart (x/time/rate with burst 1) are a hypothesis; all limiters exist from the start of the run |
| `Load*` | joins `Loop*` with `Limit*`: `Limit.More` and `Limit.Affected` in `Client.Run` (client.go 310-339); `LoadProps` joins it with `Config*` and `Pipe*` | the unit of interleaving is one single limit checked or counted; the other effects of the client's step are made with the execution; affected rows are given by the environment; the identity of a limit is that of its statement (trx and position), which C120 assumes to be different for different statements |
| `Data*` | `data/generator.go` (registry, `factory.Make`, `int64From`), the constructors' reading of parameters, `Format`, `Copy` and `Values` of all built-in generators behind one interface; joins `Gen*`, `Gaps*` with `Value*`, `Pipe*` and `End*` | random numbers, the letters' source and xid are given per call; whether `ParseFloat` accepts a string is an argument; a call that panics or does not return is one without values (excluded by the theorems' hypotheses); a generator's own random source is not state |
| `Send*` | `client/client.go` 285, 319 (`fmt.Sprintf` of a statement that is not prepared) on the values themselves; joins `Data*` and `TrxSent*` | verbs d, s and v and missing values only; a verb for another kind of value is not modelled (excluded by the theorems) |
| `Whole*` | `stage/stage.go` 118-235 with the clients of `client/client.go` 173-357 as one system; joins `Stage*`, `Loop*` and `Pipe*` | a step of a client may take place as if its context were not yet done; a client group's runtime of 0 counts as one; no blocking by rate or data limits; without a done context reconnecting succeeds at the first try or the client fails, it does not go on forever |
| `Tally*` | no code of its own: `Whole*`, `Pipe*`, `Trx*` and `Total*` joined | as there; statistics are collected once, when the clients are done (no periodic report) |
| `Halt*` | no code of its own: `Whole*` after its contexts are done | as there |
| `Ledger*` | no code of its own: `Whole*`, `Pipe*`, `Trx*` and `Total*` joined | as there |
| `Prog*` | `compute/server.go` 51-67, 70-181 joined with `Whole*` | one instance, no errors of Prepare, no `--test` |
| `Final*` | no code of its own: `Prog*` and `Pipe*` joined | as there |
| `Shared*`, `Unique*` | no code of its own: `Data*`, `Value*` and the shared generators of `Scope*` joined | the uses of one generator by the clients are those of a history of `m_run` (hypothesis `takes_part`) |
| `Maker*` | `stats/reporter.go` 32-93, `stats/csv.go` 22-57 and 121, `stats/stdout.go` 35-70, `stats/remote.go` 29-40, `compute/server.go` 96-101, `compute/client.go` 98-112 | the lines of reports are given (`Report*`); files are not removed meanwhile and writing succeeds; the reports of a stage end before the next stage begins |
| `Clock*` | `stats/collector.go` 75-96, 134-158, 229-252, 292-300, 335-339, 379-395 | one instance; times of ticks and how long a report takes are given; what is counted is in `Stats*` and `Total*` |
| `Qps*` | `stats/csv.go` 86-104, `stats/stdout.go` 100-118, `stats/collector.go` 296-300 | float64 is IEEE binary64 as in `Gaps*`; the text of floating point numbers is given (`Report*`) |
| `CapProps` | no code of its own: `Prog*`, `Whole*`, `Loop*` and `Pipe*` joined | as there |
| `Both*` | no code of its own: `Iter*` (client/client.go 225-238) and `Prog*` joined | as there |
| `Min*` | no code of its own: `Iter*` (client/client.go 225-238) and `Prog*` joined, for C143 | as there |
| `End*`, `TrxOrder*` | no code of their own: `Workload*`, `Client*`, `Value*`, `Trx*` and `Pipe*` joined | as there |
| `Stats*`, `Collector*` | `stats/stats.go`, `stats/collector.go`, `stats/remote.go`, parts of the reporters | the bucket function is arbitrary; counters are unbounded |
| `Config*`, `Dsn*` | `config/*.go`, `dbconn/*.go`, `finch.go` 164-176 | YAML decoding; records hold the decoded strings |
| `Trx*` | `trx/trx.go` | file contents are lists of lines; regular expressions are hand-written scanners, described at each definition |
| `Api*` | `compute/api.go`, `compute/server.go` | each handler is a thread; a step is a locked section, an unlocked access or a channel operation |
| `Proto*` | `proto/proto.go`, `compute/client.go` 105-128, 187-225 | the HTTP transport chooses freely how much of a body it reads |
| `TrxMod*` | `trx/trx.go` 250-366, the modifiers | as `Trx*` |
| `Report*` | `stats/reporter.go`, `stats/csv.go`, `stats/stdout.go`, `finch.go` 152-155 | the text of floating point numbers and the rates are given; the alignment of the tab writer and files are left out; percentiles are decimal fractions or NaN |
| `Serve*` | `compute/server.go` 50-194, over all stages | remotes are boot and done messages; API.Stage returns at once; Prepare and Run of the local instance are outcomes |
| `Remote*` | `compute/client.go` 63-185 | answers of the server, outcomes of the functions called and the schedule are arbitrary; a request is one step |
| `Url*` | `proto/proto.go` 107-119, `compute/client.go` 35-47, `compute/api.go` 244-265, 424-449, 500-503, `finch.go` 164-173 | Go's url.Parse, ParseQuery and QueryEscape from their documentation |
| `Pipe*`, `PrepProofs` | `stage/stage.go` 46-116, `compute/server.go` 103, `finch.go` 176-179 | joins `Config*`, `Trx*` and `Workload*`; the connection test is left out |
| `Driver*` | `dbconn/factory.go` 44-61, 225-232, go-sql-driver v1.7.1 `ParseDSN`, `FormatDSN`, `normalize` | which parameter lists the driver accepts and how it prints them is given |
| `Stage*` | `stage/stage.go` 118-235 | only the life of a client: runs, finishes, sends itself |

## Trusted base

* Coq's kernel.
* The reading of the Go source: every model definition cites the lines it follows.
* What `Print Assumptions` prints under each theorem in the `*Props.v` files, see "Assumptions".

## Assumptions

Every theorem named in `MANIFEST.json` is closed under the global context (no axioms at all), except
those of C13 and C79 in `GapsProps.v`, of C122-C124 and C135-C136 in `DataProps.v` and `SharedProps.v` (whose generators include int-gaps) and of C140 in `QpsProps.v`.  Flocq's theorems are about Coq's real numbers, so these use
four axioms of Coq's standard library:

* `ClassicalDedekindReals.sig_not_dec`
* `ClassicalDedekindReals.sig_forall_dec`
* `FunctionalExtensionality.functional_extensionality_dep`
* `Classical_Prop.classic`

(C13_refuted and C79_refuted also list them because Flocq's operations carry proofs.)

`coqchk -o` on all compiled `*Props` files accepts them and lists these four axioms only.

## Not modelled

Logging, debug output, CPU profiling, YAML decoding, the HTTP library, the MySQL driver and
server, wall-clock time, Go's memory model below the granularity of the atomic steps stated in
each model, the exact distribution of random numbers, and the parsing of the command line (go-arg).

## Results

`MANIFEST.json` has one entry per property.  "proved": the statement holds for the whole model.
"partial": either the statement is false of the code, in which case a theorem `..._refuted` has a
counterexample and the note begins with REFUTED, or a hypothesis beyond the statement is needed.
In both cases the strongest version found to hold is proved beside it.

## Findings

Counterexamples in theorems (see the `_refuted` theorems):

* C02: global scope never gets a generator: the run level array has the constant 1 at the global index.
* C04: exec-group and workload scope keep their maps by the client's number within its client group.
* C05: one-time scopes have the nil test inverted.
* C06, C48, C56: a name that is the beginning of another one corrupts it (row scope, params, placeholders).
* C07-C10, C13, C79: accepted parameters of the integer generators that crash or leave the range.
* C17: `rows: 0` makes a nil pointer a non-nil interface; the first check panics.
* C19: `database-size` closes its rows before reading them. C19_clients_stop: all clients of a stage together execute the
  statement only a few times, however small the database is.
* C24: user-given names like ddl1 join automatic exec groups.
* C28: client groups without iter-exec-group are not limited by that of their exec group; 2^32 wraps.
* C29, C30, C60, C62: a trx that begins with an idle time is recorded under the trx before it, or panics
  (then its first rows written are not counted against the limit).
* C31: Eabort is 0, so a duplicate key reconnects.
* C32: no ROLLBACK after the last statement of a transaction fails.
* C33: statements are not prepared again after a reconnect.
* C34: a cancelled PREPARE or ROLLBACK is reported as an error.
* C37, C38, C39, C40, C41, C42, C63: statistics: minimum 0 after an empty part; percentiles in one bucket;
  lost events at a swap; old error counts on stdout; mixed intervals; empty forced reports; aliased queue.
* C43, C44, C47, C64, C65, C66, C67, C70: configuration precedence and interpolation.
* C46: two trx files with the same name: the first one's statements are lost.
* C49, C50, C51, C53, C73, C74, C75, C76: protocol: stage ID unchecked while a stage ends; no second boot;
  overlapping requests counted twice; no end without lost remotes; --test never releases remotes; a place
  given to a remote that left; a boot error sent as an empty body.
* C52: a retried request continues with what is left of its body.
* C55: `copies: 1` has copy number 0.
* C59: qps-exec-group and tps-exec-group only count in the first client group.
* C77: trx files with equal base names overwrite each other on a remote, a file listed twice fails.
* C78: exec groups start after the runtime of the stage: unless finch is stopped, every exec group is started
  (`C78_refuted_always`).  Their clients then do nothing (`C98_nothing`).
* C80: a comma in a compute's name shifts CSV columns; a percent sign on stdout is taken for a verb.
* C81: the documented percentile P999, also the documented default, is refused when configured.
* C82: the default set by validation switches the combined line of several instances off.
* C85: `disable: true` only skips validation: the stage is run if its number of instances is set, hangs the
  program if not, and makes it panic if it has no trx.
* C86: `instances: 0` is accepted and hangs, even on CTRL-C; several instances without --server wait for ever.
* C88: a remote that cannot fetch trx files or make its collector gives up without telling the server.
* C89: remotes collect and send statistics though they are disabled.
* C92: an inserted ID saved in a globally scoped data key is accepted and makes the allocator panic.
* C93: two trx of a stage that configure a data key differently both get the generator of the first one; a later
  stage gets the generator of the earlier stage for a stage scoped key, whatever it configures.
* C94: of two trx with the same name the second one is run twice.
* C95: a user name with a colon is cut at the colon, the rest goes to the password; a password file that
  ends with a newline gives a password that ends with a newline.
* C96 holds for the messages about the connection.  Outside the claim: with `--debug`, `config.go` 79 and 136 and
  `boot.go` 47 print the configuration with the password and the DSN.
* C98: a client with only idle times never looks at its context and goes on for ever (without an iteration limit).
* C99: a key of client scope gets a new value after every failed statement that finch recovers from, on the same
  connection (the consequence of C60 for the executed values).
* C100: a statement that both uses and saves a column (a walk over a table) leaves the old value for the
  statements after it in the trx: the scoped generator keeps what it returned first in this trx.
* C100: when the SELECT finds no row, the statements after it get the value saved in an earlier run of the trx,
  not nil as the comment at client.go 269-272 says.
* C97: `RedactedDSN` ignores the error of `ParseDSN` and writes to the nil result: every DSN that the driver refuses
  (any without slash) crashes the program, before `sql.Open` could return the error.
* C108: `tls.disable: true` does not keep a connection to an Amazon RDS host from using TLS; only `disable-auto-tls` does.
* C109: a remote whose report of a successful boot is not answered within a second sends it again. If the server is still handling the first, both count, and a stage of two remotes runs though one has never prepared it (C109_refuted). Proved if no attempt is given up while it is handled, but for requests for the run signal.
* C110: the same with the report that the stage is done, after half a second: the stage ends though another remote still runs (C110_refuted).
* C106: with --client the program exits with 0 even if the stage could not be fetched, prepared or reported
  (`Client.Run` swallows the error), and after CTRL-C even if stages were cut off or not run.
* C133: a stage whose runtime elapsed waits 10 ms for its clients (`stage.go` 192-215), prints a warning and returns; the next stage begins
  while such clients still hold their connections and, e.g. after an idle time, which is a plain sleep (`client.go` 243), try one more query.
* C142: a client that has reached its own iter still increases the counter of iter-clients before it stops (`client.go` 230-235), so with
  both limits the other clients may stop early: two clients with iter 3 and iter-clients 5 may execute 4 iterations.
  Likewise clients stopped by iter-clients have been counted for iter-exec-group: three clients with iter-clients 1 and one
  without, all with iter-exec-group 6, may execute 3 iterations in total (C142_limits_refuted).
* C140: the combined line divides the queries of all instances by the interval of the instance whose statistics came first (`csv.go` 86,
  `collector.go` 43): if a remote's interval is longer or shorter, the combined QPS is wrong by that factor and depends on the order of arrival.
* C139: `Stop` does not collect if the last report is less than half the frequency ago (`collector.go` 248-250): with `runtime: 10s` and `freq: 3s`
  the last second is in no report (cf. C42).
* C137: a csv file is opened with O_EXCL for every stage (`csv.go` 31). If `_all.yaml` names one, the first stage runs and then the program
  ends with "file exists": no two stages in one directory can report to a named csv file. Also, the file is created before the percentiles
  are checked, so that a run with corrected percentiles fails as well.
* C138: a remote does not look at `stats.disable` (`client.go` 98-112): it prints and sends statistics. If the percentiles are invalid, which the
  server has not noticed, the remote returns before it reports a boot error, and the server waits for it.
* C135, C136: `ScopedGenerator` keeps the values of several clients by client number only (`scope.go` 207-211, 231-241), and client numbers
  are counted per client group. With exec-group or workload scope the clients of different client groups with the same number share one
  entry: a client-id key returns the numbers of the other client, and an auto-inc key gives both clients the same number, so that both
  insert the same primary key (C04 seen from the executed statements). With client-group scope this does not happen.
* C127: a statement that is not prepared is a format string even if it has no data keys: `LIKE '%x'` is sent as
  `LIKE '%!x(MISSING)'`. And `quote-value` of a saved column is documented as default yes; the code's default is false, so that a
  saved string is written without quotes.
* C122, C123: nothing compares the number of values of a generator with the placeholders of its key. `@d AND @PREV` with
  an int executes with nil for @PREV; `@r AND @n` with an int-range for @r executes with the end of the range for @n.
  A client-id with a parameter but without ids has no value at all.
* C91: a trailing slash of the --client address becomes part of the path, before the default port.

Seen while modelling, not stated as theorems of their own:

* A statement with the idle modifier never executes its SQL and skips the boundary of its trx.
* A modifier without argument (`-- idle`, `-- rows`, `-- copies`) panics with an index out of range; a
  modifier `:copies: 2` recurses for ever; a line `--` becomes part of the SQL and comments out the rest.
* `copies` with save-columns is always refused as a duplicate column; with `copies: 0` nobody sets the column.
* A trx without statements (`copies: 0`) makes the allocator panic.
* A saved column of stage scope is refused as duplicate in the next stage.
* Stats freq "0" is refused though documented; TLS settings are never validated; an invalid --dsn panics
  (RedactedDSN dereferences nil); the trailing newline of a password file becomes part of the password.
* `iter-clients` and `iter-exec-group` are truncated to 32 bits; `clients: "0"` is accepted; instances "0"
  blocks the server for ever with a local instance and starts at once without.
* Data limits on SELECT are ignored silently; a failing SHOW TABLES leaves a broken query in the size limit.
* GET /boot and GET /run handlers outlive their clients (2 s and 60 s timeouts) and act for them later.
* Client.Run of compute runs only one stage.
* proto.request cancels its context before it reads the body: a body not read yet can fail with "context canceled",
  which is not retried.
* A remote is called by its hostname, so two on one host are taken for one.
* str-fill-az copies made in the same nanosecond return the same strings.
* Rows of transactions that are rolled back count for row limits; each copy made by `copies` has a limit of its own.
* A host "[::1]" without port becomes "[[::1]]:3306"; a TLS cert without key is ignored silently.
