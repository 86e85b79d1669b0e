# Formal model of astro-run in Rocq (Coq 8.16.1)

The model is executable Gallina, one file group per area of the code:

| file | contents |
|---|---|
| `X_model.v` | the code, function by function; every definition cites `/repo` file and lines and names simplifications |
| `X_spec.v`  | small vocabulary used by the theorem statements, independent of the model's helpers |
| `X_proof.v` | lemmas and proofs |
| `X_props.v` | only the property theorems (`exact lemma.`), `Print Assumptions`, and non-vacuity examples |

Conventions

* A Rust `String` is a Coq `string` (its UTF-8 bytes). `Result` is `result A`; errors mirror `types/error.rs`. A panic is an explicit value.
* `HashMap` is an association list with distinct keys; its order *is* the (arbitrary) iteration order, so a theorem about all lists is a theorem about all iteration orders.
* Integers are `N`/`Z`; the `usize` bound of `parse::<usize>` is explicit (2^64).
* Shared mutable state behind a `Mutex`: one lock section = one atomic operation of a state machine. A function that takes a lock twice is two operations, and theorems quantify over every interleaving (every list of operations).
* External code (user plugins, runners, actions, glob matching, humantime parsing, GitHub, the OS process, the network) is an arbitrary function or an arbitrary schedule supplied from outside: theorems quantify over it.
* `*_refuted` theorems exhibit, on the faithful model, an execution contradicting the English expectation; the property is then listed `partial` and accompanied by the strongest true statement. `*_partial` theorems prove part of the statement.

## Plan per property

| id | modelled | proof |
|---|---|---|
| C01-C03 | `types/id.rs` Display / TryFrom on strings, decimal printing and `usize` parsing | string induction; round trip, exact acceptance, injectivity on slash-free parts, clash witness |
| C04-C06 | `signals/signal.rs` as a state machine over cancel/timeout/is_*/poll by any task | induction over operation lists; a history specification (first raising op, first poll after it) |
| C07 | `signals/mod.rs` registry + heap of signals | refinement of operation histories |
| C08-C11 | `stream.rs` machine; `end` split in its two lock sections per thread | invariants over all interleavings; race witness for C09 |
| C12-C13 | `types/condition.rs` with an arbitrary glob oracle | list induction, iff statements |
| C14 | `condition_matcher.rs`, two lock sections | decision table (iff) + machine invariant for the cache |
| C15 | `user_config.rs` `validate` | iff + permutation invariance |
| C16-C19 | `workflow/parser.rs`, `workflow/builder.rs`, `actions.rs` | exact functional characterisation of the built workflow |
| C20 | accepted cyclic configs | refuted by a concrete accepted config whose every run never completes (invariant over all schedules); positive half is C35 |
| C21-C22 | `plugins/plugin_driver.rs`, `execution_context/mod.rs` `call_on_*` | trace equality by induction over the plugin list |
| C23-C27 | `ExecutionContext::run` as a machine over stream, step signal, job signal and clock | invariants over all schedules |
| C28-C31 | `workflow/job.rs` | machine over all schedules with arbitrary step outcomes |
| C32-C37 | `workflow/mod.rs` run loop, channel of capacity 10, spawned job tasks | invariants over all interleavings |
| C38-C43 | `scheduler/default.rs`; also with `schedule` split at its lock sections | multiset counting invariants |
| C44-C45, C53 | `runner/src/metadata.rs`, `PathBuf::join`, `astro_runner.rs` cleanup | path algebra; clash witness |
| C46 | `runner/src/docker.rs`, `executors/docker.rs` against a POSIX-shell word splitter | lexer round-trip |
| C47-C48 | `runner/src/command.rs` read loop over every interleaving of two line streams | invariant; loss witness |
| C49-C52 | `executors/*.rs`, `astro_runner.rs`, `utils.rs` | decision functions and executor machine; witnesses for the hang |
| C54-C57, C59-C61 | `remote-runner/src/client.rs`, `runner_server.rs` | machines over network schedules |
| C58 | `workflow/step.rs` | algebraic |
| C62 | `astro-run-protocol` + serde JSON of the message types | encoder/decoder round trip |
| C63 | serde derive/untagged decoding of the user config | iff statements over an abstract YAML value |
| C64 | `Display`/`FromStr`-like text forms in `signals/signal.rs`, `types/workflow_log.rs` | finite case analysis lifted to all strings |
| C65, C91 | end of `workflow/mod.rs` run versus job tasks still alive | refuted by a run in which a doubly started job outlives the result; exact companion C91: only extra instances do |
| C66, C92 | the two `panic`/`unwrap` sites of `ExecutionContext::run` reached through the job registry | refuted by the doubly started job; invariant `own_run`/`cinv_run` for the exact condition C92 |
| C67 | `scheduler/default.rs` filter, as it holds | decision-table iff over all states |
| C68 | `docker_name` | digest-free naming: case analysis on the printed ids |
| C69 | `runner/src/plugin.rs`, `astro_runner.rs` before/after hooks | fold over the hook list, trace equality |
| C70, C71 | `executors/*.rs` as a machine over inputs (file system, child, signals, select choice) | exact verdict as a function of the input history; resting states characterised |
| C72-C74 | `runner_server.rs` event dispatch, `client.rs` broadcast and load counters | machine invariants; histories |
| C75 | JSON codec of the protocol | printer/parser round trip by structural induction, plus the exact domain |
| C76-C79 | `user_config.rs` serde derive, serde_yaml mapping semantics on node trees | iff statements, permutation/unknown field invariance |
| C80 | `types/error.rs` PartialEq and Display | case analysis; injectivity of the texts |
| C81-C85 | builders (`astro_run/builder.rs`, `execution_context/builder.rs`, `plugins/builder.rs`, runner and server builders), logger, payload | last-writer-wins by fold induction; logger machine over interleavings |
| C86-C90 | exact companions of the partial C03, C06, C09, C14, C38/C42 | iff statements |
| C93, C94 | nesting of ids; finality of step/job/workflow results | algebra; invariants over all continuations |
| C95-C98 | `runner/src/command.rs` down to bytes: two pipes, line splitting, UTF-8 check, select, wait | refinement to the line-level model; potential function for boundedness; stuck-state invariant for the hangs |
| C99-C101 | one step on the built-in runner: engine machine x runner task machine x stream x signal | product machine, simulation onto both components |
| C102-C104 | one step on a remote runner: engine x client x wire x server | same |
| C105-C107 | a whole workflow whose steps run on the machines of C99/C102 | projection onto the workflow machine (`flow_run`) and onto each step's machine; every result traced back |
| C108 | from every reachable state of those machines, a continuation to the workflow's result | measure on phases: each unfinished step can be ended (generic `ends_steps`, instantiated by the liveness lemmas of C101/C104), each job task and the workflow task then advance; C92 excludes crashes |
| C109 | C108 and C20 for whatever the builder returns | dichotomy on cycles of the dependency relation (pigeonhole on chains) |
| C110 | executions stamped with the clock (`wtimed`), every event that carries times judged against the stamps | invariants of the step, job and workflow tasks relating pending times to the stamps of emitted events (`SI`, `JI`, `MI`, `WI`) |
| C111 | `grounded` jobs (well-founded dependencies), the composed system of C105/C107 | every run settles (C108's argument without acyclicity); started jobs are grounded by induction on the run; cycles by pigeonhole on chains |
| C112 | `Worker_model.v`: engine step, client, transport (C102) with a task at the server that the scheduler chose (each server has its own plugins and configuration), which runs the built-in runner (C47-C58) and forwards its stream | two projections (outward, inward) of every execution onto the two component models; invariant relating what was said, read, posted and sent; measure for the end |
| C113 | `Chain_model.v`: the composed system of C105 with the server of C112 as the runner's side | `chained` is faithful and tracks the engine (via C112's outward projection onto C102), then C105's generic argument and C112_result per step |
| C114 | same, executions without signals and faults | generic removal of transitions that hand on a signal; C112's signal and result theorems |
| C115 | same | C108/C111's generic argument with C112_ends for the steps |
| C116 | Outcome_spec: the denoted outcome (job and step states) from `matches` (conditions) and `res` (state of each step that is run); any finished `wrun` has it; instantiated for the three systems | from C36/C37 and the job stories, induction over the step story; the order-dependence of the workflow state refuted by two executions |
| C117 | Whole_spec: the same in terms of the user's config; composition of C77_build, C116 and the engine projections; the repository's integration tests as Examples over all schedules | composition |
| C118 | Spawn_model: the executors' `into_command` down to the spawned process; kills and starts in every `xrun` | C98, x_spawn, induction over the executor's transitions |
| C119 | Github_model: condition_matcher.rs at request level, GitHub an arbitrary function of credential and request; Github_spec: the exchange as a relation | equality with the relation, then case analysis; induction over the sequence of checks; refinement to Cond_model's abstract answers |
| C120 | The executions of Workflow_model; spec Reach_spec (possible_state, job_order) | Constructive: a run following any dependency-compatible order is built (jobs one after another, each step ending as prescribed); an order in which only dependents of a chosen bad job come after it gives its state; conversely results come in after those of all dependencies. Witness for jobs started twice. |
| C121 | Sched32_model: the scheduler with i32 counters, overflow checks on or off | simulation with Sched_model by induction over the history; invariant on the counters; a history of 2^31 calls built by induction |
| C122 | Rpc_model: client and server stubs, over the JSON codec of Json_model; a service is any four functions | the codec's exact round trip (C75) on request and answers; induction over the stream's items |
| C123 | `json_codec.rs` decoder = serde_json's reader, down to bytes | independent RFC 8259 grammar as inductive relations; soundness and completeness of the reader by mutual induction |
| C124 | derives of all message types (`Serde_model`) behind the reader of C123 | independent schema table and one inductive relation document/canonical form; per type: reader and writer do what the schema says, composed by combinators |
| C125 | whole-system models of C105/C107/C113 with every action classified as work, waiting or printing (`Pace_spec`) | ranking function: engine phases, runner tasks, unread log lines, channel; every working action lowers it or is one of the finitely many of C35 |
| C126 | unending executions of the same models; weak progress assumption | C125 bounds the work, C108/C115 show that some work can always be done until there is a result; together no execution can go on without one |
| C127 | `Fleet_model`: one AstroRun, its contexts and any number of runs sharing clock and signals | projection by induction on the history: the part of a run is a `sysrun` with the other runs' effects as environment; `_refuted` witness for shared job ids |
| C128 | the same model, runs whose workflows have disjoint job ids | C108/C115 transported through the projection and lifted back; a simulation (`Fleet_iso`) shows that the run cannot tell the history from one in which nobody calls cancel_job |
| C129 | the same model; runs started after earlier runs with the same job ids are over | the simulation of C128 with signals made before the run's start forgotten: a run only ever holds signals it entered itself |
| C130 | unending executions of the model of C127; weak progress assumption per run | each action of the whole program is, for one run, its own action or something done by its environment (one step of C127's projection), so that the counting argument of C126 goes through at the level of the program |
| C131 | unending executions of the model of C127; weak progress assumption per job task | the per-job part of the counting argument of C125/C126 (the work left to one job task decreases with each of its actions, others' actions do not touch it); a job task that is not over is never stuck |
| C132 | Drop_model.v: the model of C127 with an action that drops the future of a run; jobs' reports to it are lost | forward simulation by the model without the action, in which the run is merely not attended to; finite histories and unending executions; then C130 |
| C133 | the same | invariant of the run's own part after the action; simulation, then C131 |
| C134 | the same | a run at rest takes no action outside its steps any more, hence C129's condition holds of the new run in the simulating history; then C129 |
| C135 | `Dispatch_model`: the model of C127 with the client's table and the scheduler's machine (C39-C43) in place of the arbitrary placement | invariant over histories (who waits, which call is whose, what was offered); projections to a `fleet_run` and a `sched_run` |
| C136 | the same | the invariant makes each next action possible; a call's rank decreases |
| C137 | the same | invariant: a job's recorded runner, its pending call and its placed steps agree |
| C138 | the same | C43's explanation of an answer, with affinity always on offer and no completion reported |
| C139 | the same | the table only grows and keeps its entries, so the offers are consistent; then C38, C67 and C138 |
| C140 | the model of C135; goings-on restricted to the run's own actions and its scheduler calls | C128's completion for a single run, whose runner picks are now produced by asking the scheduler and taking its locks; a call is at most two actions from its end |
| C141 | unending executions of the model of C135; weak progress assumption that counts scheduler calls as the run's own | the counting argument of C126/C130 with the scheduler's locks added: each step makes at most one call, each call has a bounded number of locks, and a step that waits for a pick can ask or has a call that can go on |
| C142 | `Views_model.v`: a delivery is n+1 calls and a return, each its own transition, interleaved with all transitions of `Workflow_model` | simulation: for receiver k, the state in which every task whose delivery has passed k is already past it; the converse by doing each delivery in one go |
| C143 | the same | invariant: per task, what receiver k got is a common list followed by the event being delivered iff k has been called; a witness for the crossed orders |
| C144 | the same | C32, C36, C37 applied to the history of C142 |
| C145 | the same | a task inside a delivery stays at it whatever others do (invariant); induction on the number of deliveries under way |
| C146 | Farm_model.v: the fleet of runs (Fleet_model) with chained servers (Chain_model), the client's table and the scheduler machine (Dispatch_model), steps sent where the scheduler answers; Farm_proof: the farm without its servers simulates a dispatch (up to the shared state each run saw last) | simulation `outer_farm`, `farm_watched` |
| C147 | same model; `placed` in Farm_spec.v; every use of an answer is watched along the projection of the fleet to one run (`projection_watched`), then the run is a run of a side that accepts only those answers (`placing`) | induction; C112's result theorem; C139 |
| C148 | same model (C146); every step's side of the fleet, current or past, carries who it was placed on and a run of that server's executor (`side_ok`, `served`) | invariant over farm runs: one action changes at most one side (`fleet_sides`); a side gets a server only by a scheduler's answer (`lock_placed`) about the step the job had given (`farm_gave`) |
| C149 | `Farm_model`, the run's own actions spelled out in `Farmlive_spec` (`own_doing`) | C126 for chained servers says a run that has not ended can move; the move is either its own, or the answer of a scheduler, which its call can be brought to (`goes_or_consults`, simulation to the dispatch of C146); the work bound of C125 makes this end |
| C150 | same; unending executions as in C141 (`tended`, `falls_silent`) | every step makes at most one call of two locked sections, so work and calls together are bounded (`consulted_bound`, C125); fairness increases them until the run ends |
| C151 | `Farm_model`; the outcome function of C116 with every started step failing | C148 (no effect without a placement), C147's argument for every job result received, C116_outcome; C139 for runners without support |
| C152 | `System_model` with the built-in runner (C105); `being_prepared` in `Process_spec.v` says when a process may start | invariant of the whole system (`proc_inv`): a task that has not started its process yet belongs to the job's last call of the runner, whose step has not ended; a task left over from a finished step has started its process or never will (C99's history of the task) |
| C153 | same, with `runner_conf` | C152 with C44's places and the executor's effects (`own_places`) |
| C154 | same system as C113, no new model (`Chainproc_*`) | The pending permits of all sides, current and past, are a sub-multiset of the unused calls: invariant over the run (`chain_run`), counted up to permutation; the late start is a concrete execution |
| C155 | same | Every side's context is a call in the trace (`call_run`); the worker's history by C112; places as in C153 |
| C156 | the builder of docker.rs as in C46 | Induction on the sequence of calls, then C46's argument vector |
| C157 | a fleet of local runs (C127) | Projection of each run out of the fleet (C127), then C152 |
| C158 | as C157, with the runner's directories (C44) | Projection, C153's places, and that the repository and workflow names come first beneath the base |
| C159 | the farm of runs, scheduler and servers (C146) | Projection of each run (C146, C127) and C154 for the count; C148 with the executor's only command for the placement |
| C160 | as C159, with the runner's directories (C44) | C148's placement, the places of the executor's own command, and that the repository and workflow names come first beneath the server's base |
| C161 | as C157 and C159 | C157's and C148's attribution of the kill to a step, and C68's injectivity of names |
| C162 | `System_model` with the built-in runner (C105), `makes` in `Settled_spec.v` | invariant `made_while_prepared` over the runs, from C152's `proc_inv`; a run whose completion is announced has only finished jobs (C65), whose events are a closed job story (C31): every call of the runner is followed by the step's completion, so nothing is being prepared; the paths by C152's effects and C53 |
| C163 | `System_model` with the chained runner (C113), `touches` in `Machine_spec.v` | C155's attribution and C53; the late start is a witness run of a workflow with one step |
| C164 | `System_model` with the built-in runner; `within`, `ordinary` in `Paths_spec.v` | witness run of a job of two host steps, the first timing out; C152's attribution of the removal to a step, then the components of the two kinds of directory (a step number is never "data"); on runners' machines by C155 and C148 |

Not expressible here: memory safety, performance, real time, behaviour of tokio / the OS / docker / GitHub / tonic themselves (they are the environment).

## Findings: where the code departs from the expectation

Every `partial` property is one whose natural English statement is *false of the code as written*; the `_refuted` theorem gives the execution, and an exact companion states what does hold.

| property | what the witness shows | companion |
|---|---|---|
| C03 | ids whose parts contain `/` print alike | C86 |
| C06 | of several tasks polling one signal only the last poller is woken | C87 |
| C09 | two concurrent `end` calls: the later one may win | C88 |
| C14 | two matchers racing on one cache may decide on different file lists | C89 |
| C20 | a config with a dependency cycle is accepted and never finishes | C35 |
| C26 | the timeout is per idle gap between logs, not total | C26_not_early, C26_idle_timeout_partial |
| C33, C65, C66 | a job may be started twice; the extra instance outlives the run or crashes | C34, C91, C92 |
| C38, C42 | version and `max_runs` of a runner are ignored | C67, C90 |
| C45 | ids joined with `-` clash (`a/b-c` and `a-b/c`) | C68 |
| C47 | reading stops when either pipe ends, so output of the other may be lost | C48, C95-C97 |
| C50 | after a command exits by itself the executor waits for a signal for ever: no clean-up, no `on_after_run` | C71, C100 |
| C51 | a signal raised before the task's first check is reported as Failed 1 | C70 |
| C57 | a burst beyond the broadcast capacity drops events | C73 |
| C60 | the remote client's load counters never go down | C74 |
| C127 | two runs that share job ids share signals; the first one's end makes the other crash and wait for ever | C128 |
| C62, C63 | NaN numbers do not survive JSON; ill-typed fields select another variant | C75, C76 |

## Trusted base

1. **Coq 8.16.1's kernel** (`coqc`; no `-type-in-type`, no guard or universe switches, no native compute).
2. **Assumptions**: `Print Assumptions` stands under every property theorem and says "Closed under the global context" for each: no axiom, ours or the standard library's, is used. (A `coqchk`-style listing of all loaded libraries also names the seven constants of `Coq.ssr.ssrunder`; no theorem depends on them.)
3. **The statements**: `*_props.v` with the vocabulary of `*_spec.v`.
4. **The reading of the source** recorded in the comments of `*_model.v`. The code was not run. As evidence for the reading, the repository's own tests are replayed on the model: `Conform_unit.v` (unit tests of `types/`, signals, streams, conditions, errors), `Conform_config.v` (actions, user_config, parser, dynamic actions), `Conform_runs.v` (`tests/on.rs`, for every schedule), `Conform_engine.v` (`tests/signals.rs`, `tests/plugin.rs`, the event count of `tests/protocol.rs`), `Conform_runner.v` (docker, metadata, command, runner plugins, scheduler), `Conform_remote.v` (remote-runner's `tests/signals.rs` and `tests/test.rs` on the model of engine, client, scheduler and server; a run without runners for every schedule), and `C117_test_*` (`tests/test.rs`, for every schedule). What the Rust assertions say, the model computes. These are examples, not claims.

### Modelled

Every non-test, non-generated function of `crates/astro-run`, `crates/runner` (the executors and paths for Unix; `build_command` for both platforms), `crates/remote-runner`, `crates/scheduler`, `crates/protocol` (message types and conversions), and `crates/logger`.

### Modelled with a simplification

* Time: one monotone clock stands for chrono's and tokio's; instants are numbers. Chrono's text form is an open parameter.
* Hooks, plugins, actions, runners: arbitrary functions, supplied step by step; a hook may return anything. Their own side effects on the engine's shared state are arbitrary environment operations.
* Delivery of an event: one transition in `Workflow_model` and all that builds on it; C142 shows that this loses nothing for any single receiver, by `Views_model` where each receiver's call is its own transition. The before-run-step hooks of one step, which produce one value, remain one transition.
* A hook, plugin or runner that panics or never returns: its task takes no further transition from that point. Executions are closed under stopping any task anywhere, so every safety theorem covers it; the theorems on completion say which transitions they need.
* A panic in a task is the explicit phase `SpPanic` (or an explicit value); poisoning of mutexes is not modelled since no critical section panics.
* `HashMap` iteration order = order of the association list, universally quantified.
* Run counts are `Z` in `Sched_model`; C121 relates it to the 32-bit machine (`Sched32_model`).
* Paths are Unix strings without symlinks; `PathBuf::join` on them.
* Oracles (universally quantified section variables): glob matching, humantime parsing, f64 printing/reading, libyaml's composition of text into nodes, YAML's number syntax, equality of serde_yaml `Value`s, UUIDs.
* The shell is the fragment specified in `Docker_spec.v` (words, quotes, escapes) used by the generated docker command line.
* Locks: one lock section is one transition. The scheduler, stream, signal, registry, condition cache and logger machines quantify over every interleaving of those.
* Executor (`Runner_model`): driven by inputs for file system results, child output and exit, signals, and `select!`'s choice.
* Pipes (`Pipe_model`): a child is any sequence of byte writes, closes and an exit; the read ends stay open until `run` returns; failure of `wait` is only in `Runner_model`.
* `Local_*`: the runner's before-run hooks are any function of the context, but cannot replace the signal itself.
* `Distant_*`: the server's runner is arbitrary; polling the signal and completing `send_event` are one transition of the client. `clients.get().unwrap()` cannot fail (C59).
* `System_*`: the runner task of a finished step goes on, its effect on the shared state being none.
* `Fleet_*`: several runs share the clock, the signals and, within a context, the condition cache; task identities are those within a run (only used for whom a signal wakes).
* `Drop_*`: dropping the future returned by `run` is one action that removes the main task's progress and the results' channel's receiver; job tasks go on (tokio::spawn).
* `Farm_*`: as `Dispatch_*`, each server running the built-in runner (`Worker_model`) with its own plugins and configuration.
* `Dispatch_*`: one remote client; the runner chosen is handed to the step in the same action as the scheduler's answer (no await in between, client.rs:39-48); the order in which the table's values are enumerated is an argument of the action, any permutation.
* gRPC: ordered delivery per call, breaking at any point; channel capacities only delay; one start call per server; tokio's broadcast capacity 30 rounds to 32. Tonic's 4 MB limit is a broken stream.
* serde / serde_json / serde_yaml derive semantics are trusted as read; JSON text is read via the value (so the recursion limit inside unknown fields differs slightly); YAML tags are not modelled; typetag is a one-key map.

### Not modelled

`crates/test` macros; the examples; the HTTP and signing below a GitHub request (each answer is an arbitrary input); memory safety, performance, tokio's scheduler fairness (liveness theorems bound the number of working actions, C125, show that work can always go on until there is a result, C108/C115, and so that an execution that never stops working completes, C126).
