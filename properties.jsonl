{"id": "C01", "title": "Printed ids parse back to themselves", "statement": "For every WorkflowId/JobId/StepId, parsing the string the id prints as gives the id back exactly when the printed form is legal: a non-empty workflow id; a job or step id none of whose textual parts contains '/'. Step numbers over the whole 64-bit range are included, and when a part does contain '/', parsing the printed form does not return that id.", "quantifier": "every workflow id, job key and step number (unbounded strings, all u64 values)", "why_tests_cant": "Tests try three literals; the claim is about all strings and all 2^64 step numbers.", "anchors": ["crates/astro-run/src/types/id.rs: Display / TryFrom<&str> for WorkflowId, JobId, StepId"]}
{"id": "C02", "title": "Id parsing accepts exactly the documented format", "statement": "JobId::try_from(s) succeeds iff s is exactly two '/'-free parts joined by one '/', and returns those parts; StepId::try_from(s) succeeds iff s is two '/'-free parts followed by a decimal number (optional leading '+', leading zeros allowed) below 2^64, and returns those parts and that value; every other input is rejected with the documented error.", "quantifier": "every input string", "why_tests_cant": "The set of malformed strings is infinite; overflow and sign handling are boundary behaviour.", "anchors": ["crates/astro-run/src/types/id.rs: TryFrom<&str> for JobId, StepId"]}
{"id": "C03", "title": "Printed ids identify one object", "statement": "Two different job ids (step ids) never print the same string.", "quantifier": "every pair of ids", "why_tests_cant": "A clash needs a specific pair out of infinitely many.", "anchors": ["crates/astro-run/src/types/id.rs: Display for JobId, StepId"]}
{"id": "C04", "title": "First signal wins and is permanent", "statement": "On one signal object the first cancel()/timeout() call succeeds and fixes the outcome; every later cancel()/timeout() returns an error and changes nothing; is_cancelled() and is_timeout() report exactly that first call and are never both true.", "quantifier": "every sequence of cancel, timeout, is_cancelled, is_timeout and poll calls by any number of clones", "why_tests_cant": "Unit tests check one order; the claim is over every history.", "anchors": ["crates/astro-run/src/signals/signal.rs: AstroRunSignal::cancel, timeout, is_cancelled, is_timeout"]}
{"id": "C05", "title": "A raised signal is delivered exactly once", "statement": "Polling recv() yields the raised signal to the first poll made after it was raised, by whichever receiver; every earlier and every later poll on that signal is pending.", "quantifier": "every sequence of operations and every number of receivers", "why_tests_cant": "Depends on the whole poll history.", "anchors": ["crates/astro-run/src/signals/signal.rs: Future for Receiver"]}
{"id": "C06", "title": "A waiting receiver is woken by the signal", "statement": "If a task polled recv(), got pending, and no other task polled the same signal since, then the cancel()/timeout() that raises the signal wakes that task. With several waiting tasks all of them should be woken.", "quantifier": "every history of operations and every number of waiting tasks", "why_tests_cant": "Lost wake-ups only show under particular interleavings.", "anchors": ["crates/astro-run/src/signals/signal.rs: poll stores waker; cancel/timeout take it"]}
{"id": "C07", "title": "cancel_job acts on exactly the running job", "statement": "cancel_job(id) succeeds iff the job is currently registered (started, not completed) and its signal was not raised before; on success exactly that job's signal becomes Cancel and no other job's signal changes; an unknown job gives the error naming it.", "quantifier": "every history of job starts, completions and cancels", "why_tests_cant": "Interleavings of start/complete/cancel over many jobs.", "anchors": ["crates/astro-run/src/signals/mod.rs: SignalManager", "crates/astro-run/src/astro_run.rs: cancel_job", "crates/astro-run/src/execution_context/mod.rs: cancel_job"]}
{"id": "C08", "title": "The log stream loses, duplicates and reorders nothing", "statement": "At every moment the logs a receiver has obtained are exactly a prefix, in order, of the logs sent (type and text unchanged), and a poll is pending or ends the stream only when every log sent so far has been obtained.", "quantifier": "every interleaving of log/error/end calls by any number of senders with polls", "why_tests_cant": "All interleavings, unbounded numbers of logs.", "anchors": ["crates/astro-run/src/stream.rs: StreamSender::log/error, StreamReceiver::poll_next"]}
{"id": "C09", "title": "First end wins", "statement": "The stream's result is the argument of the first end/succeeded/failed/cancelled/timeout call and never changes afterwards.", "quantifier": "every sequence of end calls from any number of sender clones and threads", "why_tests_cant": "The race between the check and the write needs a particular interleaving.", "anchors": ["crates/astro-run/src/stream.rs: StreamSender::end, is_ended"]}
{"id": "C10", "title": "A waiting stream reader is woken", "statement": "If the reader's last poll was pending then the next log/error call or effective end call wakes it; so the reader is never asleep while an unread log or a result is available.", "quantifier": "every interleaving of sender calls and polls", "why_tests_cant": "Lost wake-ups are schedule dependent.", "anchors": ["crates/astro-run/src/stream.rs: waker handling in poll_next, log, error, end"]}
{"id": "C11", "title": "The stream ends iff it was ended", "statement": "A poll reports end-of-stream iff a result has been set and all logs sent so far were read; after the end call a reader polling repeatedly reaches end-of-stream after exactly the number of unread logs, and result() is then available.", "quantifier": "every history", "why_tests_cant": "Unbounded backlog sizes.", "anchors": ["crates/astro-run/src/stream.rs: poll_next, result"]}
{"id": "C12", "title": "Pattern lists: exact matching rule", "statement": "A branch/path filter matches iff some value matches some pattern, when all patterns are valid globs (order of values and patterns irrelevant); when a pattern is invalid, it matches iff the first value matches a pattern listed before the first invalid one. An empty value list or pattern list never matches.", "quantifier": "every glob implementation, value list and pattern list", "why_tests_cant": "Unbounded lists; the effect of an invalid pattern depends on its position.", "anchors": ["crates/astro-run/src/types/condition.rs: is_match_patterns"]}
{"id": "C13", "title": "Condition decision table", "statement": "An event-list condition matches iff the payload's event is listed. A config condition matches a push iff a push section is present, its branch filter (if any) matches the branch and its path filter (if any) matches the changed paths; likewise for pull_request with its own section; any other event does not match.", "quantifier": "every condition and every payload", "why_tests_cant": "Combinatorial space of optional filters.", "anchors": ["crates/astro-run/src/types/condition.rs: Condition::is_match, PushCondition::is_match, PullRequestCondition::is_match"]}
{"id": "C14", "title": "Skipping fails open, and only a definite mismatch skips", "statement": "A workflow, job or step is skipped by its `on` iff it has one, GitHub authorization and a trigger event are configured, the event is push or pull_request (with a pr number), the changed files were fetched, and the condition does not match event/branch/files; in every other case it runs. The files are fetched from GitHub at most once after the first success and later decisions use the same file list.", "quantifier": "every configuration, event, fetch outcome and history of checks", "why_tests_cant": "Needs all failure points of the remote fetch and all call histories.", "anchors": ["crates/astro-run/src/execution_context/condition_matcher.rs: ConditionMatcher::is_match, condition_payload, get_changed_files", "crates/astro-run/src/workflow/mod.rs: Workflow::should_skip", "crates/astro-run/src/workflow/job.rs: Job::should_skip", "crates/astro-run/src/workflow/step.rs: Step::should_skip"]}
{"id": "C15", "title": "Config acceptance rule", "statement": "A parsed config is accepted iff it has at least one job, every job has at least one step, every depends-on key names a job of the config, and at least one job has no dependencies; acceptance does not depend on the order in which the jobs map is iterated.", "quantifier": "every config (any number of jobs/steps/dependencies) and every iteration order", "why_tests_cant": "HashMap order is random per process; configs are unbounded.", "anchors": ["crates/astro-run/src/user_config.rs: UserWorkflow::validate"]}
{"id": "C16", "title": "Built steps are numbered densely and uniquely", "statement": "In a built workflow the map has exactly the config's job keys; job k has id (workflow id, k); the i-th step of job k has id (workflow id, k, i); all step ids are distinct.", "quantifier": "every config that builds", "why_tests_cant": "Unbounded numbers of jobs, steps and action expansions.", "anchors": ["crates/astro-run/src/workflow/parser.rs: parse"]}
{"id": "C17", "title": "Action expansion order", "statement": "The built steps of a job are: the pre steps of all its action steps in order, then every user step (actions replaced by their run step) in order, then the post steps of the actions in reverse order.", "quantifier": "every step list and every action behaviour", "why_tests_cant": "Unbounded lists of actions with optional pre/post.", "anchors": ["crates/astro-run/src/workflow/parser.rs: try_normalize_user_steps"]}
{"id": "C18", "title": "Built steps carry the user's settings and the documented defaults", "statement": "Each built step keeps name, run, on and, when given, continue-on-error, environments, secrets and timeout; the defaults are false, empty, empty and 60m; its container is its own, else the job's, else none, a bare container name meaning no volumes and no security options. Job name, on, depends-on and working directories and workflow name and on are copied (empty lists when absent).", "quantifier": "every config that builds", "why_tests_cant": "Every combination of present and absent optional fields.", "anchors": ["crates/astro-run/src/workflow/parser.rs: parse", "crates/astro-run/src/user_config.rs: Container::normalize"]}
{"id": "C19", "title": "Action lookup precedence and build failure", "statement": "A `uses` step is expanded by the registered action of that name if there is one, otherwise by the action offered by the first plugin that offers one; if there is none, an action fails, an expansion contains another `uses` step, or a timeout does not parse, build returns an error and no workflow; otherwise build succeeds.", "quantifier": "every set of actions, plugins and configs", "why_tests_cant": "All plugin answer combinations and all positions of the failing step.", "anchors": ["crates/astro-run/src/workflow/parser.rs: try_normalize_action, parse", "crates/astro-run/src/actions.rs: ActionDriver::try_normalize", "crates/astro-run/src/plugins/plugin_driver.rs: on_resolve_dynamic_action"]}
{"id": "C20", "title": "Every accepted config can be executed to completion", "statement": "If a workflow builds, then running it finishes once every started job finishes.", "quantifier": "every accepted config", "why_tests_cant": "Only some dependency shapes expose it.", "anchors": ["crates/astro-run/src/user_config.rs: validate", "crates/astro-run/src/workflow/mod.rs: Workflow::run"]}
{"id": "C21", "title": "Every event reaches every plugin once, in order, then the runner", "statement": "Each event (run workflow/job/step, state change, log, step/job/workflow completed) is delivered to every plugin exactly once in registration order and afterwards to the runner exactly once, whatever errors earlier receivers return.", "quantifier": "every plugin list and every pattern of hook errors", "why_tests_cant": "2^n error patterns for n plugins.", "anchors": ["crates/astro-run/src/plugins/plugin_driver.rs: PluginDriver::on_*", "crates/astro-run/src/execution_context/mod.rs: call_on_*"]}
{"id": "C22", "title": "before-run-step hooks compose", "statement": "The step that is run is the original step passed through each plugin's before-run-step hook in registration order and then the runner's, where a hook that returns an error leaves the step as it was.", "quantifier": "every plugin list, hook behaviour and step", "why_tests_cant": "All combinations of failing and succeeding hooks.", "anchors": ["crates/astro-run/src/plugins/plugin_driver.rs: on_before_run_step", "crates/astro-run/src/execution_context/mod.rs: call_on_before_run_step"]}
{"id": "C23", "title": "Step life cycle", "statement": "A step that is run produces exactly: on_run_step, state Queued, then either (the runner refused) state Failed and on_step_completed with Failed and exit code 1, or state InProgress, its logs, one terminal state and on_step_completed with the same state; nothing follows, and all carry the id of the step after the before-run hooks.", "quantifier": "every runner behaviour, log sequence, cancel/timeout timing and schedule", "why_tests_cant": "All interleavings of runner, timer and cancellation.", "anchors": ["crates/astro-run/src/execution_context/mod.rs: ExecutionContext::run"]}
{"id": "C24", "title": "Step logs reach the hooks exactly as sent", "statement": "The on_log events of a completed step are exactly the logs read from the runner's stream, in order, with that step's id and unchanged type and text; all logs sent before the end call are included.", "quantifier": "every log sequence and schedule", "why_tests_cant": "Unbounded log sequences, all schedules.", "anchors": ["crates/astro-run/src/execution_context/mod.rs: run (select loop)", "crates/astro-run/src/stream.rs"]}
{"id": "C25", "title": "Step result mirrors the runner's result", "statement": "Succeeded gives state Succeeded and no exit code, Failed{n} gives Failed with exit code n, Cancelled gives Cancelled and no exit code; the result has start and completion times with start <= completion, and the missing-result panic is unreachable.", "quantifier": "every runner result and schedule", "why_tests_cant": "Panic freedom must hold on all schedules.", "anchors": ["crates/astro-run/src/execution_context/mod.rs: run"]}
{"id": "C26", "title": "Timeout", "statement": "A step that is still running after its configured timeout has its signal raised as Timeout (unless already cancelled).", "quantifier": "every timeout value, log timing and schedule", "why_tests_cant": "Time-dependent; needs all log timings.", "anchors": ["crates/astro-run/src/execution_context/mod.rs: run, time::sleep(timeout) inside loop"]}
{"id": "C27", "title": "Cancellation reaches the running step", "statement": "When a job is cancelled, the step running at that time, or else the next one to run, has its signal raised as Cancel the next time the engine looks, unless that step's signal was already raised; the cancellation is consumed by one step only.", "quantifier": "every cancel time and schedule", "why_tests_cant": "Race between cancel, steps boundaries and timeouts.", "anchors": ["crates/astro-run/src/execution_context/mod.rs: run, job_signal.recv()", "crates/astro-run/src/signals/signal.rs"]}
{"id": "C28", "title": "Job results list every step once, in order", "statement": "A completed, not skipped job's result has exactly one entry per step of the job, in order; entries of skipped steps have the step's id, state Skipped, no exit code and no times.", "quantifier": "every job, runner behaviour and schedule", "why_tests_cant": "Unbounded step lists and outcomes.", "anchors": ["crates/astro-run/src/workflow/job.rs: Job::run"]}
{"id": "C29", "title": "Which steps are skipped", "statement": "Within a running job a step is skipped iff an earlier step was Cancelled, or (no earlier step was Cancelled and) an earlier step Failed and this step is not continue-on-error, or its own condition does not match; skipped steps never reach the runner.", "quantifier": "every outcome sequence, every mix of continue-on-error flags and conditions", "why_tests_cant": "Exponentially many outcome sequences.", "anchors": ["crates/astro-run/src/workflow/job.rs: Job::run"]}
{"id": "C30", "title": "Job final state", "statement": "A job that ran ends Cancelled if some step was Cancelled, else Failed if some step Failed, else Succeeded; a job whose condition does not match is Skipped with no step results.", "quantifier": "every outcome sequence", "why_tests_cant": "Exponentially many outcome sequences.", "anchors": ["crates/astro-run/src/workflow/job.rs: Job::run"]}
{"id": "C31", "title": "Job life cycle", "statement": "A job that runs emits on_run_job, state InProgress, then its steps' events one step after another in step order, then its terminal state and on_job_completed with the same state and the same result that is returned; a skipped job emits only state Skipped. Its cancel signal is registered before on_run_job and removed before on_job_completed.", "quantifier": "every job, outcome and schedule", "why_tests_cant": "All event interleavings.", "anchors": ["crates/astro-run/src/workflow/job.rs: Job::run", "crates/astro-run/src/execution_context/mod.rs: call_on_run_job, call_on_job_completed"]}
{"id": "C32", "title": "Dependencies finish first", "statement": "A job with dependencies emits its first event only after every job it depends on has completed or been skipped.", "quantifier": "every dependency graph, outcome and schedule", "why_tests_cant": "All interleavings of parallel jobs.", "anchors": ["crates/astro-run/src/workflow/mod.rs: Workflow::run"]}
{"id": "C33", "title": "Each job runs exactly once", "statement": "In one workflow run each job is started exactly once.", "quantifier": "every dependency graph and schedule", "why_tests_cant": "Needs a particular completion order.", "anchors": ["crates/astro-run/src/workflow/mod.rs: Workflow::run, waiting_jobs"]}
{"id": "C34", "title": "How often a job is started", "statement": "A job without dependencies is started exactly once; a job with dependencies is started once for every job result the engine receives from the one that completes its dependencies up to (excluding) its own first result, and never after the run has ended.", "quantifier": "every dependency graph and completion order", "why_tests_cant": "Exact count depends on the completion order.", "anchors": ["crates/astro-run/src/workflow/mod.rs: Workflow::run"]}
{"id": "C35", "title": "A workflow run completes", "statement": "With acyclic dependencies the run never waits with nothing to wait for: while it is unfinished some job is running, or a result is undelivered, or a job task crashed; it receives boundedly many results; and when it ends its result has exactly one entry per job of the workflow.", "quantifier": "every acyclic dependency graph and schedule", "why_tests_cant": "Deadlock freedom and termination over all schedules.", "anchors": ["crates/astro-run/src/workflow/mod.rs: Workflow::run"]}
{"id": "C36", "title": "Workflow final state", "statement": "A run workflow ends Succeeded iff no received job result was Failed or Cancelled; otherwise it ends with the state of the last received Failed or Cancelled result. A workflow whose condition does not match is Skipped with no job results.", "quantifier": "every outcome and completion order", "why_tests_cant": "Order dependent.", "anchors": ["crates/astro-run/src/workflow/mod.rs: Workflow::run"]}
{"id": "C37", "title": "Workflow life cycle", "statement": "A workflow that runs emits on_run_workflow and state InProgress before any job event, and its terminal state followed by on_workflow_completed carrying the returned result exactly once; a skipped one emits only state Skipped.", "quantifier": "every workflow and schedule", "why_tests_cant": "All interleavings of parallel jobs.", "anchors": ["crates/astro-run/src/workflow/mod.rs: Workflow::run"]}
{"id": "C38", "title": "The scheduler only picks suitable runners", "statement": "A scheduled runner is one of the offered runners; a step without a host/ container goes to a runner that supports docker; a step with container host/<os> or host/<os>-<arch> goes to a runner that supports host execution and has that os (and arch).", "quantifier": "every runner list, step and scheduling history", "why_tests_cant": "Depends on scheduling history (affinity).", "anchors": ["crates/scheduler/src/default.rs: schedule, pick_runner, pick_docker_runner, pick_host_runner"]}
{"id": "C39", "title": "Run counts are exact", "statement": "If no step is scheduled again while it is outstanding, then at every moment the scheduler's count for a runner equals the number of steps scheduled to it and not yet reported completed, no entry exists for an idle runner, and when all steps and jobs are reported completed the scheduler state is empty.", "quantifier": "every history of schedule/step-completed/job-completed calls", "why_tests_cant": "Unbounded histories.", "anchors": ["crates/scheduler/src/default.rs: schedule, on_step_completed, on_job_completed"]}
{"id": "C40", "title": "Least loaded docker runner is picked", "statement": "A docker step of a job with no affinity goes to the first docker-capable runner with the fewest outstanding steps; none is returned iff no offered runner supports docker.", "quantifier": "every runner list and history", "why_tests_cant": "Unbounded runner lists and histories.", "anchors": ["crates/scheduler/src/default.rs: pick_docker_runner"]}
{"id": "C41", "title": "Job affinity", "statement": "While a job is not completed and the runner its last docker step was scheduled to is still offered, the job's next docker step goes to a runner with that id; host steps never change the affinity; completing the job clears it.", "quantifier": "every history", "why_tests_cant": "History dependent.", "anchors": ["crates/scheduler/src/default.rs: schedule, on_job_completed"]}
{"id": "C42", "title": "A runner's max_runs is respected", "statement": "A runner never has more outstanding steps than its advertised max_runs.", "quantifier": "every history", "why_tests_cant": "History dependent.", "anchors": ["crates/scheduler/src/default.rs: pick_docker_runner, pick_host_runner", "crates/scheduler/src/lib.rs: RunnerMetadata.max_runs"]}
{"id": "C43", "title": "Concurrent scheduling keeps counts exact", "statement": "When schedule calls run concurrently (lock released between reading and recording) the counts still equal the outstanding steps per runner.", "quantifier": "every interleaving of any number of schedule and completion calls", "why_tests_cant": "Race windows.", "anchors": ["crates/scheduler/src/default.rs: schedule (three separate lock acquisitions)"]}
{"id": "C44", "title": "Working directories are contained and separate", "statement": "If owner, repository, workflow id and job key are ordinary file names, then all directories used for a step lie inside the runner's working directory, different steps use different step directories, two steps share the data directory iff they are of the same job of the same workflow and repository, and the step directory is never the data directory.", "quantifier": "every base path, owner, repository, workflow id, job key and step number", "why_tests_cant": "Infinite name space; path joining corner cases.", "anchors": ["crates/runner/src/metadata.rs: MetadataBuilder::build"]}
{"id": "C45", "title": "Container names are unique", "statement": "Different steps get different docker container names.", "quantifier": "every pair of step ids", "why_tests_cant": "A clash needs a specific pair.", "anchors": ["crates/runner/src/metadata.rs: docker_name"]}
{"id": "C46", "title": "The docker command line passes exactly the configured arguments", "statement": "When environment values and volume parts contain none of the characters special inside shell double quotes, and the unquoted parts contain no shell-special characters, the shell command generated for a container step is split by the shell into exactly the intended docker argument vector.", "quantifier": "every docker configuration", "why_tests_cant": "Infinite space of values; quoting bugs need particular characters.", "anchors": ["crates/runner/src/docker.rs: generate_docker_command", "crates/runner/src/executors/docker.rs: into_command"]}
{"id": "C47", "title": "All output of a command is logged", "statement": "Every line a command prints on stdout or stderr is delivered as a log, in per-stream order.", "quantifier": "every output, and every interleaving of the two pipes", "why_tests_cant": "Depends on which pipe is read first.", "anchors": ["crates/runner/src/command.rs: Command::run"]}
{"id": "C48", "title": "Exit status mapping", "statement": "A command run reports Succeeded iff the exit code is 0, Failed{code} for another code, Failed{1} when killed by a signal; what was logged is an interleaving of a prefix of stdout lines (as log) and a prefix of stderr lines (as error), at least one of them complete or cut by a read error.", "quantifier": "every output, interleaving and exit status", "why_tests_cant": "All interleavings.", "anchors": ["crates/runner/src/command.rs: Command::run"]}
{"id": "C49", "title": "Host or docker execution", "statement": "A step is executed on the host iff its container name is host/<os> or host/<os>-<arch> of the machine the runner runs on; otherwise in docker with that image (default ubuntu). A host step the scheduler freshly picks a runner for is executed on that runner's host.", "quantifier": "every container name, os and arch", "why_tests_cant": "Agreement of two components over all names.", "anchors": ["crates/runner/src/astro_runner.rs: create_executor", "crates/runner/src/executors/docker.rs: into_command", "crates/scheduler/src/default.rs: pick_host_runner"]}
{"id": "C50", "title": "A run on the built-in runner always ends and cleans up", "statement": "Every step run by the built-in runner ends its log stream with a result, the step's working directory is removed and on_after_run is called.", "quantifier": "every command outcome, signal timing and filesystem failure", "why_tests_cant": "Needs all failure points and signal timings.", "anchors": ["crates/runner/src/astro_runner.rs: run", "crates/runner/src/executors/docker.rs: execute", "crates/runner/src/executors/host.rs: execute"]}
{"id": "C51", "title": "Cancelled and timed-out steps are reported as such", "statement": "A step whose signal is raised before its command finished is reported Cancelled (cancel) or Failed with exit code 123 (timeout).", "quantifier": "every signal timing", "why_tests_cant": "Race between signal, start and finish.", "anchors": ["crates/runner/src/executors/docker.rs: execute", "crates/runner/src/executors/host.rs: execute", "crates/runner/src/astro_runner.rs: run"]}
{"id": "C52", "title": "Entrypoint scripts always have an interpreter line", "statement": "The entrypoint file written for a docker step starts with '#!' and is the user's script, preceded by '#!/bin/sh' and a newline iff the script does not itself start with '#!'.", "quantifier": "every script", "why_tests_cant": "All strings.", "anchors": ["crates/runner/src/utils.rs: create_executable_file"]}
{"id": "C53", "title": "Workflow cleanup removes that workflow's directories", "statement": "For ordinary names, the directory removed when a workflow completes contains every step and data directory the built-in runner used for its steps, provided all of them came with the same trigger event, and contains no directory of another workflow (or of the same id in another repository) and no cache directory, provided workflows with and without events are not mixed and the workflow is not called \"caches\".", "quantifier": "every set of workflows and events", "why_tests_cant": "Infinite name space.", "anchors": ["crates/runner/src/astro_runner.rs: cleanup_workflow_working_directory", "crates/runner/src/metadata.rs: build"]}
{"id": "C54", "title": "Remote execution is transparent", "statement": "If the connection holds, the log stream and result a client sees for a remotely run step are exactly those of the server's runner.", "quantifier": "every runner output", "why_tests_cant": "Unbounded streams.", "anchors": ["crates/remote-runner/src/runner_server.rs: run", "crates/remote-runner/src/client.rs: run"]}
{"id": "C55", "title": "Remote failures surface as a failed step", "statement": "For every point at which the connection, the server's runner or the signal forwarding can fail, the client's stream still ends with a result: the server's result if it had arrived, otherwise Failed with exit code 1; and the logs received before are kept in order.", "quantifier": "every failure point and every runner output", "why_tests_cant": "All crash points.", "anchors": ["crates/remote-runner/src/client.rs: run", "crates/remote-runner/src/runner_server.rs: run"]}
{"id": "C56", "title": "Remote signals reach the right step", "statement": "A Signal event raises on the server exactly the signal of the named step if it was started and not reported completed, and nothing otherwise.", "quantifier": "every history of run, signal and step-completed messages", "why_tests_cant": "History dependent.", "anchors": ["crates/remote-runner/src/runner_server.rs: run, send_event"]}
{"id": "C57", "title": "Events are forwarded to every connected runner", "statement": "Every engine event emitted after start is forwarded once and in order to every connected runner.", "quantifier": "every event sequence and consumer speed", "why_tests_cant": "Depends on relative speed of producer and consumer.", "anchors": ["crates/remote-runner/src/client.rs: start, on_*"]}
{"id": "C58", "title": "Step/command conversion", "statement": "Converting a step to a command and back keeps every field except the condition, which becomes absent; converting a command to a step and back changes nothing.", "quantifier": "every step and command", "why_tests_cant": "All field values.", "anchors": ["crates/astro-run/src/workflow/step.rs: From<Step> for Command, From<Command> for Step"]}
{"id": "C59", "title": "Only compatible, distinct runners are connected", "statement": "After start, the connected runners are exactly, for each id, the first reachable runner in the url list that reported that id and the client's protocol version.", "quantifier": "every url list and server behaviour", "why_tests_cant": "All orders of failures and duplicates.", "anchors": ["crates/remote-runner/src/client.rs: start, connect"]}
{"id": "C60", "title": "The remote client's scheduler sees completions", "statement": "When all steps and jobs run through the remote client are completed, its scheduler's load counts are back to zero.", "quantifier": "every history", "why_tests_cant": "History dependent.", "anchors": ["crates/remote-runner/src/client.rs: on_step_completed, on_job_completed", "crates/scheduler/src/default.rs"]}
{"id": "C61", "title": "Remote before-run-step hooks", "statement": "The remote before-run-step hook passes the step through every connected runner's hooks in turn and fails as soon as one runner fails; on success the resulting step has no condition and otherwise is the composition of the runners' hooks.", "quantifier": "every set of runners and hook behaviours", "why_tests_cant": "All combinations.", "anchors": ["crates/remote-runner/src/client.rs: on_before_run_step", "crates/remote-runner/src/runner_server.rs: call_before_run_step_hook"]}
{"id": "C62", "title": "Protocol messages survive encoding", "statement": "Every protocol message decodes to itself after encoding to JSON (a context's signal being replaced by a fresh one).", "quantifier": "every message value", "why_tests_cant": "Infinite value space; untagged enums.", "anchors": ["crates/protocol/src/common/json_codec.rs", "crates/protocol/src/lib.rs", "crates/astro-run/src/types/mod.rs: serde derives of all exported types"]}
{"id": "C63", "title": "Config shapes: which variant a YAML value becomes", "statement": "A step mapping with a string `run` is a command step whatever else it contains; one without `run` but with a string `uses` is an action step; otherwise it is rejected. A container is options iff a mapping with a string name, a name iff a string. A condition is an event list iff a list of strings, else a config mapping.", "quantifier": "every YAML value", "why_tests_cant": "Infinite value space.", "anchors": ["crates/astro-run/src/user_config.rs: UserStep, Container", "crates/astro-run/src/types/condition.rs: Condition"]}
{"id": "C64", "title": "Text forms of signals and log types", "statement": "Signals are written `cancel` and `timeout` and exactly those texts are read as signals; log types are written `log` and `error`; a written log type reads back as itself, and of all texts exactly `error` reads as the error type (every other text reads as log).", "quantifier": "every string", "why_tests_cant": "Rejection ranges over all strings.", "anchors": ["crates/astro-run/src/signals/signal.rs: Display for Signal", "crates/astro-run/src/types/mod.rs: WorkflowLogType"]}
{"id": "C65", "title": "Nothing happens after a run has ended", "statement": "After on_workflow_completed no further event of that run (job, step, log) is emitted and every job task has finished.", "quantifier": "every dependency graph, outcome and schedule", "why_tests_cant": "Needs a completion order in which a job was started twice and one instance outlives the run.", "anchors": ["crates/astro-run/src/workflow/mod.rs: Workflow::run"]}
{"id": "C66", "title": "A job task never crashes", "statement": "No job task panics (a step never finds its job's signal missing, and a finished log stream always carries a result), so a started job always reports a result.", "quantifier": "every workflow and schedule, nobody else touching the registry entries", "why_tests_cant": "Depends on the interleaving of two tasks.", "anchors": ["crates/astro-run/src/execution_context/mod.rs: ExecutionContext::run", "crates/astro-run/src/signals/mod.rs: SignalManager"]}
{"id": "C67", "title": "Scheduler suitability, as it holds", "statement": "A runner returned by the scheduler is always offered and suitable (docker support for docker steps; host support and matching platform for host steps) unless an earlier docker step of the same job put the job on that runner and the step's container is host/<os>-<arch>; and when no runner is returned, no offered runner was suitable.", "quantifier": "every interleaving of schedule and completion calls, every runner list", "why_tests_cant": "depends on every history of calls that led to the job's affinity", "anchors": ["crates/scheduler/src/default.rs: DefaultScheduler::schedule, pick_docker_runner, pick_host_runner"]}
{"id": "C68", "title": "Container names within a workflow", "statement": "Two different steps of one workflow, or of two workflows whose ids have the same length (as generated ids do), never get the same docker container name.", "quantifier": "every pair of step ids", "why_tests_cant": "A clash needs a specific pair of ids.", "anchors": ["crates/runner/src/metadata.rs: docker_name"]}
{"id": "C69", "title": "Runner plugins", "statement": "A runner plugin's on_before_run receives the context as changed by the plugins before it, a plugin whose hook fails changes nothing, and on_after_run is called exactly once per plugin, in order, with the context the step was executed with.", "quantifier": "every list of plugins, every hook behaviour", "why_tests_cant": "Every combination of failing and succeeding hooks.", "anchors": ["crates/runner/src/plugin.rs: PluginDriver", "crates/runner/src/astro_runner.rs: run"]}
{"id": "C70", "title": "The result a built-in run reports, exactly", "statement": "The result reported for a step is decided by the first decisive event of its run: a signal already raised when the task starts, a failing file system operation, a command that cannot be started or waited for (all Failed 1), the command's exit (its status), or the raised signal being noticed (Cancelled / Failed 123). No other result is ever reported and it is reported once.", "quantifier": "every schedule of command output, exit, signals and failures", "why_tests_cant": "Races between exit and signal.", "anchors": ["crates/runner/src/astro_runner.rs: run", "crates/runner/src/executors/docker.rs: execute", "crates/runner/src/executors/host.rs: execute", "crates/runner/src/command.rs: Command::run"]}
{"id": "C71", "title": "How a built-in run comes to rest, exactly", "statement": "A run that has come to rest has either stopped, with on_after_run called exactly once as its last action and the step's directory removed unless a file system operation failed; or its command exited by itself with no signal raised, in which case the task waits for a signal for ever, the directory stays and on_after_run is not called.", "quantifier": "every schedule of command output, exit, signals and failures", "why_tests_cant": "Needs all failure points and signal timings.", "anchors": ["crates/runner/src/astro_runner.rs: run", "crates/runner/src/executors/docker.rs: execute", "crates/runner/src/executors/host.rs: execute"]}
{"id": "C72", "title": "Forwarded events are dispatched like local ones", "statement": "An engine event received by a runner server is delivered to its plugins in registration order and then to its runner, each exactly once and whatever their answers, exactly as the engine delivers it locally; a step-completed event additionally forgets that step's signal first.", "quantifier": "every event, set of plugins and hook behaviour", "why_tests_cant": "All combinations of failing hooks.", "anchors": ["crates/remote-runner/src/runner_server.rs: send_event"]}
{"id": "C73", "title": "Event forwarding, exactly", "statement": "Each connected runner receives events emitted since start subscribed, in emission order and none twice; while no send fails it has received a prefix of them, and all of them whenever the forwarder is idle. The forwarder stops only if it finds itself more than 32 events behind.", "quantifier": "every event sequence, send outcome and relative speed", "why_tests_cant": "Depends on relative speed of producer and consumer.", "anchors": ["crates/remote-runner/src/client.rs: start, on_*"]}
{"id": "C74", "title": "The remote client's load counts, exactly", "statement": "After any history of calls, the load the remote client's scheduler holds for a runner is the number of times that runner was ever picked: completions never lower it.", "quantifier": "every history of schedule calls and engine events", "why_tests_cant": "History dependent.", "anchors": ["crates/remote-runner/src/client.rs: run, on_step_completed, on_job_completed"]}
{"id": "C75", "title": "Message encoding, exactly", "statement": "A protocol message decodes, after encoding, to itself with each number in its environments replaced by what the JSON number codec reads from its text, provided all those numbers are finite; if one is NaN or infinite, decoding fails. Everything else in the message survives, for every message.", "quantifier": "every message value, every number, time and payload codec", "why_tests_cant": "Infinite value space; strings need escaping; untagged enums; nesting limit.", "anchors": ["crates/protocol/src/common/json_codec.rs", "crates/protocol/src/lib.rs", "crates/astro-run/src/types/mod.rs: serde derives of all exported types"]}
{"id": "C76", "title": "Step, container and condition shapes, exactly", "statement": "A step is a command iff every command field it gives is of its type and `run` is a string; otherwise it is an action iff every action field it gives is of its type and `uses` is a string; otherwise it is rejected. A container is a name iff a string, options iff it gives a string name and well-typed other fields. A condition is an event list iff a list of strings, else a config iff it gives well-typed push/pull_request. Fields may be given by name, by index, or as a list of exactly all fields; null is the same as absent.", "quantifier": "every value", "why_tests_cant": "Infinite value space; untagged enums try variants in order.", "anchors": ["crates/astro-run/src/user_config.rs", "crates/astro-run/src/types/condition.rs"]}
{"id": "C77", "title": "Which config texts are accepted", "statement": "UserWorkflow::try_from accepts a text iff it composes to a tree of the shape of a workflow (string-keyed jobs, each with steps of step shape...) whose jobs pass validation, and returns exactly that workflow; it fails with a parse error iff the shape is wrong; the builder returns exactly the workflow described by that config.", "quantifier": "every text and tree, every number syntax", "why_tests_cant": "Infinite input space.", "anchors": ["crates/astro-run/src/user_config.rs", "crates/astro-run/src/workflow/builder.rs"]}
{"id": "C78", "title": "Unknown fields and field order do not matter", "statement": "Adding or removing a field with an unknown name in a step, job or workflow does not change what the config means; neither does the order of fields.", "quantifier": "every config, position and field name", "why_tests_cant": "Infinite input space.", "anchors": ["crates/astro-run/src/user_config.rs"]}
{"id": "C79", "title": "Duplicate keys", "statement": "Of several jobs with the same key the last definition is used, without an error; a step, job or workflow giving a (shared) field twice is rejected.", "quantifier": "every config with duplicate keys", "why_tests_cant": "Infinite input space.", "anchors": ["crates/astro-run/src/user_config.rs"]}
{"id": "C80", "title": "Comparing and printing errors", "statement": "Two errors are equal iff they are the same variant with the same content (for IO errors: the same kind of IO error, whatever the text); equality is an equivalence; the printed text of an error determines the variant and its content.", "quantifier": "every pair and triple of errors", "why_tests_cant": "Infinite input space.", "anchors": ["crates/astro-run/src/types/error.rs"]}
{"id": "C81", "title": "AstroRun and execution contexts are what was configured", "statement": "AstroRun::builder().build() panics iff no runner was given; otherwise it has the runner and authorization given last, all plugins in the order given, and under each name the action registered last. A context from execution_context() never fails to build; its runner, plugins, signals and authorization are those of the AstroRun unless the caller sets others (the last set wins), and its event and payload the last ones set. A context built alone panics iff runner, plugins or signals are missing. With conditions, such a context skips a workflow, job or step exactly when it has a condition, credentials and a trigger event are configured, and the condition fails of the payload at hand or obtained from GitHub.", "quantifier": "every sequence of builder calls", "why_tests_cant": "Infinite input space.", "anchors": ["crates/astro-run/src/astro_run.rs", "crates/astro-run/src/execution_context/builder.rs"]}
{"id": "C82", "title": "Plugins made with the builder", "statement": "A plugin built with AstroRunPlugin::builder calls, for each kind of event, exactly the hook given last for that kind and passes on its result; kinds without a hook do nothing: events succeed, steps stay unchanged and no action is resolved.", "quantifier": "every sequence of builder calls, every event and world", "why_tests_cant": "Infinite input space.", "anchors": ["crates/astro-run/src/plugins/plugin.rs"]}
{"id": "C83", "title": "Runner builders: defaults and required parts", "statement": "The remote runner server builder fails with 'Runner is not set' without a runner, else with 'Id is not set' without an id, else reports the values given last, with 5 runs, host support and the docker probe as defaults, and all plugins in order. The local runner works in the directory given last, else in astro-run under the home directory, else fails.", "quantifier": "every sequence of builder calls, every probe result and home", "why_tests_cant": "Infinite input space.", "anchors": ["crates/remote-runner/src/runner_server.rs", "crates/runner/src/astro_runner.rs"]}
{"id": "C84", "title": "One logger for the process", "statement": "However many threads call init_logger or init_logger_with_level in whatever order: once one has returned, exactly the records at least as severe as one level asked for by an earlier call are printed, forever; no call panics unless other code installed a logger; every call ends. RUST_LOG is read without regard to case, and anything else means info.", "quantifier": "every number and interleaving of calls", "why_tests_cant": "Schedules are unbounded.", "anchors": ["crates/logger/src/lib.rs"]}
{"id": "C85", "title": "Cloning a payload", "statement": "Cloning a context payload gives an equal payload of the same type whenever the type's serde implementation is faithful and the data is nested at most 126 deep, and panics iff it is nested deeper; asked for its own type a payload (or clone) gives the data, for any other type nothing.", "quantifier": "every registered type and value", "why_tests_cant": "Infinite input space.", "anchors": ["crates/astro-run/src/execution_context/context_payload.rs"]}
{"id": "C86", "title": "When printed ids coincide", "statement": "Two different job ids print the same text exactly when one of them cuts that text at an earlier slash than the other (workflow id a/b with key c, workflow id a with key b/c); for step ids in addition the step numbers are equal. So ids of the same workflow never print alike.", "quantifier": "every pair of job ids and of step ids", "why_tests_cant": "A clash needs a specific pair out of infinitely many; that nothing else clashes is a statement about all pairs.", "anchors": ["crates/astro-run/src/types/id.rs: Display for JobId, StepId"]}
{"id": "C87", "title": "Exactly one task is woken by a signal", "statement": "In the whole life of a signal at most one task is ever woken: the one whose recv() polled last before the first cancel()/timeout(). Tasks that polled earlier and raises after the first wake nobody.", "quantifier": "every history of operations on a signal by any number of tasks", "why_tests_cant": "Which waiter is woken depends on the interleaving.", "anchors": ["crates/astro-run/src/signals/signal.rs: poll stores waker; cancel/timeout take it"]}
{"id": "C88", "title": "Which end call decides a stream's result", "statement": "Under every interleaving the stream's result is that of the last end call that stored one, where a call stores its result iff the stream had no result when the call looked; it has none iff no call stored.", "quantifier": "every interleaving of the checks and stores of concurrent end calls, logs and reads", "why_tests_cant": "Needs every interleaving.", "anchors": ["crates/astro-run/src/stream.rs: StreamSender::end, is_ended"]}
{"id": "C89", "title": "Which files decide a condition", "statement": "With credentials and a trigger event, a check contacts GitHub iff no earlier fetch of the matcher has delivered; otherwise it decides at once on the files of the fetch that delivered last. A check that contacted GitHub decides on the files it was given itself, and matches if it was given none.", "quantifier": "every history of concurrent checks and every outcome of the fetches", "why_tests_cant": "Needs every interleaving of checks and fetches.", "anchors": ["crates/astro-run/src/execution_context/condition_matcher.rs: ConditionMatcher::is_match, condition_payload"]}
{"id": "C90", "title": "Limits and versions do not influence scheduling", "statement": "Changing the max_runs and version of the runners changes no scheduling decision: the same history with other limits and versions selects the same runners.", "quantifier": "every history of the scheduler and every relabelling", "why_tests_cant": "Relates two executions of arbitrary length.", "anchors": ["crates/scheduler/src/default.rs: DefaultScheduler::schedule, pick_docker_runner, pick_host_runner"]}
{"id": "C91", "title": "What outlives a workflow run", "statement": "When Workflow::run has returned, every job task that has not finished is a further instance of a job another instance of which has finished, and only such tasks emit events afterwards.", "quantifier": "every dependency graph, outcome and schedule", "why_tests_cant": "Needs a completion order in which a job was started twice and one instance outlives the run.", "anchors": ["crates/astro-run/src/workflow/mod.rs: Workflow::run"]}
{"id": "C92", "title": "When a job task crashes", "statement": "A job task panics only if another instance of the same job, started by the same run, has already unregistered the signal they share; a job that was started once never crashes, whatever the other jobs do.", "quantifier": "every workflow and schedule, nobody else touching the registry entries", "why_tests_cant": "Depends on the interleaving of two tasks.", "anchors": ["crates/astro-run/src/execution_context/mod.rs: ExecutionContext::run", "crates/astro-run/src/signals/mod.rs: SignalManager"]}
{"id": "C93", "title": "Ids nest", "statement": "The job id of a step id and the workflow id of a job or step id are the parts that precede the last components of the printed form; the job id of any step id that parses prints to a text that parses back to it; a step id is determined by its job id and number.", "quantifier": "every id and every text", "why_tests_cant": "Quantifies over all texts.", "anchors": ["crates/astro-run/src/types/id.rs: JobId::workflow_id, StepId::workflow_id, job_id, step_number"]}
{"id": "C94", "title": "Results are final", "statement": "The result of a step, job or workflow, and every entry of a job's or workflow's result, carries a final state: Succeeded, Failed, Cancelled or Skipped (is_terminal), never Pending, Queued or InProgress.", "quantifier": "every execution that returns", "why_tests_cant": "Quantifies over all executions.", "anchors": ["crates/astro-run/src/types/workflow_state.rs: is_terminal", "crates/astro-run/src/workflow/mod.rs", "crates/astro-run/src/workflow/job.rs", "crates/astro-run/src/execution_context/mod.rs: ExecutionContext::run"]}
{"id": "C95", "title": "The log of a command is the lines of its output", "statement": "Command::run logs, for each output of the child, a prefix of its lines in order, as log messages for stdout and error messages for stderr, without newline and the carriage return before it; a last line without newline counts. Nothing else is logged except one message when a line is not UTF-8, and then reading stops. When it stops for another reason, one output was closed and all of its lines were logged. The result is reported once, after the child's exit, and is Succeeded for exit code 0, Failed with the code otherwise, Failed with 1 for a signal.", "quantifier": "every sequence of bytes the child writes to the two pipes, every pipe capacity, every interleaving of child, readers and select! choices", "why_tests_cant": "The bytes of a line may arrive in any pieces and the two outputs in any interleaving; the schedules are unbounded.", "anchors": ["crates/runner/src/command.rs: Command::run"]}
{"id": "C96", "title": "An ordinary command never hangs", "statement": "If the child keeps its outputs open until it exits and prints UTF-8 lines, Command::run always ends, with the child's result: it cannot get stuck, and takes a number of steps bounded by the child's output, whatever the capacity of the pipes and the schedule.", "quantifier": "every such child program, pipe capacity > 0, schedule", "why_tests_cant": "Deadlock freedom and termination over all schedules and pipe sizes.", "anchors": ["crates/runner/src/command.rs: Command::run"]}
{"id": "C97", "title": "When a command hangs", "statement": "Once Command::run has stopped reading (one output closed, or a line that is not UTF-8), a child that has more to write than a pipe holds blocks for ever and run never returns, although the child would exit if its output were read. Both kinds of commands exist, for every pipe capacity.", "quantifier": "every pipe capacity, program and continuation", "why_tests_cant": "That no continuation ever leads to a result quantifies over all schedules.", "anchors": ["crates/runner/src/command.rs: Command::run"]}
{"id": "C98", "title": "Command builder and exec", "statement": "A Command spawns sh -c (on Windows powershell.exe -NoProfile -NonInteractive -Command) with exactly the given text, in the directory set last (the parent's if none), with each variable set to the value given last. exec returns Ok with the output trimmed of (Unicode) whitespace exactly if the exit code is 0 and the output is UTF-8; otherwise an InternalRuntimeError with the stderr text unchanged, or naming the failure to spawn or decode.", "quantifier": "every sequence of builder calls, every answer of the operating system, every byte sequence", "why_tests_cant": "Quantifies over all byte sequences and call sequences.", "anchors": ["crates/runner/src/command.rs: Command::new, env, dir, exec, build_command"]}
{"id": "C99", "title": "A step on the built-in runner ends with its command's own result", "statement": "When a step executed by AstroRunner in the same process is done, its result is that of the first decisive event of its task (command exit, noticed signal, failed file system operation or spawn), its logs are exactly the lines the task sent, in order, and the task executed the step as the before-run hooks left it. With no signal, no file system failure and a startable command the state and exit code are those of the command; the step is Cancelled only if the engine found its own job's signal cancelled while it ran.", "quantifier": "every step, hooks, runner hooks, interleaving of engine, runner task and rest of the program, child behaviour", "why_tests_cant": "Quantifies over all interleavings of two tasks sharing a stream and a signal.", "anchors": ["crates/astro-run/src/execution_context/mod.rs: ExecutionContext::run", "crates/runner/src/astro_runner.rs: AstroRunner::run", "crates/runner/src/executors/host.rs: HostExecutor::execute", "crates/runner/src/executors/docker.rs: DockerExecutor::execute"]}
{"id": "C100", "title": "When a step on the built-in runner is cleaned up", "statement": "Once a step is done nothing can raise its signal any more. The runner's on_after_run hooks are called exactly unless the command exited by itself before the task noticed a signal; after such a step (no signal handed to it) they are never called and the step's directory is never removed, whatever happens afterwards.", "quantifier": "every execution and every continuation", "why_tests_cant": "'Never' ranges over all continuations of all executions.", "anchors": ["crates/runner/src/astro_runner.rs: AstroRunner::run", "crates/runner/src/executors/docker.rs: DockerExecutor::execute", "crates/runner/src/executors/host.rs: HostExecutor::execute", "crates/astro-run/src/execution_context/mod.rs: ExecutionContext::run"]}
{"id": "C101", "title": "The runner's result always reaches the step", "statement": "Once the built-in runner's task has decided its result, the step can always be brought to its end with that result by letting the task's call complete and the engine read its stream; the task decides before it comes to rest, after a bounded number of actions besides reading lines.", "quantifier": "every reachable state of engine and task", "why_tests_cant": "Absence of lost results in every reachable state.", "anchors": ["crates/astro-run/src/execution_context/mod.rs: ExecutionContext::run", "crates/astro-run/src/stream.rs", "crates/runner/src/astro_runner.rs: AstroRunner::run"]}
{"id": "C102", "title": "One step on a remote runner, end to end", "statement": "A step run through the remote client ends with the result that arrived from the chosen server, or with failure (exit code 1) if none arrived or no runner was available; its logs are the lines that arrived, in order, followed by the line describing the failure, if any (a failure after the result may go unlogged). If nothing failed on the way, result and logs are exactly those of the server's runner.", "quantifier": "every interleaving of engine, client task, transport and server, every failure point, every server runner", "why_tests_cant": "The failure can strike between any two messages and interleave with the engine's reading in unboundedly many ways.", "anchors": ["crates/remote-runner/src/client.rs: AstroRunRemoteRunnerClient::run", "crates/remote-runner/src/runner_server.rs: AstroRunRemoteRunnerServer::run", "crates/astro-run/src/execution_context/mod.rs: ExecutionContext::run", "crates/astro-run/src/stream.rs"]}
{"id": "C103", "title": "A signal reaches the remote runner at most once, and only while the client reads", "statement": "The client passes at most one signal of a step to the server, namely the first that the engine handed to the step (Timeout from the step's timer or the job's Cancel); as long as it is reading the response it can pass it on; once it has stopped reading, e.g. after the stream broke, it never passes one on.", "quantifier": "every execution and continuation", "why_tests_cant": "At-most-once and never-after range over all histories.", "anchors": ["crates/remote-runner/src/client.rs: AstroRunRemoteRunnerClient::run", "crates/remote-runner/src/runner_server.rs: AstroRunRemoteRunnerServer::run", "crates/astro-run/src/execution_context/mod.rs: ExecutionContext::run", "crates/astro-run/src/stream.rs", "crates/astro-run/src/signals/signal.rs"]}
{"id": "C104", "title": "A step on a remote runner can always be finished", "statement": "Once the server's runner has finished, or the client's part is over, or the result has arrived, or no runner was available, the step can always be brought to its end with that result by delivering what is on the wire, completing calls and reading the stream.", "quantifier": "every reachable state", "why_tests_cant": "Absence of lost results in every reachable state.", "anchors": ["crates/remote-runner/src/client.rs: AstroRunRemoteRunnerClient::run", "crates/remote-runner/src/runner_server.rs: AstroRunRemoteRunnerServer::run", "crates/astro-run/src/execution_context/mod.rs: ExecutionContext::run", "crates/astro-run/src/stream.rs"]}
{"id": "C105", "title": "A workflow on the built-in runner: every result comes from that step's own command", "statement": "When a workflow whose runner is the built-in one has finished, each job's entry in the result has one entry per step of the job (none if the job was skipped by its condition); each is either a Skipped entry or the result of one execution of that step by the runner: the command run is the step's as the before-run hooks left it, the result is decided by the first decisive event of that execution, and the log lines delivered for it are exactly those its task sent, in order, whatever the other jobs, steps and leftover clean-up tasks do meanwhile.", "quantifier": "every workflow, hook behaviour, command behaviour, file-system behaviour, signal and interleaving of all jobs, runner tasks and outside callers", "why_tests_cant": "The claim is about every interleaving of any number of concurrent jobs with their runner tasks and clean-up tasks.", "anchors": ["crates/astro-run/src/workflow/mod.rs: Workflow::run", "crates/astro-run/src/workflow/job.rs: Job::run", "crates/astro-run/src/execution_context/mod.rs: ExecutionContext::run", "crates/runner/src/astro_runner.rs: AstroRunner::run", "crates/runner/src/command.rs: Command::run"]}
{"id": "C106", "title": "Without interference, exit statuses decide the workflow's result", "statement": "If nobody cancels a job, no step's idle timer fires, none of the runner's file system operations fails and every command can be started and waited for, then every step that is not skipped ends with the exit status of a command its job's task ran; no job is Cancelled; the workflow ends Failed exactly if some received job result has a failed step; and if every command exits with status 0, the workflow and every job are Succeeded or skipped by their conditions.", "quantifier": "every workflow, every execution on the built-in runner without those events, every exit status", "why_tests_cant": "It ranges over all workflows, all interleavings and all exit statuses.", "anchors": ["crates/astro-run/src/workflow/mod.rs: Workflow::run", "crates/astro-run/src/workflow/job.rs: Job::run", "crates/runner/src/command.rs: Command::run", "crates/runner/src/astro_runner.rs: AstroRunner::run"]}
{"id": "C107", "title": "A workflow on remote runners: every result is what the server sent for that step", "statement": "When a workflow whose runner is the remote client has finished, each step entry of the result is a Skipped entry, or Failed with code 1 and the single line 'No runner available', or the result of that step's own call: what the client received (Failed 1 if the stream ended without a result), and if the call was undisturbed exactly the result and the log lines the server's runner produced.", "quantifier": "every workflow, network and server behaviour, and interleaving of all jobs, client tasks and outside callers", "why_tests_cant": "The claim is about every interleaving of any number of concurrent jobs with their client tasks, the network and the servers.", "anchors": ["crates/astro-run/src/workflow/mod.rs: Workflow::run", "crates/astro-run/src/workflow/job.rs: Job::run", "crates/remote-runner/src/client.rs: AstroRunRemoteRunnerClient::run", "crates/remote-runner/src/runner_server.rs: AstroRunRemoteRunnerServer::run"]}
{"id": "C108", "title": "A run can always be completed", "statement": "Wherever an execution of a workflow without dependency cycles has got to - whatever interleaving, signals, timeouts, failures and hook behaviour came before - it is not stuck: the run reaches its result when what is still running goes on, without anything further from outside (no signal, no timer), whatever GitHub answers, whatever status the remaining commands exit with (built-in runner), or whatever the scheduler answers and result the server sends (remote runners).", "quantifier": "every workflow with acyclic dependencies, every reachable state of its runs on the built-in runner and on remote runners, every continuation oracle (GitHub answer, hooks of later steps, exit code, scheduler answer, remote result)", "why_tests_cant": "A test ends the runs it starts from the one schedule it happens to see; that no reachable state is a dead end ranges over all states of the workflow task, all job tasks, step tasks, runner tasks, streams and signal receivers.", "anchors": ["crates/astro-run/src/workflow/mod.rs: Workflow::run", "crates/astro-run/src/workflow/job.rs: Job::run", "crates/astro-run/src/workflow/step.rs: Step::run", "crates/astro-run/src/execution_context/mod.rs: run, cancel_job", "crates/runner/src/astro_runner.rs: AstroRunner::run", "crates/remote-runner/src/client.rs: run"]}
{"id": "C109", "title": "Which configs can be run to completion", "statement": "A workflow built from an accepted config can always be run to completion (as in C108) if no job depends on itself directly or indirectly; if some job does, no run of it ever ends other than as skipped by the workflow's condition, and neither the jobs on the cycle nor jobs depending on them are ever started. There is no third case.", "quantifier": "every config text, decoder, action environment and id the builder accepts; every run of the built workflow on the built-in runner or remote runners", "why_tests_cant": "Ranges over all dependency graphs the validation lets through and over all executions; non-termination cannot be observed by a test.", "anchors": ["crates/astro-run/src/user_config.rs: UserWorkflow::validate", "crates/astro-run/src/workflow/parser.rs", "crates/astro-run/src/workflow/mod.rs: Workflow::run"]}
{"id": "C110", "title": "Timestamps mean what they say", "statement": "The started_at of a step, job or workflow was read from the clock after everything its task had reported before its run event and not after that event; its completed_at was read after its last event and not after its final state update; a log line's time was read between the previous event and its delivery. Hence a job is started only after all its dependencies have completed by their own timestamps, the timestamps of the steps of a job follow one another within those of the job, and those of the jobs lie within those of the workflow; skipped runs carry none.", "quantifier": "every workflow, every execution with any interleaving of clock ticks, runners, signals and plugins, at every point of it", "why_tests_cant": "Depends on how the clock moves between any two operations of concurrently running tasks; a test observes one schedule.", "anchors": ["crates/astro-run/src/workflow/mod.rs: Workflow::run", "crates/astro-run/src/workflow/job.rs: Job::run", "crates/astro-run/src/workflow/step.rs: Step::run"]}
{"id": "C111", "title": "How far a run gets when dependencies are cyclic", "statement": "Call a job grounded if its dependencies, their dependencies and so on are jobs of the workflow and lead to jobs without dependencies; with defined dependencies these are exactly the jobs that are on no dependency cycle and depend on none. Only grounded jobs are ever started; and from wherever a run is - after any interleaving, signals, timeouts and failures - it can be brought, by what is already running going on and nothing further from outside, to a point where either the workflow was skipped or exactly the grounded jobs have delivered their results.", "quantifier": "every workflow with any dependency relation; every execution up to any point, on the built-in runner or remote runners", "why_tests_cant": "Ranges over all dependency graphs and all reachable states of runs on them, including those that never end.", "anchors": ["crates/astro-run/src/workflow/mod.rs: Workflow::run", "crates/astro-run/src/user_config.rs: UserWorkflow::validate"]}
{"id": "C112", "title": "A step on a remote runner whose server runs the built-in runner", "statement": "A step that a workflow sends to a remote runner server with the built-in runner is sent to one server, the one the scheduler answered, and is run there as the engine's hooks and then that server's plugins left it, with that server's configuration (servers may differ). Its result is the built-in runner's result and its log is exactly what the built-in runner logged, in order; only a failure of the connection changes that: then the step fails with code 1 after a first part of that log and one line about the failure (or, if the failure comes after the result, has that one line in addition). If no runner is available nothing is run anywhere. At most one signal reaches the server's runner, it is the first the engine handed to the step, and it is not lost unless another call for the same step id took the entry in the server's table. The step is Cancelled only if that runner got Cancel, after the job's signal was raised to Cancel. Once the server's runner has a result and while the client waits, the step gets that result; and from any point the step can come to an end with nothing further from outside.", "quantifier": "every step, engine context, server plugin, runner configuration, command output, failure of spawn, files, connection or call, and every interleaving of engine, client, transport, server and executor", "why_tests_cant": "Five concurrent tasks over two processes; the result and the log depend on the order of all their operations, failures and signals.", "anchors": ["crates/remote-runner/src/runner_server.rs: run, send_event", "crates/remote-runner/src/client.rs: run", "crates/runner/src/astro_runner.rs: AstroRunner::run", "crates/runner/src/executors/mod.rs", "crates/astro-run/src/workflow/step.rs: Step::run"]}
{"id": "C113", "title": "A whole workflow on remote runner servers that have the built-in runner", "statement": "When the steps of a workflow go to remote runner servers that have the built-in runner, every execution is, for the engine, an ordinary execution of the workflow (so all that is proved about those holds), and each step entry of a finished run is a skipped one, or the failure 'No runner available' with nothing run anywhere, or the result of the built-in runner on the server the scheduler chose for that step, as the hooks and that server's plugins left it, with that runner's log lines delivered in order, or - only if a call or connection failed - a failure with code 1.", "quantifier": "every workflow, plugin, runner configuration, GitHub answer; every interleaving of engine, jobs, clients, connections, servers and executors; every failure and signal", "why_tests_cant": "The composed system has unboundedly many concurrent tasks in several processes.", "anchors": ["crates/astro-run/src/workflow/mod.rs", "crates/astro-run/src/workflow/job.rs", "crates/remote-runner/src/client.rs: run", "crates/remote-runner/src/runner_server.rs: run, send_event", "crates/runner/src/astro_runner.rs: run"]}
{"id": "C114", "title": "On remote runners, exit statuses alone decide an undisturbed run", "statement": "If no job is cancelled, no timer fires, a runner is always found, connections hold, calls are accepted and the servers' runners can do their file and process operations, then no job is Cancelled, every step result is Skipped or the exit status of a command run on a server for it, the workflow fails exactly if some step's command failed, and if all commands exit with 0 it does not fail and every job succeeds or is skipped.", "quantifier": "every workflow and every undisturbed execution on remote runner servers with the built-in runner, whatever the interleaving and the commands' output", "why_tests_cant": "Ranges over all interleavings of all tasks and all outputs of the commands.", "anchors": ["crates/astro-run/src/workflow/mod.rs", "crates/remote-runner/src/client.rs", "crates/remote-runner/src/runner_server.rs", "crates/runner/src/command.rs"]}
{"id": "C115", "title": "Runs on remote runner servers can always be completed", "statement": "From any point of a run on remote runner servers with the built-in runner - after any interleaving, signals, timeouts, failures - the run reaches its result if what is still running goes on with nothing further from outside and no job depends on itself; with cyclic dependencies it gets to where exactly the jobs not involved in a cycle have delivered their results.", "quantifier": "every workflow with distinct job ids, every execution up to any point", "why_tests_cant": "A liveness statement about all reachable states of the composed system.", "anchors": ["crates/astro-run/src/workflow/mod.rs", "crates/remote-runner/src/client.rs", "crates/remote-runner/src/runner_server.rs", "crates/runner/src/astro_runner.rs"]}
{"id": "C116", "title": "The outcome of a run does not depend on the interleaving", "statement": "Two finished runs of a workflow in which the steps that were run came to the same states and the conditions gave the same answers report the same jobs, with the same job states and the same list of step states, however the jobs, steps, signals and timers interleaved; the result is the one computed from the definition alone (skip after a cancelled step, skip after a failed one unless continue-on-error, skip when the condition does not match). Only when one job failed and another was cancelled may the state of the whole workflow be either.", "quantifier": "every workflow with distinct job keys, every pair of executions by any schedules in any contexts, on any kind of runner", "why_tests_cant": "a test sees one interleaving; this compares every pair", "anchors": ["crates/astro-run/src/workflow/mod.rs: Workflow::run", "crates/astro-run/src/workflow/job.rs: Job::run", "crates/astro-run/src/workflow/step.rs: Step::run"]}
{"id": "C117", "title": "From the text of the config to the result", "statement": "When a config text is built and run to the end, the result names exactly the jobs written in the text; for each, the entries of its steps are those of the pre steps of its actions, then its steps in order, then the post steps in reverse, with the states the skip rules give from what the steps come to; and the state of the workflow is Succeeded unless some job failed or was cancelled, else one of those states.", "quantifier": "every config text, environment of actions and plugins, schedule, and kind of runner (custom, built-in, remote, remote with the built-in runner)", "why_tests_cant": "ranges over all texts and schedules; composes parsing, building and running", "anchors": ["crates/astro-run/src/workflow/parser.rs: WorkflowParser::parse", "crates/astro-run/src/user_config.rs: UserWorkflow::try_from", "crates/astro-run/src/workflow/mod.rs: Workflow::run"]}
{"id": "C118", "title": "What the built-in runner starts and kills, exactly", "statement": "For a step whose container names the host, the built-in runner starts sh -c with exactly the step's script, in its job's data directory, with exactly the step's environment variables (as text) added; for any other step it starts sh -c with the docker call (whatever the iteration order of the environment map), with no directory or variable of its own. The process is started at most once, after its directory was made and, for docker, its entrypoint written. A host process is never killed, even when its step is cancelled or times out; a container is killed exactly when a raised signal was noticed while its command ran, once, as docker kill NAME with its own name.", "quantifier": "every step, environment, event, base directory, and every sequence of file system, process and signal events", "why_tests_cant": "ranges over all steps and all interleavings of signals with the command's life", "anchors": ["crates/runner/src/executors/host.rs: HostExecutor", "crates/runner/src/executors/docker.rs: DockerExecutor", "crates/runner/src/command.rs: Command", "crates/runner/src/docker.rs: Docker"]}
{"id": "C119", "title": "The requests made to GitHub to judge a condition", "statement": "To judge a condition GitHub is asked only if an authorization and a trigger event are configured and no changed files are remembered yet. A personal access token is used directly: one request, the commit's files for a push or the pull request's files for a pull request. A GitHub App first asks, with its own id and key, for the installation in the event's repository and for a token of exactly that installation, and reads the files with that token; it stops at the first refusal, and nothing else ever carries its key. Other events are refused without any request; a pull request without number is refused before files are asked for (after an App obtained its token). Each call asks only about the event's own repository, commit and pull request, sends at most three requests and lists files at most once, as the last request: for a pull request that is the first page only. A failed exchange counts as a match and is tried again at the next check; the first successful one is remembered, judges every later check, and no request follows it.", "quantifier": "every authorization, event, condition, cache content, and every behaviour of GitHub (any answer to any request with any credential, differing from call to call), and every sequence of checks", "why_tests_cant": "GitHub's answers, failures and the sequence of checks are unbounded", "anchors": ["crates/astro-run/src/execution_context/condition_matcher.rs: ConditionMatcher::is_match, condition_payload, get_changed_files, get_github_api_by_repo, create_github_api_by_app_authorization", "crates/astro-run/src/types/mod.rs: GithubAuthorization"]}
{"id": "C120", "title": "The states a workflow run can end in, exactly", "statement": "Fix what every condition says and what every step comes to if it is run. Among the finished runs in which no job's result is received twice, (a) the results can come in in every order compatible with the dependencies and in no other; (b) the run's state is exactly one of: Skipped if the workflow's own condition does not hold; Succeeded if no job comes to Failed or Cancelled; otherwise the state of a failed or cancelled job on which no other failed or cancelled job depends, directly or indirectly -- and each of these states, and each of these orders, is reached by an undisturbed run in a new context that reads the changed files from GitHub itself. (c) When a job is started twice its second result counts too, and the run can then end in a state that is not among these.", "quantifier": "all workflows with acyclic dependencies, all assignments of step results and condition outcomes, all schedules; existence of a schedule for every permitted state and order", "why_tests_cant": "It characterises the set of all outcomes over all interleavings in both directions, for arbitrary dependency graphs.", "anchors": ["crates/astro-run/src/workflow/mod.rs: Workflow::run", "crates/astro-run/src/workflow/job.rs: Job::run"]}
{"id": "C121", "title": "The scheduler's 32-bit load counters", "statement": "The load counters are 32-bit. As long as no runner has more than 2^31 - 1 steps outstanding, the scheduler behaves in every history, in debug and release builds alike, exactly as if they were unbounded. In a debug build no counter is ever zero, negative or too large, a schedule call panics exactly when the counter of the runner it chose has reached 2^31 - 1 (leaving that step recorded on the runner and all counters as they were), and completion reports never panic. In a release build a counter wraps: with 2^31 steps outstanding a runner looks the least loaded of all and is preferred to an idle one.", "quantifier": "all histories of concurrent schedule calls and completion reports of any length", "why_tests_cant": "Needs histories of 2^31 steps.", "anchors": ["crates/scheduler/src/default.rs: DefaultScheduler::schedule, on_step_completed, SchedulerState::runs_count"]}
{"id": "C122", "title": "A remote call runs exactly the method called", "statement": "Calling a method of the remote runner's client (get_runner_metadata, run, send_event, call_before_run_step_hook) with a message runs exactly that one method on the server, once, with that message (numbers as their written text reads), and returns exactly what the method answered - for run, its stream up to the first item that is an error or cannot be carried. If the message cannot be carried (a NaN or infinite number, or its text is longer than the transport's limit) nothing runs and the call fails. A request to any other path runs nothing and is answered 'unimplemented'; whatever the body, at most the method named by the path runs.", "quantifier": "all methods, messages, services, size limits, request paths and request bodies", "why_tests_cant": "Ranges over every message of every type and over arbitrary request bytes.", "anchors": ["crates/protocol/src/proto/remote_runner.RemoteRunner.rs: RemoteRunnerClient, RemoteRunnerServer::call", "crates/protocol/src/common/json_codec.rs: JsonEncoder, JsonDecoder", "crates/protocol/build.rs"]}
{"id": "C123", "title": "Which bytes are accepted as JSON", "statement": "Bytes received as a message body are accepted as JSON exactly if they are a JSON text by RFC 8259 whose strings are UTF-8 and which is nested at most 127 deep, and they are read as the value that text stands for (integers of 64 bits exactly, other numbers by the number codec, escapes and surrogate pairs resolved). No text stands for two values.", "quantifier": "every byte string, every value, every number codec", "why_tests_cant": "Infinitely many byte strings; the reader is recursive with a fuel and a depth limit, and rejection has to be shown for everything outside the grammar.", "anchors": ["crates/protocol/src/common/json_codec.rs: JsonDecoder::decode"]}
{"id": "C124", "title": "Which documents are accepted as messages", "statement": "A received text is decoded exactly if it is a JSON text (nested at most 127 deep) whose document fits the schema of the expected kind of message: every required field given once, by name in any order or as a list in order; fields that may be null possibly left out; unknown fields skipped; numbers in range; known variant names; durations without foreign fields. It is then decoded as the message that is written as the document's canonical form. Everything else is rejected.", "quantifier": "every byte string, document and kind of message; every number, time and payload codec", "why_tests_cant": "Infinitely many texts; peers of other releases send documents with extra or missing fields, which the round trip of the own encoder never shows.", "anchors": ["crates/protocol/src/common/json_codec.rs: JsonDecoder::decode", "crates/protocol/src/lib.rs", "crates/astro-run/src/types/mod.rs: serde derives of all exported types", "crates/scheduler/src/lib.rs: RunnerMetadata"]}
{"id": "C125", "title": "The amount of work in a run is bounded by the shape of the workflow and what its commands print", "statement": "In every run of a workflow - any interleaving of workflow, jobs, steps, runner tasks and abandoned runners; any hooks, signals, timeouts, failures and disconnections - the number of actions that do work (everything except looking at what there is and going on waiting, timers firing, signals being raised or passed on, and lines being printed) is at most a number computed from the number of jobs and the largest number of steps in a job, plus a constant times the number of lines printed. With the built-in runner in the same process, with remote runners, and with the built-in runner at the servers.", "quantifier": "all workflows, hooks, conditions, shared states, interleavings, signals, timeouts, failures, numbers of jobs and steps, numbers of printed lines", "why_tests_cant": "Busy loops, repeated deliveries and retries without an end appear only in particular interleavings; a test sees finitely many of them and cannot bound them all.", "anchors": ["crates/astro-run/src/workflow/mod.rs: Workflow::run", "crates/astro-run/src/workflow/job.rs: Job::run", "crates/astro-run/src/workflow/step.rs: Step::run", "crates/astro-run/src/stream.rs", "crates/runner/src/astro_runner.rs: run", "crates/runner/src/command.rs", "crates/remote-runner/src/client.rs: run", "crates/remote-runner/src/runner_server.rs: run"]}
{"id": "C126", "title": "A run without cyclic dependencies that is not abandoned comes to its end, whatever else happens", "statement": "Take any unending execution of a workflow without cyclic dependencies: any schedule, cancellations and timeouts at any time, any failures and disconnections, hooks that leave steps in their jobs, and nobody outside registering the run's jobs. If whenever some work could be done without anything from outside some work (not necessarily that) is eventually done, and the commands do not print for ever, then from some time on the run has a result. There is no deadlock (in every state the run has its result or some work can be done) and no livelock. For the built-in runner, remote runners, and the built-in runner at servers; for every workflow the builder returns whose jobs do not depend on themselves.", "quantifier": "all workflows, all infinite executions with that weak progress assumption, all signals, timeouts and failures", "why_tests_cant": "A liveness property of infinite executions: no finite observation establishes it, and a schedule that starves a job or loses a wake-up is one among infinitely many.", "anchors": ["crates/astro-run/src/workflow/mod.rs: Workflow::run", "crates/astro-run/src/workflow/job.rs: Job::run", "crates/astro-run/src/workflow/step.rs: Step::run", "crates/astro-run/src/stream.rs", "crates/runner/src/astro_runner.rs: run", "crates/runner/src/command.rs", "crates/remote-runner/src/client.rs: run", "crates/remote-runner/src/runner_server.rs: run"]}
{"id": "C127", "title": "Workflows running at the same time do not disturb each other", "statement": "One AstroRun can run several workflows at the same time, in the same or in different execution contexts, while cancel_job is called for any job ids. Each run then behaves as a workflow run on its own would: its part of the history is a run of its own, in which the rest of the program only lets time pass, calls cancel_job as in the whole history and enters or removes the signals of other runs' jobs. In particular a run can never be kept from completing by another run. (The first sentence holds with no condition on ids. The last fails: two runs of workflows that share job ids share the signals of those jobs, so that the completion of the first run's job removes the signal of the second's, whose next step crashes; its run never completes.)", "quantifier": "for all runners (local, remote, remote over the shipped server), sets of contexts, workflows, numbers of runs started before or after one another, and interleavings of all their actions with time and with cancel_job from any number of callers", "why_tests_cant": "unit tests run one workflow, and a sharing bug between runs shows only in particular interleavings of several", "anchors": ["crates/astro-run/src/astro_run.rs: AstroRun, execution_context, cancel_job", "crates/astro-run/src/execution_context/builder.rs: ExecutionContextBuilder::build", "crates/astro-run/src/execution_context/mod.rs: ExecutionContext", "crates/astro-run/src/signals/mod.rs: SignalManager", "crates/astro-run/src/workflow/mod.rs: Workflow::run", "crates/astro-run/src/workflow/job.rs: Job::run"]}
{"id": "C128", "title": "Workflows without common job ids are independent", "statement": "When the workflows running on one AstroRun have no job ids in common - as when they were built with different workflow ids - each run can be completed by its own actions from every state the program can reach, whatever the other runs did, even if they crashed or wait for ever; and unless cancel_job is called for a job of its own, its results and its outcome are decided by its own commands alone: cancelling jobs of other workflows has no effect on it.", "quantifier": "for all runners, contexts, workflows, histories and interleavings of any number of runs", "why_tests_cant": "it is about every interleaving of any number of concurrent runs", "anchors": ["crates/astro-run/src/astro_run.rs: AstroRun, execution_context, cancel_job", "crates/astro-run/src/execution_context/mod.rs: ExecutionContext", "crates/astro-run/src/signals/mod.rs: SignalManager", "crates/astro-run/src/workflow/mod.rs: Workflow::run", "crates/astro-run/src/workflow/parser.rs: WorkflowParser::parse"]}
{"id": "C129", "title": "A workflow can be run again", "statement": "A workflow (or another one with the same job ids) may be run again on the same AstroRun once its earlier runs are over: the new run can be completed by its own actions from every state the program can reach, whatever happened to the earlier runs, and unless cancel_job is called for one of its jobs since it was started its results and its outcome are decided by its own commands alone. In particular a cancel_job call that found the earlier run's job has no effect on the new run, even if it takes effect only now, and jobs of an earlier run that were left in the table of running jobs do no harm.", "quantifier": "for all runners, contexts, workflows, earlier histories (cancelled, failed, crashed runs, any number of them), other runs without common job ids going on at the same time, and interleavings", "why_tests_cant": "it is about what any earlier history may leave behind in shared state, and about every interleaving with late cancellations", "anchors": ["crates/astro-run/src/astro_run.rs: AstroRun, execution_context, cancel_job", "crates/astro-run/src/execution_context/mod.rs: ExecutionContext", "crates/astro-run/src/signals/mod.rs: SignalManager", "crates/astro-run/src/workflow/mod.rs: Workflow::run", "crates/astro-run/src/workflow/job.rs: Job::run"]}
{"id": "C130", "title": "No run keeps another from ending", "statement": "Take any unending execution of a program that makes contexts, starts workflows on one AstroRun at any time, lets time pass and cancels jobs. A run that shares no job ids with runs that go on at the same time (workflows built with different ids never do), that is not abandoned (whenever it can do some work by itself, it does some work eventually) and whose commands do not print for ever has a result from some time on, whatever the other runs do: they may be abandoned for ever, crash, or print for ever. If this holds of every run then every run that is ever started ends.", "quantifier": "for all infinite executions with any number of contexts and runs (possibly unboundedly many over time), all interleavings, runners (built-in, remote, remote with the built-in runner at the server), hooks that keep steps in their jobs, failures, timeouts and cancellations", "why_tests_cant": "a liveness statement about infinite executions; a test sees finitely many steps of finitely many schedules", "anchors": ["crates/astro-run/src/astro_run.rs: AstroRun, execution_context, cancel_job", "crates/astro-run/src/signals/mod.rs: SignalManager", "crates/astro-run/src/workflow/mod.rs: Workflow::run", "crates/astro-run/src/workflow/job.rs: Job::run", "crates/astro-run/src/workflow/step.rs: Step::run"]}
{"id": "C131", "title": "Every started job comes to its end, attended to or not", "statement": "In any unending execution of a program that makes contexts, starts workflows on one AstroRun, lets time pass and cancels jobs, every job that has ever been started, of a run that shares no job ids with runs that go on at the same time, comes to an end provided only that its own task is not abandoned and its own commands do not print for ever: from some time on it has one and the same result, or it stays where its task has crashed, and then another task of the same job (the same job started twice) has got as far as reporting its result. Nothing is assumed of the task that runs the workflow, of the other jobs of the run or of the other runs: they may be abandoned for ever.", "quantifier": "for all infinite executions with any number of contexts, runs and jobs, all interleavings, runners (built-in, remote, remote with the built-in runner at the server), hooks that keep steps in their jobs, failures, timeouts and cancellations", "why_tests_cant": "a liveness property under a fairness assumption on one task only, over infinite schedules", "anchors": ["crates/astro-run/src/workflow/mod.rs:Workflow::run", "crates/astro-run/src/workflow/job.rs:Job::run", "crates/astro-run/src/execution_context/mod.rs:ExecutionContext::run"]}
{"id": "C132", "title": "Giving up on a run is not noticed by any other run", "statement": "The caller may give up on a workflow at any time by dropping the future it awaits (for example a timeout around Workflow::run), also while jobs of it are executing. Any such history gives exactly the events, the shared state (clock, table of running jobs, cancellations, condition caches) and, for every other run, exactly the state and actions of the same history in which nobody attends to that run any more instead; in particular every run that has not been given up, is not abandoned, prints finitely and shares no job ids with runs that go on at the same time has a result from some time on.", "quantifier": "for all finite and infinite histories with any number of contexts, runs and runs given up, at any point, and all interleavings; liveness for the three runners", "why_tests_cant": "every point at which a future can be dropped, combined with every interleaving of any number of other runs", "anchors": ["crates/astro-run/src/workflow/mod.rs:Workflow::run", "crates/astro-run/src/signals/mod.rs:SignalManager"]}
{"id": "C133", "title": "What becomes of a run that has been given up", "statement": "Once the caller has given up on a workflow nothing more is done on its behalf: no further job is started, no result is taken from a job, no workflow result and no workflow event appears; all later events of the run come from jobs that had been started before. Each of these jobs goes on and comes to its end as if it were attended to (the report of its result fails, which is only logged), provided its own task is not abandoned, does not print for ever, and nobody runs the same jobs at the same time.", "quantifier": "for all histories, all points of giving up and all continuations; liveness for all infinite executions and the three runners", "why_tests_cant": "ranges over all points of dropping the future and all unbounded continuations", "anchors": ["crates/astro-run/src/workflow/mod.rs:Workflow::run", "crates/astro-run/src/workflow/job.rs:Job::run"]}
{"id": "C134", "title": "A workflow that has been given up can be run again", "statement": "If every run that shares a job id with the workflow being started is over, or has been given up and all its started jobs have ended, and no further such workflow is started, then nothing those runs do afterwards reaches the new run: it can be completed by its own actions from every state, and unless cancel_job is called for one of its jobs since it was started its results are decided by its own commands alone (never Cancelled, Failed exactly when one of its steps failed).", "quantifier": "for all histories before and after the start, including any number of runs given up, and all interleavings; completion for the three runners, outcome for the built-in runner in process and at a remote server", "why_tests_cant": "all histories of earlier runs and all interleavings with later ones", "anchors": ["crates/astro-run/src/workflow/mod.rs:Workflow::run", "crates/astro-run/src/signals/mod.rs:SignalManager", "crates/astro-run/src/astro_run.rs:AstroRun"]}
{"id": "C135", "title": "With remote runners, every step is placed by the scheduler's answer to a question about that very step", "statement": "When an AstroRun uses the remote runner client with the default scheduler, each call of the scheduler is made for the step the engine has just handed to the runner for some job of some run, exactly once per hand-over, with that step's id and container name, and offers exactly the runners connected at that moment (in whatever order the table enumerates them). The runner the step is then sent to is that call's answer, looked up in the table as it was when the call was made; a job has at most one call under way. The runs otherwise behave as runs on remote runners whose placement is arbitrary, and the scheduler sees calls only: no completion of a step or job is ever reported to it by the client.", "quantifier": "all numbers of runs and contexts, workflows, plugins and conditions, all moments at which runners connect (or fail to), all enumeration orders of the table, all interleavings of engine, client, servers and the scheduler's lock sections", "why_tests_cant": "Calls for different steps overlap with each other, with new connections and with everything the runs do; only a handful of schedules can be tested.", "anchors": ["crates/remote-runner/src/client.rs:AstroRunRemoteRunnerClient::run", "crates/remote-runner/src/client.rs:start", "crates/scheduler/src/default.rs:DefaultScheduler::schedule"]}
{"id": "C136", "title": "A step on its way to a remote runner always gets the scheduler's answer", "statement": "From the moment a step is handed to the remote runner client until the scheduler has answered for it, the client can always go on, whatever other steps, runs and connections do: no call of the scheduler is ever stuck, after at most three actions of its own the step has its answer, and the answer is always a runner of the client's table (the lookup that would panic otherwise succeeds).", "quantifier": "all histories as in C135, every moment in them and every step then waiting", "why_tests_cant": "It is a statement about every reachable state of an unbounded concurrent system.", "anchors": ["crates/remote-runner/src/client.rs:AstroRunRemoteRunnerClient::run", "crates/scheduler/src/default.rs:DefaultScheduler::schedule"]}
{"id": "C137", "title": "All container steps of a job run on one remote runner", "statement": "If the steps carrying some job's id are handed out by one job of one run only, then all its container steps that are given a runner are given the same runner, with the same metadata, no matter what other jobs and runs do in between, how the table is enumerated and which runners connect meanwhile.", "quantifier": "all histories as in C135 and all jobs in them", "why_tests_cant": "Affinity is recorded at the end of a call and read at the start of the next, with arbitrary other calls in between; all interleavings matter.", "anchors": ["crates/scheduler/src/default.rs:DefaultScheduler::schedule", "crates/remote-runner/src/client.rs:AstroRunRemoteRunnerClient::run"]}
{"id": "C138", "title": "Which remote runner a container step is given", "statement": "A container step of a job that has had a container step placed when the call starts goes to that step's runner. Otherwise it goes to the runner that supports containers and has been given the fewest steps so far, the first such in the order of the offer, counted at a moment while the call runs; since the client reports no completions, steps that are long over count as well as running ones. If no runner on offer supports containers there is no answer.", "quantifier": "all histories as in C135 and all calls in them", "why_tests_cant": "The count depends on the whole history of the client and on the interleaving of the lock sections of concurrent calls.", "anchors": ["crates/scheduler/src/default.rs:pick_docker_runner", "crates/scheduler/src/default.rs:DefaultScheduler::schedule", "crates/remote-runner/src/client.rs:on_step_completed"]}
{"id": "C139", "title": "Steps are only sent to connected runners that can take them", "statement": "The runner a step is given is connected, under the id it reported. A container step is given a runner only if that runner supports containers, and is refused (\"No runner available\") exactly if no runner connected when the call was made does. A host step is given a runner only if its container name is that runner's platform and the runner supports host steps or has had a container step of the job, and is refused only if no runner on offer supports host steps on that platform.", "quantifier": "all histories as in C135 and all calls in them", "why_tests_cant": "Affinity could lead a step to a runner recorded under other circumstances; excluding that takes an invariant over all histories.", "anchors": ["crates/scheduler/src/default.rs:DefaultScheduler::schedule", "crates/remote-runner/src/client.rs:AstroRunRemoteRunnerClient::run"]}
{"id": "C140", "title": "With the default scheduler in the loop, a run on remote runners can always be completed", "statement": "Take any history of an engine with remote runners and the default scheduler: any number of runs, connections made at any moment, any plugins, conditions, signals, timeouts and failed connections, scheduler calls of several runs interleaved at their locks. Wherever a run of a workflow without cyclic dependencies is (waiting at GitHub, between steps, inside a step, inside a call of the scheduler), there is a way to go on in which only that run acts - its engine and runners, and its calls of the scheduler - that ends with the run having its result. Nobody else has to act: no other run, no other call of the scheduler, no new connection.", "quantifier": "all histories of the whole program (runs, connections, scheduler calls, interleavings), all runs in them, all answers of GitHub and of the runners, all orders in which the connected runners are listed", "why_tests_cant": "it is an existence claim at every reachable state, including every place where a call of the scheduler is between its two locked sections", "anchors": ["crates/remote-runner/src/client.rs:AstroRunRemoteRunnerClient::run", "crates/scheduler/src/default.rs:DefaultScheduler::schedule", "crates/astro-run/src/workflow/mod.rs:Workflow::run", "crates/astro-run/src/execution_context/mod.rs:ExecutionContext::run"]}
{"id": "C141", "title": "With the default scheduler in the loop, runs that are not abandoned end", "statement": "In any unending execution of the engine with remote runners and the default scheduler, a run that is not abandoned - whenever it can do something itself, or can ask the scheduler or go on with a call of it, it some time does some such thing - and whose commands do not print for ever has, from some time on, its result, which no longer changes. This holds for one run whatever the others do, and so for all runs of workflows that come from the builder with different ids and have no cyclic dependencies. The scheduler's calls cannot starve it: every step makes at most one call, and no call waits for another.", "quantifier": "all unending executions (every interleaving of runs, connections, scheduler calls and runners), all workflows without cyclic dependencies", "why_tests_cant": "a liveness property of unending executions; a test sees only finite prefixes", "anchors": ["crates/remote-runner/src/client.rs:AstroRunRemoteRunnerClient::run", "crates/scheduler/src/default.rs:DefaultScheduler::schedule", "crates/astro-run/src/workflow/mod.rs:Workflow::run", "crates/astro-run/src/execution_context/mod.rs:ExecutionContext::run"]}
{"id": "C142", "title": "What one plugin sees is a possible history", "statement": "A plugin's callbacks are awaited one after the other, then the runner's, while other jobs, runners, timers and signals go on. Whatever the interleaving, the sequence of callbacks one plugin (or the runner) gets, among everything else that happens, is that of an execution in which each event reaches everybody at the same moment, with the same actions of GitHub, runners, timers, signals, before-run hooks and the environment in the same order; when nobody is inside a callback the workflow, its jobs and steps have got exactly as far as in that execution. Conversely every such execution is possible.", "quantifier": "every workflow, every number of plugins, every receiver, every interleaving of the receivers' calls with all other actions", "why_tests_cant": "needs a bad interleaving of awaits in slow plugins with the progress of other jobs; a test sees a few schedules", "anchors": ["crates/astro-run/src/plugins/plugin_driver.rs: PluginDriver::on_*", "crates/astro-run/src/execution_context/mod.rs: call_on_*", "crates/astro-run/src/workflow/mod.rs: Workflow::run"]}
{"id": "C143", "title": "All plugins and the runner get the same events of a job in the same order", "statement": "From one task (the workflow itself or one started job) a later receiver has got exactly what an earlier one has got, in the same order, except possibly for the one event that is being delivered; when the task is not inside a delivery there is no difference. Between tasks there is no such guarantee: two receivers can hear of two jobs in opposite orders.", "quantifier": "every execution at the granularity of single receiver calls, every pair of receivers, every task", "why_tests_cant": "a race between the deliveries of concurrent jobs", "anchors": ["crates/astro-run/src/plugins/plugin_driver.rs: PluginDriver::on_*", "crates/astro-run/src/execution_context/mod.rs: call_on_*"]}
{"id": "C144", "title": "What a plugin can rely on when it is called", "statement": "When a plugin or the runner gets an event of a job, it has been told before that the workflow runs, it has been told (or is just being told) which job this is, and it has been told for every job it depends on that this is completed or skipped. When it gets workflow-completed, it has been told that every job is completed or skipped, and that the workflow is in the state of the result. When the run has returned and no callback is under way, the workflow's own callbacks it got are exactly those of C37.", "quantifier": "every execution at the granularity of single receiver calls, every receiver, every event", "why_tests_cant": "holds for every interleaving of slow callbacks with the progress of the jobs", "anchors": ["crates/astro-run/src/plugins/plugin_driver.rs: PluginDriver::on_*", "crates/astro-run/src/workflow/mod.rs: Workflow::run", "crates/astro-run/src/workflow/job.rs: Job::run"]}
{"id": "C145", "title": "Deliveries do not stand in the way of each other", "statement": "A task that has begun to deliver an event can always make its next call or, after the last, go on, whatever all other tasks do, and can do nothing else. From every state the deliveries under way can be brought to an end by such calls alone, and from there every way to go on is open that exists when each event reaches everybody at once.", "quantifier": "every reachable state at the granularity of single receiver calls", "why_tests_cant": "deadlocks between deliveries show only in some interleaving", "anchors": ["crates/astro-run/src/plugins/plugin_driver.rs: PluginDriver::on_*", "crates/astro-run/src/execution_context/mod.rs: call_on_*"]}
{"id": "C146", "title": "Runs, scheduler and servers together are what their parts are", "statement": "A deployment with several workflow runs in one AstroRun, a remote client with the default scheduler and its table of connected runners, and runner servers with plugins, configurations and built-in runners of their own: seen without the inside of the servers, its events are those of a deployment in which what comes from servers is arbitrary, with the same connections, the same calls of the scheduler and the same scheduler state (so everything proved of scheduling in C135-C141's safety part holds of it); and its runs with their servers are a set of concurrent runs on remote servers with built-in runners, each server chosen by the scheduler's answers.", "quantifier": "all deployments: any number of runs, contexts, workflows, connection attempts, servers, plugins and configurations, and all interleavings of the runs, the client's tasks, the scheduler's lock sections and the servers", "why_tests_cant": "a test runs one deployment in one interleaving; the decomposition has to hold for every one", "anchors": ["crates/remote-runner/src/client.rs: run", "crates/remote-runner/src/runner_server.rs: run, send_event", "crates/scheduler/src/default.rs: DefaultScheduler::schedule", "crates/astro-run/src/astro_run.rs: AstroRun"]}
{"id": "C147", "title": "Every step result comes from the server the scheduler chose, or from its finding none, or from a fault", "statement": "In the result of a finished run of such a deployment, every step entry that is not a skipped one belongs to a step which, as the engine gave it to the runner, the scheduler was asked about between that moment and the next step of the job, and answered. If it answered with no runner, the step failed with code 1, its only log line is the error 'No runner available' and no server did anything for it. If it answered with a runner, that runner is connected under its id, whatever was executed for the step was executed with that server's configuration for the step's context as the engine gave it and that server's plugins changed it, and either the entry and the log are the verdict and the log of that execution (with more log lines only after a fault), or there was a fault of the connection or the call and the step failed with code 1.", "quantifier": "all deployments as in C146, all finished runs in them, all jobs and steps of their results", "why_tests_cant": "needs all interleavings of several runs, of the scheduler's lock sections with connections coming up, of faults and of server executions", "anchors": ["crates/remote-runner/src/client.rs: run", "crates/remote-runner/src/runner_server.rs: run, send_event", "crates/scheduler/src/default.rs: DefaultScheduler::schedule", "crates/astro-run/src/execution_context/mod.rs: ExecutionContext::run", "crates/runner/src/astro_runner.rs: run"]}
{"id": "C148", "title": "A runner server does only what the scheduler sent it", "statement": "In a deployment of workflow runs, a scheduling client and runner servers, every action a server takes on its machine (making a directory, writing a script, starting or stopping a process, emitting a line) is taken for a step that a job of some run had handed to its runner, after the scheduler had answered that step's own call with that very server, which had connected before; and the action is one the built-in runner takes when run with that server's own configuration and hooks on exactly what the engine handed over. No server works for a step that was placed elsewhere, was not placed, or has not been placed yet.", "quantifier": "every history of any number of workflow runs, connections, scheduler calls, server and transport actions, in every interleaving, every server configuration and hooks, and every action of a server in it", "why_tests_cant": "it ranges over all interleavings of runs, scheduler lock sections and servers; a test sees a few schedules with one or two servers", "anchors": ["crates/remote-runner/src/client.rs: run", "crates/remote-runner/src/runner_server.rs: run, send_event", "crates/scheduler/src/default.rs: DefaultScheduler::schedule", "crates/runner/src/astro_runner.rs: run"]}
{"id": "C149", "title": "With scheduler and runner servers in the loop, a run can always be completed", "statement": "Take any history of the whole deployment: an engine with any number of runs, the default scheduler, and runner servers each with its own plugins, configuration and built-in runner; signals, timeouts, faults of connections and of servers' file systems, processes that do not start, all interleaved in any way. Wherever a run of a workflow without cyclic dependencies is - inside a call of the scheduler, or with a step that was sent but has not arrived, is being set up, runs, or has ended on its server with messages still on their way - there is a way to go on in which only that run acts (its engine, the servers that have its steps, and its calls of the scheduler) and no timer fires, and that ends with the run having its result. Commands need only stop printing and exit, with any exit status.", "quantifier": "all histories of the whole deployment, all runs in them, all ways the running commands exit, all answers of GitHub, all orders in which the connected runners are listed", "why_tests_cant": "it is an existence claim at every reachable state of client, scheduler, servers and network", "anchors": ["crates/remote-runner/src/client.rs: run", "crates/remote-runner/src/runner_server.rs: run, send_event", "crates/runner/src/astro_runner.rs: run", "crates/scheduler/src/default.rs: DefaultScheduler::schedule", "crates/astro-run/src/workflow/mod.rs: Workflow::run"]}
{"id": "C150", "title": "With scheduler and runner servers in the loop, runs that are not abandoned end", "statement": "In any unending execution of the whole deployment (engine, default scheduler, runner servers with built-in runners), a run that is not abandoned - whenever it or a server of its can do something by itself, or it can ask the scheduler or go on with a call of it, some such thing is some time done - and whose commands do not print for ever has, from some time on, its result, which no longer changes. This holds for one run whatever the other runs and servers do, and so for all runs of workflows that come from the builder with different ids and have no cyclic dependencies.", "quantifier": "all unending executions (every interleaving of runs, connections, scheduler calls, servers, network and processes), all workflows without cyclic dependencies", "why_tests_cant": "a liveness property of unending executions; a test sees only finite prefixes", "anchors": ["crates/remote-runner/src/client.rs: run", "crates/remote-runner/src/runner_server.rs: run, send_event", "crates/runner/src/astro_runner.rs: run", "crates/scheduler/src/default.rs: DefaultScheduler::schedule", "crates/astro-run/src/workflow/mod.rs: Workflow::run"]}
{"id": "C151", "title": "A run for whose steps there is no runner fails, and nothing is executed for it anywhere", "statement": "In any history of the whole deployment (any number of runs, runner servers, connections made at any moment, any interleaving), if the scheduler answers no step of a run with a runner, then no server ever makes a directory, writes a script, starts a process or logs anything for that run; in the run's result every step is skipped or Failed with exit code 1 and the only log line delivered for such a step is the error \"No runner available\"; and the states of all jobs and steps are exactly those of a run whose every started step fails - later steps skipped unless they continue on error, jobs that depend on a failed one still started - so the run is never Cancelled. This is so whenever every runner that was ever connected supports neither containers nor its host, in particular when no connection ever succeeded.", "quantifier": "all histories of the deployment, all workflows, all answers of the conditions, all sets of connected runners without the needed support", "why_tests_cant": "the absence of any effect on any server has to hold in every interleaving, for every workflow", "anchors": ["crates/remote-runner/src/client.rs: run", "crates/scheduler/src/default.rs: DefaultScheduler::schedule", "crates/astro-run/src/workflow/job.rs: Job::run", "crates/astro-run/src/workflow/mod.rs: Workflow::run"]}
{"id": "C152", "title": "Every process a local run starts is the command of one of its steps, while that step is in progress, once", "statement": "In any execution of a workflow on the built-in runner in the same process - all its jobs in parallel, the tasks of steps the engine is already done with still going on, signals raised at any moment - everything that is done on the machine (a directory made or removed, the script written, a process started, a container killed, a log line or result sent) is done for a step of one of the started jobs that was given to the runner before, and is what an execution of exactly that step's command does. A process is started only while its step is being prepared: after the engine has called the runner for the step, before the job makes another call, before the step's completion is announced, and at most once for that call. So the processes of a job are the commands of a subsequence of its steps, in the order of the steps; no step's command runs twice and none starts after its step has ended.", "quantifier": "all workflows, plugins of engine and runner, interleavings of the jobs, the runner's tasks and the environment, and all results of file operations and processes", "why_tests_cant": "that a leftover task of an earlier step, or a racing signal, never starts a process late, twice or for the wrong step must hold in every interleaving", "anchors": ["crates/runner/src/astro_runner.rs: AstroRunner::run", "crates/runner/src/command.rs: Command::run", "crates/astro-run/src/execution_context/mod.rs: ExecutionContext::run", "crates/astro-run/src/workflow/job.rs: Job::run"]}
{"id": "C153", "title": "A local run touches only the directories of its own steps", "statement": "With the built-in runner's configuration and before-run plugins that leave the command's id and event alone, every directory a local run makes or removes is <base>[/<owner>/<name>]/<workflow>/<job>/<number> or .../<job>/data, every file it writes is .../<job>/<number>/entrypoint, and every container it kills is named <workflow>-<job>-<number>, for the id of a step that one of its started jobs had given to the runner before (owner and name being those of the trigger event, if there is one), whenever those names are ordinary file names.", "quantifier": "all workflows with ordinary names, events, base directories, executions and interleavings", "why_tests_cant": "the claim is about every effect in every execution, including the clean-up of tasks whose step is over", "anchors": ["crates/runner/src/metadata.rs", "crates/runner/src/executors/host.rs", "crates/runner/src/executors/docker.rs", "crates/runner/src/astro_runner.rs: AstroRunner::run"]}
{"id": "C154", "title": "A remote run starts at most one process per call of the runner, but possibly late", "statement": "In a workflow run whose steps go to remote runners that have the built-in runner behind them, every start of a process on a runner's machine uses up one earlier call of the runner made by that job, for the command of that very call, on a server the scheduler chose for that job; no call serves twice. So for no job are more processes started than runner calls made, and these calls are those of some of the job's steps, each at most once, in workflow order. Other than locally, the start need not fall within the step: when the connection breaks while the server prepares the step, the step and its job can be reported as failed and over, and the server then starts the process all the same.", "quantifier": "every workflow with distinct job keys, every server's plugins and configuration, all interleavings of engine, clients, transport and servers, with any faults of connections and calls", "why_tests_cant": "a lost answer, a late request or a retry that runs a command twice shows up only in particular schedules of four parties; tests run one", "anchors": ["crates/remote-runner/src/client.rs: run", "crates/remote-runner/src/runner_server.rs: run, send_event", "crates/runner/src/astro_runner.rs: AstroRunner::run", "crates/runner/src/executors/mod.rs"]}
{"id": "C155", "title": "What remote runners do on their machines, they do for steps the scheduler sent them", "statement": "In a remote run, whatever a runner does on its machine on behalf of a job (create or remove directories, write files, start processes, kill containers) it does for a runner call that this job has made before, for a step of that job (as changed by the step hooks), sent by the scheduler to that runner; and it is an effect of the built-in runner with that runner's own plugins and configuration. With runners that use the built-in configuration, each under its own base directory, and plugins that keep the command's id and event, every directory created or removed is the step's own directory or its job's data directory below that runner's base, the only file written is the step's entrypoint there, and the only container killed bears the step's name.", "quantifier": "every workflow with distinct job keys, any number of runners with their own base directories and plugins, all interleavings and faults, ids and repository names without path separators for the places", "why_tests_cant": "it must hold for every effect in every interleaving, also of executors left behind by broken connections", "anchors": ["crates/remote-runner/src/client.rs: run", "crates/remote-runner/src/runner_server.rs: run", "crates/runner/src/metadata.rs", "crates/runner/src/executors/host.rs", "crates/runner/src/executors/docker.rs"]}
{"id": "C156", "title": "The builder of docker commands: the last call wins, nothing is lost", "statement": "For any sequence of calls of the builder of docker commands, in any order, the shell reads the generated command as the argument vector in which the name, the working directory, the entrypoint and the automatic removal each have the value of the last call for it (none, and removal on, if there was none), every environment variable appears once with its last value, and all volumes and security options appear in the order of their calls; no call disturbs what another one set.", "quantifier": "all finite sequences of builder calls with values that need no further quoting", "why_tests_cant": "the existing test makes each call once in one order", "anchors": ["crates/runner/src/docker.rs: Docker"]}
{"id": "C157", "title": "Each of several local runs at the same time starts only its own steps' processes, each once", "statement": "When several workflows run at the same time on one AstroRun with the built-in runner (in any contexts, started before or after each other, with cancel_job called and time passing at any moment), each run taken by itself does on the machine only what the commands of its own steps ask for: every directory, file, process and container kill belongs to a step of one of its started jobs that this job had given to the runner before; a process is started only while its step is being prepared, at most once per call of the runner, in the order of the calls, and these are calls for steps of the job, each at most once, in workflow order. What the other runs do cannot add, repeat or reorder any of this.", "quantifier": "all numbers of runs, contexts and workflows (with distinct job names within each), all interleavings of the runs' actions, cancellations and ticks, all plugins and runner configurations", "why_tests_cant": "The claim is about all interleavings of arbitrarily many runs.", "anchors": ["crates/astro-run/src/astro_run.rs: AstroRun", "crates/astro-run/src/execution_context/mod.rs: ExecutionContext::run", "crates/runner/src/astro_runner.rs: AstroRunner::run", "crates/runner/src/executors/host.rs: HostExecutor::execute", "crates/runner/src/executors/docker.rs: DockerExecutor::execute"]}
{"id": "C158", "title": "Local runs of different workflows keep off each other's directories", "statement": "On one machine, with the built-in runner and before-run plugins that leave the command's id and event alone: if all commands one run gives to the runner are for steps of a workflow with id w (in jobs with ordinary names), and all commands of another run are for steps of a workflow with id w', both runs with a trigger event or both without, and w differs from w' or the repositories differ, then no directory or file that the one run creates, writes or removes is, contains or lies in one that the other creates, writes or removes, no matter how the two runs and others interleave.", "quantifier": "all sets of concurrent runs, all pairs of them, all actions of theirs on the disk, all base directories, ordinary workflow, job, owner and repository names", "why_tests_cant": "It ranges over all pairs of actions in all interleavings of any number of runs and over all names.", "anchors": ["crates/runner/src/metadata.rs", "crates/runner/src/astro_runner.rs: AstroRunner::run", "crates/runner/src/executors/host.rs: HostExecutor::execute", "crates/runner/src/executors/docker.rs: DockerExecutor::execute"]}
{"id": "C159", "title": "In a deployment every process on a runner server is the command of one call placed there", "statement": "In a deployment of several workflow runs, one remote client with the default scheduler and any number of runner servers, every process a server starts for a job of a run is the command of a call of the runner which that job made before and which the scheduler placed on that very server, then connected, prepared with the server's own plugins and configuration; and on all servers together no more processes are started for a job than it made calls of its runner, which are calls for some of its steps, each at most once, in workflow order.", "quantifier": "all numbers of runs, jobs and servers, all answers of the scheduler, all moments of connecting, all interleavings of runs, scheduler, connections and servers, all plugins and configurations", "why_tests_cant": "It ranges over all histories of a distributed system with arbitrarily many participants.", "anchors": ["crates/remote-runner/src/client.rs: AstroRunRemoteRunnerClient", "crates/remote-runner/src/runner_server.rs: AstroRunRemoteRunnerServer", "crates/scheduler/src/default.rs: DefaultScheduler::schedule", "crates/runner/src/executors/host.rs: HostExecutor::execute", "crates/runner/src/executors/docker.rs: DockerExecutor::execute"]}
{"id": "C160", "title": "What servers do for runs of different workflows keeps apart on the disk", "statement": "In a deployment of several workflow runs, a scheduling client and runner servers with the built-in configuration (each with its own working directory) and plugins that leave the command's id and event alone: if all steps one run gave to its runner belong to a workflow with id w and a repository r (or have no event), and those of another run to w' and r' (both with or both without event), and w differs from w' or r from r', then what a server creates, writes or removes for the one run is not, does not contain and does not lie in what that server, or another with the same working directory, creates, writes or removes for the other. The servers meant are those on which the scheduler placed the two steps.", "quantifier": "all deployments, histories and interleavings, all pairs of disk actions for the two runs, all working directories, ordinary workflow, job, owner and repository names", "why_tests_cant": "It ranges over all pairs of actions in all histories of a distributed system, and over all names.", "anchors": ["crates/runner/src/metadata.rs", "crates/remote-runner/src/runner_server.rs: run", "crates/scheduler/src/default.rs: DefaultScheduler::schedule", "crates/runner/src/executors/docker.rs: DockerExecutor::execute"]}
{"id": "C161", "title": "Cancelling or timing out one run's step never kills another step's container", "statement": "When several runs share a machine (on the built-in runner, or on runner servers), a container is killed for a run only under the name <workflow>-<job>-<number> of a step that this run had given to the runner before (on a server: that the scheduler had placed there); and any step, of the same or another run, whose container bears that name and whose workflow id is equally long (as generated ids are) has the same step id. So two steps with different ids never lose their container to each other's cancellation.", "quantifier": "all numbers of runs and servers, all histories and interleavings, all kills in them, all workflow ids, job keys and step numbers, all before-run plugins that leave the command's id alone", "why_tests_cant": "It ranges over all interleavings of any number of runs and all names.", "anchors": ["crates/runner/src/metadata.rs: docker_name", "crates/runner/src/executors/docker.rs: DockerExecutor::execute", "crates/remote-runner/src/runner_server.rs: send_event"]}
{"id": "C162", "title": "A completed run makes nothing more on the machine, and what it made is what its clean-up removes", "statement": "In a run on the built-in runner, a directory is made, the script written, or a process started only while a step that was given to the runner is being prepared: before the step's completion is announced and before its process has been started. Hence after the workflow's completion has been announced (the event on which the runner removes the workflow's directory) the run makes no directory, file or process any more, although tasks of its steps may still be going on - provided no job was started twice, which holds if the jobs with dependencies are all comparable with the others (C33); with a job that is started twice it can make the step's directory again after the clean-up. And everything the run created, wrote or removed lies in the directory that the runner removes then, if all steps the runner was given with this workflow id came with this run's event and the names are ordinary. So nothing of the run can reappear after the clean-up. The first holds for every run on a machine on which several runs are in progress.", "quantifier": "all workflows, plugins, interleavings of jobs, runner tasks and environment, results of file operations and processes, events, base directories, and all histories of other runs on the same runner", "why_tests_cant": "that no leftover task writes after the clean-up must hold in every interleaving", "anchors": ["crates/runner/src/astro_runner.rs: on_workflow_completed", "crates/runner/src/astro_runner.rs: AstroRunner::run", "crates/runner/src/command.rs: Command::run", "crates/astro-run/src/workflow/mod.rs: Workflow::run"]}
{"id": "C163", "title": "What a run on remote runners leaves on their machines lies where clean-up removes it, but may be made after the completion", "statement": "In a run whose steps go to remote runners that have the built-in runner behind them, everything that is created, written or removed on a runner's disk is so for a step that a job had handed over before, on a server the scheduler had chosen for that job, and lies in the directory that this server removes when it learns that the step's workflow has completed (if names are ordinary and all steps of the workflow reached that server with the same event). The same holds of every run in a deployment of several runs, a scheduling client and runner servers. But other than for a local run (C162) it need not be there by then: if the connection breaks while the server prepares a step, the step, its job and the workflow can be over, and the server makes the step's directory and starts its process after that.", "quantifier": "all workflows, plugins of engine and servers, interleavings, faults of the connection, results of file operations and processes, base directories of the servers, and other work of the same servers", "why_tests_cant": "containment must hold for every name, event and interleaving; the late start needs a particular race of a broken connection", "anchors": ["crates/runner/src/astro_runner.rs: on_workflow_completed", "crates/runner/src/metadata.rs: Metadata", "crates/remote-runner/src/runner_server.rs: run", "crates/remote-runner/src/client.rs: run"]}
{"id": "C164", "title": "A step's clean-up removes no directory of another job's step; but it can remove the directory in which the next host step of the same job is working", "statement": "When a step executed by the built-in runner ends, its task removes the step's directory. Which directory that is: its own, and it contains the directory of another step the run gave to the runner only if both steps belong to the same job and both are executed on the host (host steps of a job share <base>/<repo>/<workflow>/<job>/data). In that case the removal can hit a step that is still working: when a host step times out, the engine goes on with the job's next step at once (if that step continues on error), which creates the shared directory again and starts its command in it; the timed-out step's task removes the directory afterwards, under the running command. The same holds on a runner's machine for steps handed over to it, for steps with the same event.", "quantifier": "every workflow, hooks that keep a command's id and event, base directory, platform, every schedule of the run, every removal in it and every step given to the runner; ordinary names; local runs (alone and among others) and remote runs and deployments", "why_tests_cant": "The removal races with the next step's preparation and command after a timeout; tests run one host step at a time and do not let a step time out while its successor runs. That no other pair of steps is affected is a statement about all names and schedules.", "anchors": ["crates/runner/src/executors/host.rs: HostExecutor::execute", "crates/runner/src/executors/docker.rs: DockerExecutor::execute", "crates/runner/src/metadata.rs: MetadataBuilder::build", "crates/runner/src/astro_runner.rs: AstroRunner::run", "crates/astro-run/src/execution_context/mod.rs: ExecutionContext::run", "crates/remote-runner/src/runner_server.rs: run"]}
