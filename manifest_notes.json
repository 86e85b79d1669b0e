{
 "C03": {
  "status": "partial",
  "note": "Injectivity of printed ids fails in general because job keys and workflow ids may contain '/': refuted with witnesses; proved when the workflow id has no '/' (and the job key likewise for steps)."
 },
 "C06": {
  "status": "partial",
  "note": "Refuted for several waiters (one waker slot); proved: the last task that polled is woken."
 },
 "C09": {
  "status": "partial",
  "note": "Refuted for two threads ending at once (check then store); proved for non-overlapping end calls, with a bound for the concurrent case."
 },
 "C14": {
  "status": "partial",
  "note": "The decision table and fail-open rule are proved exactly; 'later decisions use the same file list' is refuted when two first fetches run concurrently and proved when no other fetch is in flight at the first success."
 },
 "C20": "Refuted as stated: a config with a dependency cycle among some of its jobs is accepted and its run never ends (C20_accepted_config_that_never_finishes_refuted; in general C20_self_waiting_jobs_hang). Proved: accepted workflows with acyclic dependencies finish (C20_acyclic_workflows_finish_partial with C35_bounded), and every workflow is acyclic or contains a self-waiting set.",
 "C26": "Refuted as stated: the timer is restarted by every log line, so a step that keeps logging never times out. Proved: the idle timeout.",
 "C33": "Refuted as stated: a waiting job is started again for every result received while it is still running. Proved: once for graphs in which every job with dependencies is comparable with every other; C34 gives the exact number of starts in general.",
 "C65": "Refuted for runs in which a job was started twice; proved when no job was (which C33 gives for comparable graphs).",
 "C66": "Refuted for runs in which a job was started twice; proved when no job was.",
 "C38": {
  "status": "partial",
  "note": "Refuted for the code as it is: affinity accepts host/<os>-<arch> without checking host support (operator precedence). Proved: everything else (C38_suitable_partial, C67)."
 },
 "C42": {
  "status": "partial",
  "note": "Refuted: max_runs is never consulted."
 },
 "C39": "Counts are Z (i32 in code).",
 "C45": "Refuted in general: ids joined with '-' clash (a/b-c vs a-b/c). Proved when workflow ids have equal length, or contain no '-', or job keys contain no '-'; C68 is the version that holds.",
 "C53": "Hypotheses: ordinary names, one event per workflow, no mixing of workflows with and without event, workflow not named caches; the two Examples show the last two are needed.",
 "C47": "Refuted: reading stops when either pipe ends, so output of the other may be lost completely. Proved: what is logged is per-pipe an in-order prefix and one pipe is complete; C48 gives the exact set of outcomes.",
 "C50": "Refuted: after a command exits by itself the executor's select waits for a signal for ever, so the directory is not removed and on_after_run is not called. Proved: the stream is always ended exactly once; clean-up whenever a signal is raised or the command could not be started or waited for; C71 is the exact statement.",
 "C51": "Refuted: a signal raised before the task's first check is reported as Failed 1. Proved: afterwards, while the command has not exited, the signal's result is reported; C70 is the exact statement.",
 "C57": "Refuted: a forwarder more than 32 events behind gets Lagged and its loop ends for good. Proved: in order, at most once, complete when caught up, stops only then; C73 is the exact statement.",
 "C60": "Refuted: the client's hooks never call the scheduler's completion functions, so the load never decreases. C74 is the exact statement.",
 "C62": "Refuted as stated: an environment number that is NaN or infinite is written as null and the message cannot be decoded. Proved for messages whose numbers are finite and survive the number codec (an open parameter: serde_json without float_roundtrip may be off by one ULP); C75 is the exact statement.",
 "C63": "Refuted as stated: a step with a string run and another ill-typed field is rejected, or silently becomes an action if it has uses; lists and number-keyed mappings can be steps or conditions. Proved when the other fields are well typed; C76 is the exact statement.",
 "C77": "libyaml (text to tree, aliases expanded) and the number syntax are open parameters; tags are not modelled.",
 "C85": {
  "note": "Refined finding: cloning panics for payloads nested more than 126 deep (serde_json recursion limit)."
 },
 "C84": {
  "note": "The machine has one transition per access to the OnceLock and to the log crate; the panic case needs a logger installed by other code."
 },
 "C86": {
  "note": "Exact characterisation of when C03 fails."
 },
 "C87": {
  "note": "Exact form of C06."
 },
 "C88": {
  "note": "Exact form of C09."
 },
 "C89": {
  "note": "Exact form of the file-list part of C14."
 },
 "C90": {
  "note": "Why C42 fails: limits are never read."
 },
 "C91": {
  "note": "Exact form of C65."
 },
 "C92": {
  "note": "Exact form of C66."
 },
 "C93": {
  "note": "Found missing by mutation testing (job_id_workflow_id was used by no theorem)."
 },
 "C94": {
  "note": "Found missing by mutation testing (is_terminal was used by no theorem)."
 },
 "C95": {
  "note": "Byte-level model of the pipes and tokio line readers; refines the command model of Runner_model.v."
 },
 "C96": {
  "note": "The hypotheses are those of an ordinary program; C97 shows what happens without them."
 },
 "C97": {
  "note": "As the code behaves: cancellation or a timeout of the step are the only ways out."
 },
 "C98": {
  "note": "UTF-8 (RFC 3629) and White_Space are specified independently in Text_spec.v; not on Windows."
 },
 "C99": {
  "note": "Joint machine of Exec_model and Runner_model sharing stream and signal (Local_model.v); plugins of the runner are any function of the context."
 },
 "C100": {
  "note": "As the code behaves: select! disables the command branch after Ok(()), so the task waits for a signal that nobody can raise."
 },
 "C101": {
  "note": "Possibility (no lost result), for every reachable state; fairness of the scheduler is what turns it into termination."
 },
 "C102": {
  "note": "Joint machine of Exec_model and Remote_model sharing stream and signal (Distant_model.v); the server runner is arbitrary, gRPC delivers in order until it breaks."
 },
 "C103": {
  "note": "As the code behaves: after a broken stream the command on the server goes on and a later cancellation is not forwarded."
 },
 "C104": {
  "note": "Possibility (no lost result), for every reachable state; fairness of the scheduler is what turns it into termination."
 },
 "C105": {
  "note": "Composition of the engine (Workflow_model, Exec_model), the stream and the runner (Runner_model) in one machine (System_model)."
 },
 "C107": {
  "note": "Same composition as C105 with the remote client (Distant_model) on the runner's side; one server per call, the scheduler's choice arbitrary."
 },
 "C108": {
  "note": "C108_builtin, C108_distant. Assumes what orderly says: nobody outside registers/unregisters this run's jobs, and before-run-step hooks leave a step in its job. Panics inside the scheduler (client_start = None) are excluded by hypothesis."
 },
 "C109": {
  "note": "C109_no_cycle, C109_cycle, C109_dichotomy: the exact form of what C20 asks, whose literal claim is refuted (the validation only asks for one job without dependencies)."
 },
 "C110": {
  "note": "The model clock only moves forward; the code reads chrono::Utc::now, which follows adjustments of the system clock."
 },
 "C116": {
  "note": "The dependence of the workflow's state on the order of results when jobs both fail and are cancelled is shown by C116_state_order_dependent."
 },
 "C119": {
  "note": "The exchange is proved equal to a relational specification; C119_same_as_answers refines the abstract answers of C14. C119_second_page_unseen shows the consequence of asking for no page."
 },
 "C123": {
  "note": "The grammar is stated as inductive relations in Grammar_spec.v, independently of the reader. Values that the message's type ignores are read by serde_json with the same grammar but without checking the nesting limit or UTF-8; the model checks them everywhere."
 },
 "C124": {
  "note": "The schemas are a table in Schema_spec.v, independent of the readers; the meaning of a schema is one inductive relation. Values of unknown fields are only checked to be JSON, as in C123."
 },
 "C127": {
  "note": "C127_builtin/_distant/_chained: each run's part of the history is a run of its own, with the origin of every outside effect; C127_same_workflow_twice_refuted: the same one-job workflow started twice, no cancellation, every command exits 0: the first run succeeds, the second never completes whatever happens afterwards. C128 is the exact companion."
 },
 "C128": {
  "note": "C128_built: workflows built with different ids are apart. C128_*_completes: completable by its own actions. C128_builtin_outcome / C128_chained_outcome: results decided by the run's own commands (for the remote runner with an arbitrary server the results are the server's, C107)."
 },
 "C129": {
  "note": "Stated for runs such that since their start no job of another run with a common job id did anything outside its steps (alone); C129_over_before: that is so when the earlier runs were over (result delivered, all started jobs ended) at the start. C127_same_workflow_twice_refuted shows that the condition is needed."
 },
 "C162": {
  "note": "The hypothesis NoDup (started ...) excludes the double start that C33 refutes; without it jobs go on after the completion (C65_events_after_completion_refuted). The on-disk removal itself is modelled by cleanup_dir (C53)."
 },
 "C163": {
  "note": "C163_may_be_made_after_completion is a witness run of one step; it satisfies C162's hypotheses other than that the runner is remote."
 },
 "C164": {
  "note": "The expectation that a running step's directory is left alone is refuted by the witness; what holds for every run is proved."
 }
}