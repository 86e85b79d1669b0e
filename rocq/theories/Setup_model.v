(** Model of the builders (astro_run.rs, execution_context/builder.rs, workflow/builder.rs, plugins/plugin.rs, runner/src/astro_runner.rs,
    remote-runner/src/runner_server.rs), of the errors (types/error.rs), of the logger crate and of the cloning of payloads (context_payload.rs). *)
From Verif Require Import Base Types Ids_model Signals_model Cond_model Config_model Plugins_model Paths_model Sched_model Serde_model Json_model.

(** ** Errors: types/error.rs. An IO error has a kind and a text; the other errors are those of [Base.error]. *)
Inductive error_value := EvIo (kind : N) (text : string) | EvOther (e : error).
(** error.rs:1-23, the [#[error]] attributes. [FailedError] prints its number with [{:?}]: in decimal. *)
Definition show_error (e : error_value) : string :=
  match e with
  | EvIo _ t => "IO error: " +++ t
  | EvOther (WorkflowConfigError m) => "Failed to parse user config: " +++ m
  | EvOther (InternalRuntimeError m) => "Error while running workflow: " +++ m
  | EvOther (FailedError c) => "Failed with exit code: " +++ show_usize c
  | EvOther (OtherError m) => "Error: " +++ m
  | EvOther (IOError m) => "IO error: " +++ m
  | EvOther (InitError m) => "Failed to initialize workflow: " +++ m
  | EvOther (UnsupportedFeature m) => "Unsupported feature: " +++ m
  end.
(** error.rs:56-69 *)
Definition error_eq (a b : error_value) : bool :=
  match a, b with
  | EvOther (WorkflowConfigError a), EvOther (WorkflowConfigError b) => eqb a b
  | EvOther (InternalRuntimeError a), EvOther (InternalRuntimeError b) => eqb a b
  | EvOther (FailedError a), EvOther (FailedError b) => eqb a b
  | EvIo a _, EvIo b _ => eqb a b
  | EvOther (OtherError a), EvOther (OtherError b) => eqb a b
  | EvOther (UnsupportedFeature a), EvOther (UnsupportedFeature b) => eqb a b
  | EvOther (InitError a), EvOther (InitError b) => eqb a b
  | _, _ => false
  end.

(** ** AstroRun and its execution contexts *)
Section AstroRun.
(** Runners, plugins and actions are opaque objects here. *)
Variables R P A : Type.
Inductive github_auth := PersonalAccessToken (token : string) | GithubApp (app_id : N) (private_key : string).
(** astro_run.rs:47-53 *)
Record run_builder := RunBuilder { rb_runner : option R; rb_plugins : list P; rb_actions : map_ string A; rb_auth : option github_auth }.
Definition run_builder_new : run_builder := RunBuilder None [] [] None.
Inductive run_call := RcRunner (r : R) | RcPlugin (p : P) | RcAction (name : string) (a : A) | RcToken (t : string) | RcApp (id : N) (key : string).
(** astro_run.rs:60-91 *)
Definition run_call_step (b : run_builder) (c : run_call) : run_builder :=
  match c with
  | RcRunner r => RunBuilder (Some r) (rb_plugins b) (rb_actions b) (rb_auth b)
  | RcPlugin p => RunBuilder (rb_runner b) (rb_plugins b ++ [p]) (rb_actions b) (rb_auth b)
  | RcAction n a => RunBuilder (rb_runner b) (rb_plugins b) (insert n a (rb_actions b)) (rb_auth b)
  | RcToken t => RunBuilder (rb_runner b) (rb_plugins b) (rb_actions b) (Some (PersonalAccessToken t))
  | RcApp i k => RunBuilder (rb_runner b) (rb_plugins b) (rb_actions b) (Some (GithubApp i k))
  end.
(** astro_run.rs:7-14. The signal manager (an [Arc]) is named by its address. *)
Record astro_run := AstroRun { ar_runner : R; ar_auth : option github_auth; ar_plugins : list P; ar_actions : map_ string A; ar_signals : nat }.
(** astro_run.rs:93-104; [None]: the [unwrap] of the runner panics. [fresh]: the address of the new signal manager. *)
Definition build_astro_run (calls : list run_call) (fresh : nat) : option astro_run :=
  let b := fold_left run_call_step calls run_builder_new in
  match rb_runner b with
  | Some r => Some (AstroRun r (rb_auth b) (rb_plugins b) (rb_actions b) fresh)
  | None => None
  end.

(** execution_context/builder.rs:8-28 *)
Record ctx_builder := CtxBuilder {
  cb_runner : option R; cb_plugins : option (list P); cb_signals : option nat; cb_event : option trigger_event; cb_auth : option github_auth; cb_payload : option payload }.
Definition ctx_builder_new : ctx_builder := CtxBuilder None None None None None None.
Inductive ctx_call := XcRunner (r : R) | XcPlugins (ps : list P) | XcSignals (m : nat) | XcEvent (e : trigger_event) | XcAuth (a : github_auth) | XcPayload (p : payload).
(** builder.rs:30-64 *)
Definition ctx_call_step (b : ctx_builder) (c : ctx_call) : ctx_builder :=
  match c with
  | XcRunner r => CtxBuilder (Some r) (cb_plugins b) (cb_signals b) (cb_event b) (cb_auth b) (cb_payload b)
  | XcPlugins p => CtxBuilder (cb_runner b) (Some p) (cb_signals b) (cb_event b) (cb_auth b) (cb_payload b)
  | XcSignals m => CtxBuilder (cb_runner b) (cb_plugins b) (Some m) (cb_event b) (cb_auth b) (cb_payload b)
  | XcEvent e => CtxBuilder (cb_runner b) (cb_plugins b) (cb_signals b) (Some e) (cb_auth b) (cb_payload b)
  | XcAuth a => CtxBuilder (cb_runner b) (cb_plugins b) (cb_signals b) (cb_event b) (Some a) (cb_payload b)
  | XcPayload p => CtxBuilder (cb_runner b) (cb_plugins b) (cb_signals b) (cb_event b) (cb_auth b) (Some p)
  end.
(** execution_context/mod.rs:15-22 *)
Record context := MkContext {
  xt_runner : R; xt_plugins : list P; xt_signals : nat; xt_event : option trigger_event; xt_auth : option github_auth; xt_payload : option payload }.
(** builder.rs:66-97; [None]: one of the three [unwrap]s panics. *)
Definition build_context (b : ctx_builder) : option context :=
  match cb_runner b, cb_plugins b, cb_signals b with
  | Some r, Some p, Some s => Some (MkContext r p s (cb_event b) (cb_auth b) (cb_payload b))
  | _, _, _ => None
  end.
(** astro_run.rs:25-36 *)
Definition execution_context (a : astro_run) : ctx_builder :=
  let b := fold_left ctx_call_step [XcRunner (ar_runner a); XcSignals (ar_signals a); XcPlugins (ar_plugins a)] ctx_builder_new in
  match ar_auth a with Some g => ctx_call_step b (XcAuth g) | None => b end.
(** ... then any calls of the user on it. *)
Definition make_context (a : astro_run) (calls : list ctx_call) : option context := build_context (fold_left ctx_call_step calls (execution_context a)).
(** condition_matcher.rs:12-20: what the context decides conditions with. *)
Definition context_matcher (c : context) : matcher := Matcher (is_some (xt_auth c)) (xt_event c).
End AstroRun.
Arguments RcRunner {R P A}. Arguments RcPlugin {R P A}. Arguments RcAction {R P A}. Arguments RcToken {R P A}. Arguments RcApp {R P A}.
Arguments XcRunner {R P}. Arguments XcPlugins {R P}. Arguments XcSignals {R P}. Arguments XcEvent {R P}. Arguments XcAuth {R P}. Arguments XcPayload {R P}.
Arguments RunBuilder {R P A}. Arguments CtxBuilder {R P}. Arguments AstroRun {R P A}. Arguments MkContext {R P}.
Arguments run_call_step {R P A}. Arguments build_astro_run {R P A}. Arguments ctx_call_step {R P}. Arguments build_context {R P}. Arguments execution_context {R P A}. Arguments make_context {R P A}. Arguments context_matcher {R P}.
Arguments ar_runner {R P A}. Arguments ar_auth {R P A}. Arguments ar_plugins {R P A}. Arguments ar_actions {R P A}. Arguments ar_signals {R P A}.
Arguments xt_runner {R P}. Arguments xt_plugins {R P}. Arguments xt_signals {R P}. Arguments xt_event {R P}. Arguments xt_auth {R P}. Arguments xt_payload {R P}.

(** ** Plugins made with [AstroRunPlugin::builder]: plugins/plugin.rs:18-147, 174-265 *)
Section PluginBuilder.
Variable W : Type.
Inductive hook_call :=
| HcState (f : state_event -> W -> W * result unit) | HcLog (f : workflow_log -> W -> W * result unit)
| HcRunWorkflow (f : run_event workflow -> W -> W * result unit) | HcRunJob (f : run_event job -> W -> W * result unit)
| HcRunStep (f : run_event step -> W -> W * result unit) | HcWorkflowCompleted (f : workflow_run_result -> W -> W * result unit)
| HcJobCompleted (f : job_run_result -> W -> W * result unit) | HcStepCompleted (f : step_run_result -> W -> W * result unit)
| HcResolve (f : user_action_step -> W -> W * result (option action)) | HcBefore (f : step -> W -> W * result step).
Record plugin_builder := PluginBuilder {
  pb_state : option (state_event -> W -> W * result unit); pb_log : option (workflow_log -> W -> W * result unit);
  pb_run_workflow : option (run_event workflow -> W -> W * result unit); pb_run_job : option (run_event job -> W -> W * result unit);
  pb_run_step : option (run_event step -> W -> W * result unit); pb_workflow_completed : option (workflow_run_result -> W -> W * result unit);
  pb_job_completed : option (job_run_result -> W -> W * result unit); pb_step_completed : option (step_run_result -> W -> W * result unit);
  pb_resolve : option (user_action_step -> W -> W * result (option action)); pb_before : option (step -> W -> W * result step) }.
Definition plugin_builder_new : plugin_builder := PluginBuilder None None None None None None None None None None.
(** plugin.rs:50-129 *)
Definition hook_call_step (b : plugin_builder) (c : hook_call) : plugin_builder :=
  let '(PluginBuilder a1 a2 a3 a4 a5 a6 a7 a8 a9 a10) := b in
  match c with
  | HcState f => PluginBuilder (Some f) a2 a3 a4 a5 a6 a7 a8 a9 a10
  | HcLog f => PluginBuilder a1 (Some f) a3 a4 a5 a6 a7 a8 a9 a10
  | HcRunWorkflow f => PluginBuilder a1 a2 (Some f) a4 a5 a6 a7 a8 a9 a10
  | HcRunJob f => PluginBuilder a1 a2 a3 (Some f) a5 a6 a7 a8 a9 a10
  | HcRunStep f => PluginBuilder a1 a2 a3 a4 (Some f) a6 a7 a8 a9 a10
  | HcWorkflowCompleted f => PluginBuilder a1 a2 a3 a4 a5 (Some f) a7 a8 a9 a10
  | HcJobCompleted f => PluginBuilder a1 a2 a3 a4 a5 a6 (Some f) a8 a9 a10
  | HcStepCompleted f => PluginBuilder a1 a2 a3 a4 a5 a6 a7 (Some f) a9 a10
  | HcResolve f => PluginBuilder a1 a2 a3 a4 a5 a6 a7 a8 (Some f) a10
  | HcBefore f => PluginBuilder a1 a2 a3 a4 a5 a6 a7 a8 a9 (Some f)
  end.
(** plugin.rs:180-242: an event hook; a failure is passed on. *)
Definition event_hook {E} (f : option (E -> W -> W * result unit)) (e : E) (w : W) : W * result unit :=
  match f with Some f => match f e w with (w', Ok _) => (w', Ok tt) | (w', Err x) => (w', Err x) end | None => (w, Ok tt) end.
(** plugin.rs:244-257 *)
Definition before_hook (f : option (step -> W -> W * result step)) (st : step) (w : W) : W * result step :=
  match f with Some f => match f st w with (w', Ok st') => (w', Ok st') | (w', Err x) => (w', Err x) end | None => (w, Ok st) end.
(** plugin.rs:259-265 *)
Definition resolve_hook (f : option (user_action_step -> W -> W * result (option action))) (a : user_action_step) (w : W) : W * result (option action) :=
  match f with Some f => f a w | None => (w, Ok None) end.
(** plugin.rs:131-147: the plugin, as the event receiver it is (Plugins_model) and its resolver of actions. *)
Definition built_receiver (b : plugin_builder) : receiver W :=
  Receiver (event_hook (pb_run_workflow b)) (event_hook (pb_run_job b)) (event_hook (pb_run_step b)) (event_hook (pb_state b)) (event_hook (pb_log b))
    (event_hook (pb_step_completed b)) (event_hook (pb_job_completed b)) (event_hook (pb_workflow_completed b)) (before_hook (pb_before b)).
Definition build_plugin (calls : list hook_call) : receiver W * (user_action_step -> W -> W * result (option action)) :=
  let b := fold_left hook_call_step calls plugin_builder_new in (built_receiver b, resolve_hook (pb_resolve b)).
End PluginBuilder.
Arguments HcState {W}. Arguments HcLog {W}. Arguments HcRunWorkflow {W}. Arguments HcRunJob {W}. Arguments HcRunStep {W}. Arguments HcWorkflowCompleted {W}. Arguments HcJobCompleted {W}. Arguments HcStepCompleted {W}.
Arguments HcResolve {W}. Arguments HcBefore {W}. Arguments PluginBuilder {W}. Arguments hook_call_step {W}. Arguments event_hook {W E}. Arguments build_plugin {W}. Arguments before_hook {W}. Arguments resolve_hook {W}.

(** ** The remote runner server's builder: runner_server.rs:233-318 *)
Section ServerBuilder.
Variables R P : Type.
Inductive server_call := ScId (id : string) | ScMaxRuns (n : Z) | ScDocker (b : bool) | ScHost (b : bool) | ScPlugin (p : P) | ScRunner (r : R).
Record server_builder := ServerBuilder {
  sb_id : option string; sb_runner : option R; sb_max_runs : Z; sb_docker : option bool; sb_host : bool; sb_plugins : list P }.
(** runner_server.rs:243-252 *)
Definition server_builder_new : server_builder := ServerBuilder None None 5 None true [].
(** runner_server.rs:254-290 *)
Definition server_call_step (b : server_builder) (c : server_call) : server_builder :=
  match c with
  | ScId i => ServerBuilder (Some i) (sb_runner b) (sb_max_runs b) (sb_docker b) (sb_host b) (sb_plugins b)
  | ScMaxRuns n => ServerBuilder (sb_id b) (sb_runner b) n (sb_docker b) (sb_host b) (sb_plugins b)
  | ScDocker d => ServerBuilder (sb_id b) (sb_runner b) (sb_max_runs b) (Some d) (sb_host b) (sb_plugins b)
  | ScHost h => ServerBuilder (sb_id b) (sb_runner b) (sb_max_runs b) (sb_docker b) h (sb_plugins b)
  | ScPlugin p => ServerBuilder (sb_id b) (sb_runner b) (sb_max_runs b) (sb_docker b) (sb_host b) (sb_plugins b ++ [p])
  | ScRunner r => ServerBuilder (sb_id b) (Some r) (sb_max_runs b) (sb_docker b) (sb_host b) (sb_plugins b)
  end.
Record built_server := BuiltServer { bs_runner : R; bs_plugins : list P; bs_meta : runner_meta }.
(** runner_server.rs:292-317 and 187-206 (the metadata it reports). [probe]: whether [docker ps] runs and succeeds; it is run only when asked for here. *)
Definition build_server (calls : list server_call) (probe : bool) (os arch version : string) : result built_server :=
  let b := fold_left server_call_step calls server_builder_new in
  match sb_runner b with
  | None => Err (InitError "Runner is not set")
  | Some r =>
      match sb_id b with
      | None => Err (InitError "Id is not set")
      | Some i => Ok (BuiltServer r (sb_plugins b) (RunnerMeta i os arch (option_default probe (sb_docker b)) (sb_host b) version (sb_max_runs b)))
      end
  end.
End ServerBuilder.
Arguments ScId {R P}. Arguments ScMaxRuns {R P}. Arguments ScDocker {R P}. Arguments ScHost {R P}. Arguments ScPlugin {R P}. Arguments ScRunner {R P}. Arguments server_call_step {R P}. Arguments build_server {R P}.
Arguments ServerBuilder {R P}. Arguments BuiltServer {R P}. Arguments bs_runner {R P}. Arguments bs_plugins {R P}. Arguments bs_meta {R P}.

(** runner/src/astro_runner.rs:136-158: the working directory of the built-in runner. [home]: the home directory, if there is one. *)
Definition runner_directory (given : list string) (home : option string) : result string :=
  match fold_left (fun _ d => Some d) given None with
  | Some d => Ok d
  | None => match home with
            | Some h => Ok (path_join h "astro-run")
            | None => Err (InitError "AstroRunnerBuilder: working_directory is required")
            end
  end.

(** ** The logger crate: logger/src/lib.rs *)
Inductive level := LvError | LvWarn | LvInfo | LvDebug | LvTrace.
(** log crate: [Level as usize] *)
Definition level_num (l : level) : nat := match l with LvError => 1 | LvWarn => 2 | LvInfo => 3 | LvDebug => 4 | LvTrace => 5 end.
Definition lower (c : ascii) : ascii := let n := nat_of_ascii c in if Nat.leb 65 n && Nat.leb n 90 then ascii_of_nat (n + 32) else c.
Fixpoint lower_all (s : string) : string := match s with "" => "" | String c r => String (lower c) (lower_all r) end.
(** log crate: [Level::from_str] ignores the case of the five names; "off" is not a level. *)
Definition level_of_string (s : string) : option level :=
  lookup (lower_all s) [("error", LvError); ("warn", LvWarn); ("info", LvInfo); ("debug", LvDebug); ("trace", LvTrace)].
(** lib.rs:60-61; [var]: RUST_LOG, [None] if unset or not UTF-8. *)
Definition env_level (var : option string) : level := option_default LvInfo (level_of_string (option_default "info" var)).

(** Calls of [init_logger] / [init_logger_with_level] by any number of threads: lib.rs:52-82. [OnceLock::get_or_init] runs one closure at a time; a closure that
    panics leaves the lock empty. *)
Inductive once := OnceEmpty | OnceRunning (c : nat) | OnceFull.
Inductive lcall := LcCheck (lv : option level) (* [None]: the level comes from RUST_LOG *) | LcInit (lv : option level) | LcSet (lv : level) | LcMax (lv : level) | LcReturned | LcPanicked.
Record lstate := LState { ls_once : once; ls_logger : option level (* the logger of the log crate *); ls_foreign : bool (* installed by somebody else *);
                          ls_max : nat; ls_calls : map_ nat lcall }.
Definition linit : lstate := LState OnceEmpty None false 0 [].
Inductive lop :=
| LoCall (c : nat) (lv : option level)
| LoNext (c : nat) (var : option string)    (* RUST_LOG as it is then *)
| LoForeign.                                (* other code installs its own logger *)
Definition lset (s : lstate) (c : nat) (k : lcall) : lstate := LState (ls_once s) (ls_logger s) (ls_foreign s) (ls_max s) (insert c k (ls_calls s)).
Definition lstep (s : lstate) (o : lop) : option lstate :=
  match o with
  | LoCall c lv => if contains_key c (ls_calls s) then None else Some (lset s c (LcCheck lv))
  | LoForeign => if is_some (ls_logger s) || ls_foreign s then None else Some (LState (ls_once s) (ls_logger s) true (ls_max s) (ls_calls s))
  | LoNext c var =>
      match lookup c (ls_calls s) with
      | Some (LcCheck lv) => Some (lset s c (match ls_once s with OnceFull => LcReturned | _ => LcInit lv end))      (* LOGGER.get() *)
      | Some (LcInit lv) =>                                                                                        (* get_or_init *)
          match ls_once s with
          | OnceFull => Some (lset s c LcReturned)
          | OnceRunning _ => None
          | OnceEmpty => Some (LState (OnceRunning c) (ls_logger s) (ls_foreign s) (ls_max s) (insert c (LcSet (option_default (env_level var) lv)) (ls_calls s)))
          end
      | Some (LcSet lv) =>                                                                                         (* set_logger(..).unwrap() *)
          if is_some (ls_logger s) || ls_foreign s
          then Some (LState OnceEmpty (ls_logger s) (ls_foreign s) (ls_max s) (insert c LcPanicked (ls_calls s)))
          else Some (LState (ls_once s) (Some lv) (ls_foreign s) (ls_max s) (insert c (LcMax lv) (ls_calls s)))
      | Some (LcMax lv) => Some (LState OnceFull (ls_logger s) (ls_foreign s) (level_num lv) (insert c LcReturned (ls_calls s)))
      | _ => None
      end
  end.
Inductive lrun : list lop -> lstate -> Prop :=
| lrun_init : lrun [] linit
| lrun_step ops s o s' : lrun ops s -> lstep s o = Some s' -> lrun (ops ++ [o]) s'.
(** log crate macros ([lvl <= max_level()]), then lib.rs:16-18, 20-23: is a record of this level printed? *)
Definition printed (s : lstate) (l : level) : bool :=
  Nat.leb (level_num l) (ls_max s) && match ls_logger s with Some lv => Nat.leb (level_num l) (level_num lv) | None => false end.

(** ** Payloads: context_payload.rs. A payload is an object of one of the registered types; [D] stands for all of them together. typetag writes
    an object of the type registered as [tag] as a map with the one key [tag]. *)
Section Payload.
Variable show_f64 : spec_float -> string.
Variable read_f64_text : string -> option spec_float.
Variable D : Type.
(** The serde implementations of the registered types, and which tags are registered. *)
Variable put_data : string -> D -> value.
Variable read_data : string -> value -> option D.
Record object := Object { ob_tag : string; ob_data : D }.
(** context_payload.rs:33-44 [Clone]; [None]: one of the two [expect]s panics. *)
Definition clone_payload (p : object) : option object :=
  let text := print show_f64 (put_variant (ob_tag p) (put_data (ob_tag p) (ob_data p))) in
  let! v := parse read_f64_text text in
  match v with
  | VMap [(VStr t, x)] => let! d := read_data t x in Some (Object t d)
  | _ => None
  end.
(** context_payload.rs:20-25 [payload::<P>()] for the type registered as [tag]. *)
Definition payload_as (tag : string) (p : object) : option D := if eqb (ob_tag p) tag then Some (ob_data p) else None.
End Payload.
