(** Model of crates/astro-run/src/execution_context/mod.rs [ExecutionContext::run] (one step) and
    crates/astro-run/src/workflow/job.rs [Job::run] (one job) as state machines whose transitions contain at most one
    access to shared state (clock, signal registry, signals, condition cache, the step's stream and signal) or one
    delivery of an event. Every interleaving with the environment is an execution. *)
From Verif Require Import Base Types Signals_model Stream_model Cond_model Plugins_model.

(** workflow/step.rs:28-41 [From<Step> for Command] *)
Definition command_of_step (st : step) : command :=
  Command (st_id st) (st_name st) (st_container st) (st_run st) (st_continue_on_error st)
    (st_environments st) (st_secrets st) (st_timeout st).

(** types/context.rs:17-25: what the runner is given, except the signal (which is the step's [sig_state]). *)
Record run_context := RunContext {
  rx_id : step_id; rx_command : command; rx_event : option trigger_event; rx_payload : option payload }.

(** Observations. [OHook] is one [call_on_*] delivery (see Plugins_model for how it reaches the receivers); [ORun] is
    the call of [Runner::run]; [OMatch] records the answer of one [is_match] call; [OSpawn]/[OReceive] record that the
    workflow started a job task and that it received a job's result. *)
Inductive obs :=
| OHook (e : hook_event)
| ORun (c : run_context)
| OMatch (c : condition) (b : bool)
| OSpawn (key : string)
| OReceive (key : string) (r : job_run_result).

(** Shared state of one [ExecutionContext] and its clones: clock, [SignalManager], condition cache. *)
Record shared := Shared { sh_now : time; sh_sm : sigman; sh_cache : option condition_payload }.
Definition set_sm (sm : sigman) (sh : shared) : shared := Shared (sh_now sh) sm (sh_cache sh).
Definition set_cache (c : option condition_payload) (sh : shared) : shared := Shared (sh_now sh) (sh_sm sh) c.

(** What the rest of the program may do between two transitions: let time pass, use the signal manager and the
    signals in it in any way (other jobs, [cancel_job] callers), fill the cache. *)
Inductive env_op := ETick (d : N) | ESig (o : sm_op) | ECache (c : option condition_payload).
Definition env_step (sh : shared) (e : env_op) : shared :=
  match e with
  | ETick d => Shared (sh_now sh + d)%N (sh_sm sh) (sh_cache sh)
  | ESig o => set_sm (fst (sm_step (sh_sm sh) o)) sh
  | ECache c => set_cache c sh
  end.

(** execution_context/mod.rs:15-22 without plugins and runner. *)
Record ectx := ECtx { cx_matcher : matcher; cx_payload : option payload }.

Section Exec.
Variable glob : glob_oracle.
Variable cx : ectx.
(** identity of the task that runs the job: the waker it registers *)
Variable me : task.

(** ** One step: execution_context/mod.rs:25-196 *)
Inductive panic_why := PMissingSignal | PMissingResult.
Inductive step_phase :=
| SpBefore (st : step)                                    (* :26 *)
| SpStarted (st : step)                                   (* :31 *)
| SpRunEvent (st : step) (t0 : time)                      (* :39 *)
| SpQueue (st : step) (t0 : time)                         (* :47 *)
| SpGetSignal (st : step) (t0 : time)                     (* :50-53 *)
| SpCall (st : step) (t0 : time) (a : nat)                (* :56-66; a = address of the job's signal *)
| SpCalling (st : step) (t0 : time) (a : nat) (sg : sig_state) (str : stream_state)     (* :67 awaiting the runner *)
| SpInProgress (st : step) (t0 : time) (a : nat) (sg : sig_state) (str : stream_state)  (* :106 *)
| SpEnter (st : step) (t0 : time) (a : nat) (sg : sig_state) (str : stream_state)       (* :108-111 create the timer *)
| SpLoop (st : step) (t0 : time) (a : nat) (sg : sig_state) (str : stream_state) (ti : time)  (* :109; timer created at ti *)
| SpGotLog (st : step) (t0 : time) (a : nat) (sg : sig_state) (str : stream_state) (l : log)  (* :126-131 *)
| SpDeliver (st : step) (t0 : time) (a : nat) (sg : sig_state) (str : stream_state) (l : workflow_log)  (* :134 *)
| SpBroken (st : step) (t0 : time) (a : nat) (sg : sig_state) (str : stream_state)      (* :142-148 *)
| SpEnded (st : step) (t0 : time) (state : wf_state) (code : option Z)                  (* :71, :150 *)
| SpTerminal (r : step_run_result)                                                     (* :85, :189 *)
| SpComplete (r : step_run_result)                                                     (* :95, :191 *)
| SpDone (r : step_run_result)                                                         (* :97, :195 *)
| SpPanic (why : panic_why).

(** The runner's side: it holds the stream's sender and a clone of the step's signal. It may use them from the moment
    [Runner::run] is called. (Reading the stream itself before returning it is not modelled.) *)
Inductive runner_op := RLog (m : string) | RError (m : string) | REndCheck (c : nat) (r : run_result)
| REndCommit (c : nat) | RIsEnded | RSig (o : sig_op).
Definition runner_stream_op (o : runner_op) : option stream_op :=
  match o with
  | RLog m => Some (SLog m) | RError m => Some (SError m)
  | REndCheck c r => Some (SEndCheck c r) | REndCommit c => Some (SEndCommit c)
  | RIsEnded => Some SIsEnded | RSig _ => None
  end.
Definition runner_step (o : runner_op) (sg : sig_state) (str : stream_state) : sig_state * stream_state :=
  match o with
  | RSig so => (fst (sig_step sg so), str)
  | _ => match runner_stream_op o with
         | Some so => (sg, fst (stream_step str so))
         | None => (sg, str)
         end
  end.

Inductive step_op :=
| OpNext                                   (* the engine's next action where it has only one *)
| OpBefore (c : exec_context unit)         (* before-run hooks; how they behave in this call is arbitrary *)
| OpAnswer (ok : bool)                     (* Runner::run returned Ok / Err *)
| OpTimer | OpJobSignal | OpStream         (* which select! branch is polled *)
| OpRunner (o : runner_op).

Definition step_obs (st : step) (s : wf_state) : list obs := [OHook (HState (StepStateUpdated (st_id st) s))].

(** execution_context/mod.rs:160-182 *)
Definition result_state (rr : run_result) : wf_state * option Z :=
  match rr with
  | RSucceeded => (Succeeded, None)
  | RFailed c => (Failed, Some c)
  | RCancelled => (Cancelled, None)
  end.

(** [signal.timeout().ok()] / [signal.cancel().ok()]: execution_context/mod.rs:113, 118, 121 *)
Definition raise_ok (s : signal) (sg : sig_state) : sig_state := fst (fst (sig_raise s sg)).

Definition step_step (sh : shared) (p : step_phase) (op : step_op) : option (shared * step_phase * list obs) :=
  match p, op with
  | SpBefore st, OpBefore c => Some (sh, SpStarted (snd (call_on_before_run_step unit c st tt)), [])
  | SpStarted st, OpNext => Some (sh, SpRunEvent st (sh_now sh), [])
  | SpRunEvent st t0, OpNext =>
      Some (sh, SpQueue st t0, [OHook (HRunStep (RunEvent st (cm_event (cx_matcher cx)) (cx_payload cx)))])
  | SpQueue st t0, OpNext => Some (sh, SpGetSignal st t0, step_obs st Queued)
  | SpGetSignal st t0, OpNext =>
      match lookup (step_id_job_id (st_id st)) (sm_reg (sh_sm sh)) with
      | Some a => Some (sh, SpCall st t0 a, [])
      | None => Some (sh, SpPanic PMissingSignal, [])
      end
  | SpCall st t0 a, OpNext =>
      Some (sh, SpCalling st t0 a sig_init stream_init,
            [ORun (RunContext (st_id st) (command_of_step st) (cm_event (cx_matcher cx)) (cx_payload cx))])
  | SpCalling st t0 a sg str, OpAnswer true => Some (sh, SpInProgress st t0 a sg str, [])
  | SpCalling st t0 a sg str, OpAnswer false => Some (sh, SpEnded st t0 Failed (Some 1%Z), [])
  | SpInProgress st t0 a sg str, OpNext => Some (sh, SpEnter st t0 a sg str, step_obs st InProgress)
  | SpEnter st t0 a sg str, OpNext => Some (sh, SpLoop st t0 a sg str (sh_now sh), [])
  | SpLoop st t0 a sg str ti, OpTimer =>
      if (ti + duration_ns (st_timeout st) <=? sh_now sh)%N
      then Some (sh, SpEnter st t0 a (raise_ok SigTimeout sg) str, [])
      else None
  | SpLoop st t0 a sg str ti, OpJobSignal =>
      match sm_step (sh_sm sh) (MSignal a (OPoll me)) with
      | (sm', MSig (OPolled (Some s))) => Some (set_sm sm' sh, SpEnter st t0 a (raise_ok s sg) str, [])
      | (sm', MSig (OPolled None)) => Some (set_sm sm' sh, SpLoop st t0 a sg str ti, [])
      | _ => None
      end
  | SpLoop st t0 a sg str ti, OpStream =>
      match stream_poll me str with
      | (str', PItem l, _) => Some (sh, SpGotLog st t0 a sg str' l, [])
      | (str', PEnd, _) => Some (sh, SpBroken st t0 a sg str', [])
      | (str', PPending, _) => Some (sh, SpLoop st t0 a sg str' ti, [])
      end
  | SpGotLog st t0 a sg str l, OpNext =>
      Some (sh, SpDeliver st t0 a sg str (WorkflowLog (st_id st) (l_type l) (l_message l) (sh_now sh)), [])
  | SpDeliver st t0 a sg str wl, OpNext => Some (sh, SpEnter st t0 a sg str, [OHook (HLog wl)])
  | SpBroken st t0 a sg str, OpNext =>
      match ss_result str with
      | None => Some (sh, SpPanic PMissingResult, [])
      | Some rr => Some (sh, SpEnded st t0 (fst (result_state rr)) (snd (result_state rr)), [])
      end
  | SpEnded st t0 state code, OpNext =>
      Some (sh, SpTerminal (StepRunResult (st_id st) state code (Some t0) (Some (sh_now sh))), [])
  | SpTerminal r, OpNext => Some (sh, SpComplete r, [OHook (HState (StepStateUpdated (sr_id r) (sr_state r)))])
  | SpComplete r, OpNext => Some (sh, SpDone r, [OHook (HStepCompleted r)])
  | SpCalling st t0 a sg str, OpRunner o =>
      let '(sg', str') := runner_step o sg str in Some (sh, SpCalling st t0 a sg' str', [])
  | SpInProgress st t0 a sg str, OpRunner o =>
      let '(sg', str') := runner_step o sg str in Some (sh, SpInProgress st t0 a sg' str', [])
  | SpEnter st t0 a sg str, OpRunner o =>
      let '(sg', str') := runner_step o sg str in Some (sh, SpEnter st t0 a sg' str', [])
  | SpLoop st t0 a sg str ti, OpRunner o =>
      let '(sg', str') := runner_step o sg str in Some (sh, SpLoop st t0 a sg' str' ti, [])
  | SpGotLog st t0 a sg str l, OpRunner o =>
      let '(sg', str') := runner_step o sg str in Some (sh, SpGotLog st t0 a sg' str' l, [])
  | SpDeliver st t0 a sg str l, OpRunner o =>
      let '(sg', str') := runner_step o sg str in Some (sh, SpDeliver st t0 a sg' str' l, [])
  | SpBroken st t0 a sg str, OpRunner o =>
      let '(sg', str') := runner_step o sg str in Some (sh, SpBroken st t0 a sg' str', [])
  | _, _ => None
  end.

(** All executions of one step: own transitions interleaved with the environment. *)
Inductive slabel := SOwn (op : step_op) | SEnv (e : env_op).
Inductive srun (st0 : step) : list slabel -> shared -> step_phase -> list obs -> Prop :=
| srun_init sh : srun st0 [] sh (SpBefore st0) []
| srun_own ls sh p tr op sh' p' o :
    srun st0 ls sh p tr -> step_step sh p op = Some (sh', p', o) -> srun st0 (ls ++ [SOwn op]) sh' p' (tr ++ o)
| srun_env ls sh p tr e :
    srun st0 ls sh p tr -> srun st0 (ls ++ [SEnv e]) (env_step sh e) p tr.

(** ** One job: workflow/job.rs:20-122 *)
Inductive job_phase :=
| JpCheck                                                            (* :21 should_skip *)
| JpFetch (c : condition) (ev : trigger_event)                       (* awaiting GitHub for the job's condition *)
| JpSkip                                                             (* :22-27 *)
| JpStart                                                            (* :38 *)
| JpRegister (t0 : time)                                             (* execution_context/mod.rs:219-221 *)
| JpRunEvent (t0 : time)                                             (* :42 *)
| JpInProgress (t0 : time)                                           (* :43-48 *)
| JpSteps (t0 : time) (js : wf_state) (rs : list step_run_result) (rest : list step)   (* :52 top of the loop *)
| JpStepFetch (t0 : time) (js : wf_state) (rs : list step_run_result) (st : step) (rest : list step)
    (c : condition) (ev : trigger_event)                             (* :59 awaiting GitHub for the step's condition *)
| JpStepSkip (t0 : time) (js : wf_state) (rs : list step_run_result) (st : step) (rest : list step)  (* :63-81 *)
| JpStepRun (t0 : time) (js : wf_state) (rs : list step_run_result) (p : step_phase) (rest : list step)  (* :83 *)
| JpEndState (r : job_run_result)                                    (* :104-109 *)
| JpUnregister (r : job_run_result)                                  (* execution_context/mod.rs:244 *)
| JpCompleted (r : job_run_result)                                   (* :119 *)
| JpReturned (r : job_run_result).                                   (* :29, :121 *)

Inductive job_op := JNext | JGithub (gh : github) | JStep (op : step_op).

(** job.rs:53-57 *)
Definition forced_skip (js : wf_state) (st : step) : bool :=
  match js with
  | Failed => negb (st_continue_on_error st)
  | Cancelled | Skipped => true
  | _ => false
  end.
(** job.rs:73-79 *)
Definition skipped_step_result (st : step) : step_run_result := StepRunResult (st_id st) Skipped None None None.
(** job.rs:85-93 *)
Definition job_state_after (js : wf_state) (r : step_run_result) : wf_state :=
  match sr_state r with Failed => Failed | Cancelled => Cancelled | _ => js end.
(** job.rs:98-100 *)
Definition job_final_state (js : wf_state) : wf_state := match js with InProgress => Succeeded | _ => js end.

Definition job_obs (j : job) (s : wf_state) : list obs := [OHook (HState (JobStateUpdated (jb_id j) s))].

Definition job_step (j : job) (sh : shared) (p : job_phase) (op : job_op) : option (shared * job_phase * list obs) :=
  match p, op with
  | JpCheck, JNext =>
      match jb_on j with
      | None => Some (sh, JpStart, [])
      | Some c => match is_match_first glob (cx_matcher cx) (sh_cache sh) c with
                  | Decided b => Some (sh, if b then JpStart else JpSkip, [OMatch c b])
                  | NeedFetch ev => Some (sh, JpFetch c ev, [])
                  end
      end
  | JpFetch c ev, JGithub gh =>
      let '(cache', b) := is_match_second glob (fetch_payload gh ev) (sh_cache sh) c in
      Some (set_cache cache' sh, if b then JpStart else JpSkip, [OMatch c b])
  | JpSkip, JNext => Some (sh, JpReturned (JobRunResult (jb_id j) Skipped None None []), job_obs j Skipped)
  | JpStart, JNext => Some (sh, JpRegister (sh_now sh), [])
  | JpRegister t0, JNext => Some (set_sm (fst (sm_step (sh_sm sh) (MRegister (jb_id j)))) sh, JpRunEvent t0, [])
  | JpRunEvent t0, JNext =>
      Some (sh, JpInProgress t0, [OHook (HRunJob (RunEvent j (cm_event (cx_matcher cx)) (cx_payload cx)))])
  | JpInProgress t0, JNext => Some (sh, JpSteps t0 InProgress [] (jb_steps j), job_obs j InProgress)
  | JpSteps t0 js rs [], JNext =>
      Some (sh, JpEndState (JobRunResult (jb_id j) (job_final_state js) (Some t0) (Some (sh_now sh)) rs), [])
  | JpSteps t0 js rs (st :: rest), JNext =>
      if forced_skip js st then Some (sh, JpStepSkip t0 js rs st rest, [])
      else match st_on st with
           | None => Some (sh, JpStepRun t0 js rs (SpBefore st) rest, [])
           | Some c =>
               match is_match_first glob (cx_matcher cx) (sh_cache sh) c with
               | Decided b =>
                   Some (sh, if b then JpStepRun t0 js rs (SpBefore st) rest else JpStepSkip t0 js rs st rest, [OMatch c b])
               | NeedFetch ev => Some (sh, JpStepFetch t0 js rs st rest c ev, [])
               end
           end
  | JpStepFetch t0 js rs st rest c ev, JGithub gh =>
      let '(cache', b) := is_match_second glob (fetch_payload gh ev) (sh_cache sh) c in
      Some (set_cache cache' sh,
            if b then JpStepRun t0 js rs (SpBefore st) rest else JpStepSkip t0 js rs st rest, [OMatch c b])
  | JpStepSkip t0 js rs st rest, JNext =>
      Some (sh, JpSteps t0 js (rs ++ [skipped_step_result st]) rest, step_obs st Skipped)
  | JpStepRun t0 js rs (SpDone r) rest, JNext => Some (sh, JpSteps t0 (job_state_after js r) (rs ++ [r]) rest, [])
  | JpStepRun t0 js rs sp rest, JStep sop =>
      match step_step sh sp sop with
      | Some (sh', sp', o) => Some (sh', JpStepRun t0 js rs sp' rest, o)
      | None => None
      end
  | JpEndState r, JNext => Some (sh, JpUnregister r, [OHook (HState (JobStateUpdated (jr_id r) (jr_state r)))])
  | JpUnregister r, JNext => Some (set_sm (fst (sm_step (sh_sm sh) (MUnregister (jr_id r)))) sh, JpCompleted r, [])
  | JpCompleted r, JNext => Some (sh, JpReturned r, [OHook (HJobCompleted r)])
  | _, _ => None
  end.

Inductive jlabel := JOwn (op : job_op) | JEnv (e : env_op).
Inductive jrun (j : job) : list jlabel -> shared -> job_phase -> list obs -> Prop :=
| jrun_init sh : jrun j [] sh JpCheck []
| jrun_own ls sh p tr op sh' p' o :
    jrun j ls sh p tr -> job_step j sh p op = Some (sh', p', o) -> jrun j (ls ++ [JOwn op]) sh' p' (tr ++ o)
| jrun_env ls sh p tr e :
    jrun j ls sh p tr -> jrun j (ls ++ [JEnv e]) (env_step sh e) p tr.
End Exec.
