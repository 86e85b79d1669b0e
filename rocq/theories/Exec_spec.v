(** Specification of what a step and a job do, in terms of the events they emit (for the event names see
    Plugins_model; a [OHook e] reaches every plugin and the runner, C21). *)
From Verif Require Import Base Types Signals_model Stream_model Stream_spec Cond_model Plugins_model Plugins_spec Exec_model.

Definition step_state_event (id : step_id) (s : wf_state) : obs := OHook (HState (StepStateUpdated id s)).
Definition job_state_event (id : job_id) (s : wf_state) : obs := OHook (HState (JobStateUpdated id s)).

(** C22: [st] is what the before-run hooks make of [st0]. *)
Definition hooked (st0 st : step) : Prop := exists c : exec_context unit, passes (receivers c) st0 tt st tt.

(** C25: how a step result mirrors the runner's result. *)
Definition mirrors (rr : run_result) (r : step_run_result) : Prop :=
  match rr with
  | RSucceeded => sr_state r = Succeeded /\ sr_exit_code r = None
  | RFailed n => sr_state r = Failed /\ sr_exit_code r = Some n
  | RCancelled => sr_state r = Cancelled /\ sr_exit_code r = None
  end.

(** What [Runner::run] is given for step [st]. *)
Definition runner_call (cx : ectx) (st : step) : obs :=
  ORun (RunContext (st_id st)
    (Command (st_id st) (st_name st) (st_container st) (st_run st) (st_continue_on_error st) (st_environments st)
             (st_secrets st) (st_timeout st))
    (cm_event (cx_matcher cx)) (cx_payload cx)).

(** C23: the events of one step, from its on_run_step to its completion with result [r]. *)
Definition step_story (cx : ectx) (st0 : step) (evs : list obs) (r : step_run_result) : Prop :=
  exists st t0 t1, hooked st0 st /\ sr_id r = st_id st /\
    sr_started_at r = Some t0 /\ sr_completed_at r = Some t1 /\ (t0 <= t1)%N /\
    let opening := [OHook (HRunStep (RunEvent st (cm_event (cx_matcher cx)) (cx_payload cx)));
                    step_state_event (st_id st) Queued; runner_call cx st] in
    ( (* the runner refused *)
      (sr_state r = Failed /\ sr_exit_code r = Some 1%Z /\
       evs = opening ++ [step_state_event (st_id st) Failed; OHook (HStepCompleted r)])
    \/ (exists rr logs, mirrors rr r /\ (forall l, In l logs -> wl_step_id l = st_id st) /\
       evs = opening ++ [step_state_event (st_id st) InProgress] ++ map (fun l => OHook (HLog l)) logs
             ++ [step_state_event (st_id st) (sr_state r); OHook (HStepCompleted r)])).

(** The logs delivered in a list of events, without id and time. *)
Fixpoint delivered (evs : list obs) : list log :=
  match evs with
  | [] => []
  | OHook (HLog l) :: evs' => Log (wl_type l) (wl_message l) :: delivered evs'
  | _ :: evs' => delivered evs'
  end.

(** The operations on the step's stream in an execution: the runner's and the engine's reads. *)
Fixpoint stream_ops (me : task) (ls : list slabel) : list stream_op :=
  match ls with
  | [] => []
  | SOwn OpStream :: ls' => SPoll me :: stream_ops me ls'
  | SOwn (OpRunner o) :: ls' => match runner_stream_op o with Some so => [so] | None => [] end ++ stream_ops me ls'
  | _ :: ls' => stream_ops me ls'
  end.

(** C28, C29: the entry of a skipped step. *)
Definition skipped_entry (st : step) (r : step_run_result) : Prop :=
  sr_id r = st_id st /\ sr_state r = Skipped /\ sr_exit_code r = None /\ sr_started_at r = None /\ sr_completed_at r = None.

(** C29: must step [st] be skipped because of the results of the earlier steps? *)
Definition must_skip (earlier : list step_run_result) (st : step) : Prop :=
  (exists r, In r earlier /\ sr_state r = Cancelled) \/
  ((exists r, In r earlier /\ sr_state r = Failed) /\ st_continue_on_error st = false).

(** The condition of a step or job lets it run; [evs] is the check made. *)
Definition lets_run (on : option condition) (evs : list obs) : Prop :=
  match on with None => evs = [] | Some c => evs = [OMatch c true] end.

(** C28, C29, C31: the events and results of the steps of a job, in order, [earlier] being the results so far.
    [S st evs r] says that [evs] are the events of running step [st] to completion with result [r]. *)
Inductive steps_story (S : step -> list obs -> step_run_result -> Prop)
  : list step_run_result -> list step -> list obs -> list step_run_result -> Prop :=
| ss_nil earlier : steps_story S earlier [] [] []
| ss_forced earlier st rest r evs rs :
    must_skip earlier st -> skipped_entry st r -> steps_story S (earlier ++ [r]) rest evs rs ->
    steps_story S earlier (st :: rest) ([step_state_event (st_id st) Skipped] ++ evs) (r :: rs)
| ss_unmatched earlier st rest c r evs rs :
    ~ must_skip earlier st -> st_on st = Some c -> skipped_entry st r -> steps_story S (earlier ++ [r]) rest evs rs ->
    steps_story S earlier (st :: rest) ([OMatch c false; step_state_event (st_id st) Skipped] ++ evs) (r :: rs)
| ss_run earlier st rest check sevs r evs rs :
    ~ must_skip earlier st -> lets_run (st_on st) check -> S st sevs r ->
    steps_story S (earlier ++ [r]) rest evs rs ->
    steps_story S earlier (st :: rest) (check ++ sevs ++ evs) (r :: rs).

(** C30: the state a job ends in. *)
Definition final_state (rs : list step_run_result) (s : wf_state) : Prop :=
  ((exists r, In r rs /\ sr_state r = Cancelled) /\ s = Cancelled) \/
  ((forall r, In r rs -> sr_state r <> Cancelled) /\ (exists r, In r rs /\ sr_state r = Failed) /\ s = Failed) \/
  ((forall r, In r rs -> sr_state r <> Cancelled /\ sr_state r <> Failed) /\ s = Succeeded).

(** C31: the events of a job and the result it returns. *)
Inductive job_story_with (S : step -> list obs -> step_run_result -> Prop) (cx : ectx) (j : job) : list obs -> job_run_result -> Prop :=
| js_skipped c : jb_on j = Some c ->
    job_story_with S cx j [OMatch c false; job_state_event (jb_id j) Skipped] (JobRunResult (jb_id j) Skipped None None [])
| js_run check evs rs s t0 t1 :
    lets_run (jb_on j) check -> steps_story S [] (jb_steps j) evs rs -> final_state rs s -> (t0 <= t1)%N ->
    let r := JobRunResult (jb_id j) s (Some t0) (Some t1) rs in
    job_story_with S cx j
      (check ++ [OHook (HRunJob (RunEvent j (cm_event (cx_matcher cx)) (cx_payload cx))); job_state_event (jb_id j) InProgress]
       ++ evs ++ [job_state_event (jb_id j) s; OHook (HJobCompleted r)]) r.

Definition job_story (cx : ectx) : job -> list obs -> job_run_result -> Prop := job_story_with (step_story cx) cx.

(** How long a duration is, in nanoseconds. *)
Definition nanoseconds (d : duration) : N := (1000000000 * d_secs d + d_nanos d)%N.
Lemma nanoseconds_eq d : duration_ns d = nanoseconds d.
Proof. unfold duration_ns, nanoseconds. lia. Qed.
(** Time that passes in an execution. *)
Fixpoint ticks (ls : list slabel) : N :=
  match ls with [] => 0%N | SEnv (ETick d) :: ls' => (d + ticks ls')%N | _ :: ls' => ticks ls' end.

(** C31: nobody else registers or unregisters a signal for job [j] meanwhile. *)
Definition quiet (j : job) (l : jlabel) : Prop :=
  match l with
  | JEnv (ESig (MRegister x)) | JEnv (ESig (MUnregister x)) => x <> jb_id j
  | _ => True
  end.
(** The before-run hooks do not move a step to another job. *)
Definition keeps_job (l : jlabel) : Prop :=
  match l with
  | JOwn (JStep (OpBefore c)) =>
      forall st, step_id_job_id (st_id (snd (call_on_before_run_step unit c st tt))) = step_id_job_id (st_id st)
  | _ => True
  end.
Definition owns_steps (j : job) : Prop := forall st, In st (jb_steps j) -> step_id_job_id (st_id st) = jb_id j.

(** [j] is registered in [sh] with signal object [a] / not registered. *)
Definition job_signal (j : job) (sh : shared) : option nat := lookup (jb_id j) (sm_reg (sh_sm sh)).

(** the phases during which the job's signal is registered *)
Definition running (p : job_phase) : bool :=
  match p with
  | JpRunEvent _ | JpInProgress _ | JpSteps _ _ _ _ | JpStepFetch _ _ _ _ _ _ _ | JpStepSkip _ _ _ _ _ | JpStepRun _ _ _ _ _
  | JpEndState _ | JpUnregister _ => true
  | _ => false
  end.

(** Signal object [a] has been raised as [s] and nobody has received it yet; [looks]: a look at it. *)
Definition undelivered_cell (sh : shared) (a : nat) (s : signal) : Prop :=
  exists c, nth_error (sm_heap (sh_sm sh)) a = Some c /\ sg_signal c = Some s /\ sg_notified c = false.
Definition polls_cell (a : nat) (o : sm_op) : Prop := exists t, o = MSignal a (OPoll t).

Definition looks (a : nat) (l : jlabel) : Prop :=
  l = JOwn (JStep OpJobSignal) \/ exists o, l = JEnv (ESig o) /\ polls_cell a o.

