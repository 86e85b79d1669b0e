(** Data types shared by several areas of the model. *)
From Verif Require Import Base.
From Coq Require Export Floats.SpecFloat.

(** types/id.rs:4-13. [usize] is [N]; values are below 2^64 where that matters. *)
Record workflow_id := WorkflowId { wid_0 : string }.
Record job_id := JobId { jid_0 : string; jid_1 : string }.
Record step_id := StepId { sid_0 : string; sid_1 : string; sid_2 : N }.
#[global] Instance EqDec_workflow_id : EqDec workflow_id.
Proof. intros [a] [b]; destruct (eq_dec a b); [left|right]; congruence. Defined.
#[global] Instance EqDec_job_id : EqDec job_id.
Proof. intros [a b] [c d]; destruct (eq_dec a c); destruct (eq_dec b d); [left|right|right|right]; congruence. Defined.
#[global] Instance EqDec_step_id : EqDec step_id.
Proof.
  intros [a b x] [c d y]; destruct (eq_dec a c); destruct (eq_dec b d); destruct (eq_dec x y);
    [left|right|right|right|right|right|right|right]; congruence.
Defined.

(** types/id.rs:29-36, 44-58: accessors. *)
Definition job_id_workflow_id (j : job_id) : workflow_id := WorkflowId (jid_0 j).
Definition job_id_job_key (j : job_id) : string := jid_1 j.
Definition step_id_workflow_id (s : step_id) : workflow_id := WorkflowId (sid_0 s).
Definition step_id_job_id (s : step_id) : job_id := JobId (sid_0 s) (sid_1 s).
Definition step_id_job_key (s : step_id) : string := sid_1 s.
Definition step_id_step_number (s : step_id) : N := sid_2 s.

(** types/workflow_state.rs:3-13 *)
Inductive wf_state := Pending | Queued | InProgress | Succeeded | Failed | Cancelled | Skipped.
#[global] Instance EqDec_wf_state : EqDec wf_state.
Proof. intros x y; decide equality. Defined.
(** types/workflow_state.rs:16-24 *)
Definition is_terminal (s : wf_state) : bool :=
  match s with Succeeded | Failed | Cancelled | Skipped => true | _ => false end.

(** types/mod.rs:39-44 *)
Inductive log_type := LError | LLog.
(** runner.rs:15-19 *)
Record log := Log { l_type : log_type; l_message : string }.
#[global] Instance EqDec_log_type : EqDec log_type.
Proof. intros x y; decide equality. Defined.
#[global] Instance EqDec_log : EqDec log.
Proof. intros [a b] [c d]; destruct (eq_dec a c); destruct (eq_dec b d); [left|right|right|right]; congruence. Defined.
(** runner.rs:23-35 *)
Definition log_log (m : string) : log := Log LLog m.
Definition log_error (m : string) : log := Log LError m.

(** runner.rs:8-13; [i32] exit code as [Z]. *)
Inductive run_result := RSucceeded | RFailed (exit_code : Z) | RCancelled.
#[global] Instance EqDec_run_result : EqDec run_result.
Proof. intros x y; decide equality; apply eq_dec. Defined.

(** chrono::DateTime<Utc> as a natural number of nanoseconds. *)
Definition time := N.
(** std::time::Duration. *)
Record duration := Duration { d_secs : N; d_nanos : N }.
Definition duration_ns (d : duration) : N := (d_secs d * 1000000000 + d_nanos d)%N.

(** types/mod.rs:66-72 [WorkflowLog] *)
Record workflow_log := WorkflowLog {
  wl_step_id : step_id; wl_type : log_type; wl_message : string; wl_time : time }.

(** types/results.rs:7-32 *)
Record step_run_result := StepRunResult {
  sr_id : step_id; sr_state : wf_state; sr_exit_code : option Z;
  sr_started_at : option time; sr_completed_at : option time }.
Record job_run_result := JobRunResult {
  jr_id : job_id; jr_state : wf_state;
  jr_started_at : option time; jr_completed_at : option time;
  jr_steps : list step_run_result }.
Record workflow_run_result := WorkflowRunResult {
  wr_id : workflow_id; wr_state : wf_state;
  wr_started_at : option time; wr_completed_at : option time;
  wr_jobs : map_ string job_run_result }.

(** types/workflow_state_event.rs:4-18 *)
Inductive state_event :=
| WorkflowStateUpdated (id : workflow_id) (state : wf_state)
| JobStateUpdated (id : job_id) (state : wf_state)
| StepStateUpdated (id : step_id) (state : wf_state).

(** types/trigger_event.rs:3-14; [i64] as [Z]. *)
Record trigger_event := TriggerEvent {
  te_event : string; te_repo_owner : string; te_repo_name : string;
  te_pr_number : option Z; te_sha : string; te_branch : string; te_ref_name : string }.

(** types/envs.rs:4-10. An f64 is the stdlib's [spec_float] (SpecFloat.v). *)
Inductive env_value := EnvString (s : string) | EnvNumber (f : spec_float) | EnvBool (b : bool).
Definition environments := map_ string env_value.

(** user_config.rs:5-11 *)
Record container_options := ContainerOptions {
  co_name : string; co_volumes : option (list string); co_security_opts : option (list string) }.

(** types/condition.rs:3-38 *)
Record condition_payload := ConditionPayload { cp_event : string; cp_branch : string; cp_paths : list string }.
Record push_condition := PushCondition { pc_branches : option (list string); pc_paths : option (list string) }.
Record pull_request_condition := PullRequestCondition { prc_branches : option (list string); prc_paths : option (list string) }.
Record condition_config := ConditionConfig { cc_push : option push_condition; cc_pull_request : option pull_request_condition }.
Inductive condition := CEvent (events : list string) | CConfig (c : condition_config).

(** workflow/step.rs:5-16 *)
Record step := Step {
  st_id : step_id; st_name : option string; st_on : option condition;
  st_container : option container_options; st_run : string; st_continue_on_error : bool;
  st_environments : environments; st_secrets : list string; st_timeout : duration }.

(** types/context.rs:5-15 *)
Record command := Command {
  cmd_id : step_id; cmd_name : option string; cmd_container : option container_options;
  cmd_run : string; cmd_continue_on_error : bool; cmd_environments : environments;
  cmd_secrets : list string; cmd_timeout : duration }.

(** workflow/job.rs:8-17 *)
Record job := Job {
  jb_id : job_id; jb_name : option string; jb_on : option condition; jb_steps : list step;
  jb_depends_on : list string; jb_working_directories : list string }.

(** workflow/mod.rs:19-25 *)
Record workflow := Workflow {
  wf_id : workflow_id; wf_name : option string; wf_on : option condition; wf_jobs : map_ string job }.

(** signals/signal.rs:10-14 *)
Inductive signal := SigCancel | SigTimeout.
#[global] Instance EqDec_signal : EqDec signal.
Proof. intros x y; decide equality. Defined.
