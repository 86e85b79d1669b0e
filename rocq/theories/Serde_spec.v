(** Specification of the protocol's encoding: which messages exist, and what becomes of their numbers. *)
From Verif Require Import Base Types Plugins_model Exec_model Sched_model Config_model Serde_model.
From Verif Require Text_spec.

(** A number that JSON has a notation for: not NaN and not infinite. *)
Definition finite_number (f : spec_float) : Prop := match f with S754_infinity _ | S754_nan => False | _ => True end.

(** ** The values that the Rust types admit *)
Definition fits_i32 (z : Z) : Prop := (- 2 ^ 31 <= z < 2 ^ 31)%Z.
Definition fits_i64 (z : Z) : Prop := (- 2 ^ 63 <= z < 2 ^ 63)%Z.
Definition fits_usize (n : N) : Prop := (n < 2 ^ 64)%N.
Definition for_some {A} (P : A -> Prop) (x : option A) : Prop := forall a, x = Some a -> P a.
Definition valid_step_id (i : step_id) : Prop := fits_usize (sid_2 i).
Definition valid_duration (d : duration) : Prop := fits_usize (d_secs d) /\ (d_nanos d < 1000000000)%N.
Definition valid_trigger (e : trigger_event) : Prop := for_some fits_i64 (te_pr_number e).
Definition valid_step (s : step) : Prop := valid_step_id (st_id s) /\ NoDup (keys (st_environments s)) /\ valid_duration (st_timeout s).
Definition valid_command (c : command) : Prop := valid_step_id (cmd_id c) /\ NoDup (keys (cmd_environments c)) /\ valid_duration (cmd_timeout c).
Definition valid_job (j : job) : Prop := Forall valid_step (jb_steps j).
Definition valid_workflow (w : workflow) : Prop := NoDup (keys (wf_jobs w)) /\ Forall (fun e => valid_job (snd e)) (wf_jobs w).
Definition valid_run_result (r : run_result) : Prop := match r with RFailed c => fits_i32 c | _ => True end.
Definition valid_step_result (r : step_run_result) : Prop := valid_step_id (sr_id r) /\ for_some fits_i32 (sr_exit_code r).
Definition valid_job_result (r : job_run_result) : Prop := Forall valid_step_result (jr_steps r).
Definition valid_workflow_result (r : workflow_run_result) : Prop := NoDup (keys (wr_jobs r)) /\ Forall (fun e => valid_job_result (snd e)) (wr_jobs r).
Definition valid_state_event (e : state_event) : Prop := match e with StepStateUpdated i _ => valid_step_id i | _ => True end.
Definition valid_run_event {A} (P : A -> Prop) (e : run_event A) : Prop := P (re_source e) /\ for_some valid_trigger (re_trigger_event e).
Definition valid_hook_event (e : hook_event) : Prop :=
  match e with
  | HRunWorkflow x => valid_run_event valid_workflow x | HRunJob x => valid_run_event valid_job x | HRunStep x => valid_run_event valid_step x
  | HState x => valid_state_event x | HLog l => valid_step_id (wl_step_id l)
  | HStepCompleted r => valid_step_result r | HJobCompleted r => valid_job_result r | HWorkflowCompleted r => valid_workflow_result r
  end.
Definition in_bounds (m : message) : Prop :=
  match m with
  | MEmpty => True
  | MMetadata r => fits_i32 (rm_max_runs r)
  | MContext c => valid_step_id (rx_id c) /\ valid_command (rx_command c) /\ for_some valid_trigger (rx_event c)
  | MResponse (RrLog i _) => valid_step_id i
  | MResponse (RrResult i r) => valid_step_id i /\ valid_run_result r
  | MEvent (PEvent e) => valid_hook_event e
  | MEvent (PSignal i _) => valid_step_id i
  | MCommand c => valid_command c
  end.
(** ** The strings in a message: Rust's are UTF-8 *)
Definition is_text (s : string) : Prop := exists cs, Text_spec.utf8 s cs.
Definition texts_of {A} (f : A -> list string) (x : option A) : list string := match x with Some a => f a | None => [] end.
Definition self {A} (x : A) : A := x.
Definition texts_job_id (i : job_id) : list string := [jid_0 i; jid_1 i].
Definition texts_step_id (i : step_id) : list string := [sid_0 i; sid_1 i].
Definition texts_env (m : environments) : list string := flat_map (fun e => fst e :: match snd e with EnvString s => [s] | _ => [] end) m.
Definition texts_container (c : container_options) : list string := co_name c :: texts_of self (co_volumes c) ++ texts_of self (co_security_opts c).
Definition texts_condition (c : condition) : list string :=
  match c with
  | CEvent l => l
  | CConfig c => texts_of (fun p => texts_of self (pc_branches p) ++ texts_of self (pc_paths p)) (cc_push c) ++
                 texts_of (fun p => texts_of self (prc_branches p) ++ texts_of self (prc_paths p)) (cc_pull_request c)
  end.
Definition texts_trigger (e : trigger_event) : list string := [te_event e; te_repo_owner e; te_repo_name e; te_sha e; te_branch e; te_ref_name e].
Definition texts_step (s : step) : list string :=
  st_run s :: texts_step_id (st_id s) ++ texts_of (fun n => [n]) (st_name s) ++ texts_of texts_condition (st_on s) ++ texts_of texts_container (st_container s) ++
  texts_env (st_environments s) ++ st_secrets s.
Definition texts_command (c : command) : list string :=
  cmd_run c :: texts_step_id (cmd_id c) ++ texts_of (fun n => [n]) (cmd_name c) ++ texts_of texts_container (cmd_container c) ++ texts_env (cmd_environments c) ++ cmd_secrets c.
Definition texts_job (j : job) : list string :=
  texts_job_id (jb_id j) ++ texts_of (fun n => [n]) (jb_name j) ++ texts_of texts_condition (jb_on j) ++ flat_map texts_step (jb_steps j) ++ jb_depends_on j ++ jb_working_directories j.
Definition texts_workflow (w : workflow) : list string :=
  wid_0 (wf_id w) :: texts_of (fun n => [n]) (wf_name w) ++ texts_of texts_condition (wf_on w) ++ flat_map (fun e => fst e :: texts_job (snd e)) (wf_jobs w).
Definition texts_job_result (r : job_run_result) : list string := texts_job_id (jr_id r) ++ flat_map (fun s => texts_step_id (sr_id s)) (jr_steps r).
Definition texts_workflow_result (r : workflow_run_result) : list string := wid_0 (wr_id r) :: flat_map (fun e => fst e :: texts_job_result (snd e)) (wr_jobs r).
Definition texts_state_event (e : state_event) : list string :=
  match e with WorkflowStateUpdated i _ => [wid_0 i] | JobStateUpdated i _ => texts_job_id i | StepStateUpdated i _ => texts_step_id i end.
Definition texts_run_event {A} (f : A -> list string) (e : run_event A) : list string := f (re_source e) ++ texts_of texts_trigger (re_trigger_event e).
Definition texts (m : message) : list string :=
  match m with
  | MEmpty => []
  | MMetadata r => [rm_id r; rm_os r; rm_arch r; rm_version r]
  | MContext c => texts_step_id (rx_id c) ++ texts_command (rx_command c) ++ texts_of texts_trigger (rx_event c) ++ texts_of (fun p => [p]) (rx_payload c)
  | MResponse (RrLog i l) => l_message l :: texts_step_id i
  | MResponse (RrResult i _) => texts_step_id i
  | MEvent (PEvent (HRunWorkflow e)) => texts_run_event texts_workflow e
  | MEvent (PEvent (HRunJob e)) => texts_run_event texts_job e
  | MEvent (PEvent (HRunStep e)) => texts_run_event texts_step e
  | MEvent (PEvent (HState e)) => texts_state_event e
  | MEvent (PEvent (HLog l)) => wl_message l :: texts_step_id (wl_step_id l)
  | MEvent (PEvent (HStepCompleted r)) => texts_step_id (sr_id r)
  | MEvent (PEvent (HJobCompleted r)) => texts_job_result r
  | MEvent (PEvent (HWorkflowCompleted r)) => texts_workflow_result r
  | MEvent (PSignal i _) => texts_step_id i
  | MCommand c => texts_command c
  end.
Definition valid_message (m : message) : Prop := in_bounds m /\ Forall is_text (texts m).
Definition kind_of (m : message) : kind :=
  match m with MEmpty => KEmpty | MMetadata _ => KMetadata | MContext _ => KContext | MResponse _ => KResponse | MEvent _ => KEvent | MCommand _ => KCommand end.

(** ** The numbers in the environments of a message *)
Definition numbers_env (m : environments) : list spec_float := flat_map (fun e => match snd e with EnvNumber f => [f] | _ => [] end) m.
Definition numbers_job (j : job) : list spec_float := flat_map (fun s => numbers_env (st_environments s)) (jb_steps j).
Definition numbers (m : message) : list spec_float :=
  match m with
  | MContext c => numbers_env (cmd_environments (rx_command c))
  | MCommand c => numbers_env (cmd_environments c)
  | MEvent (PEvent (HRunStep e)) => numbers_env (st_environments (re_source e))
  | MEvent (PEvent (HRunJob e)) => numbers_job (re_source e)
  | MEvent (PEvent (HRunWorkflow e)) => flat_map (fun x => numbers_job (snd x)) (wf_jobs (re_source e))
  | _ => []
  end.
(** A message with [g] applied to each of them. *)
Definition on_env (g : spec_float -> spec_float) (m : environments) : environments :=
  map (fun e => (fst e, match snd e with EnvNumber f => EnvNumber (g f) | x => x end)) m.
Definition on_step (g : spec_float -> spec_float) (s : step) : step :=
  Step (st_id s) (st_name s) (st_on s) (st_container s) (st_run s) (st_continue_on_error s) (on_env g (st_environments s)) (st_secrets s) (st_timeout s).
Definition on_command (g : spec_float -> spec_float) (c : command) : command :=
  Command (cmd_id c) (cmd_name c) (cmd_container c) (cmd_run c) (cmd_continue_on_error c) (on_env g (cmd_environments c)) (cmd_secrets c) (cmd_timeout c).
Definition on_job (g : spec_float -> spec_float) (j : job) : job :=
  Job (jb_id j) (jb_name j) (jb_on j) (map (on_step g) (jb_steps j)) (jb_depends_on j) (jb_working_directories j).
Definition on_workflow (g : spec_float -> spec_float) (w : workflow) : workflow :=
  Workflow (wf_id w) (wf_name w) (wf_on w) (map (fun e => (fst e, on_job g (snd e))) (wf_jobs w)).
Definition on_source {A} (g : A -> A) (e : run_event A) : run_event A := RunEvent (g (re_source e)) (re_trigger_event e) (re_payload e).
Definition with_numbers (g : spec_float -> spec_float) (m : message) : message :=
  match m with
  | MContext c => MContext (RunContext (rx_id c) (on_command g (rx_command c)) (rx_event c) (rx_payload c))
  | MCommand c => MCommand (on_command g c)
  | MEvent (PEvent (HRunStep e)) => MEvent (PEvent (HRunStep (on_source (on_step g) e)))
  | MEvent (PEvent (HRunJob e)) => MEvent (PEvent (HRunJob (on_source (on_job g) e)))
  | MEvent (PEvent (HRunWorkflow e)) => MEvent (PEvent (HRunWorkflow (on_source (on_workflow g) e)))
  | m => m
  end.
Definition payload_of (m : message) : option payload :=
  match m with
  | MEvent (PEvent (HRunStep e)) => re_payload e | MEvent (PEvent (HRunJob e)) => re_payload e | MEvent (PEvent (HRunWorkflow e)) => re_payload e
  | _ => None
  end.

(** What a document becomes when its finite numbers are written as text and read again. *)
Fixpoint wire (rf : spec_float -> spec_float) (v : value) : value :=
  match v with
  | VFloat f => VFloat (rf f)
  | VSeq l => VSeq (map (wire rf) l)
  | VMap m => VMap (map (fun e => (fst e, wire rf (snd e))) m)
  | v => v
  end.
