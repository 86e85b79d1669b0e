(** Model of crates/astro-run/src/plugins/plugin_driver.rs and of the [call_on_*] functions of
    crates/astro-run/src/execution_context/mod.rs. *)
From Verif Require Import Base Types.

(** plugins/mod.rs:12-20. The payload is opaque; cloning it (context_payload.rs, a serde round trip) is taken
    to give an equal payload. *)
Definition payload := string.
Record run_event (A : Type) := RunEvent {
  re_source : A; re_trigger_event : option trigger_event; re_payload : option payload }.
Arguments RunEvent {A}. Arguments re_source {A}. Arguments re_trigger_event {A}. Arguments re_payload {A}.

(** What a call of one of the eight event hooks delivers. *)
Inductive hook_event :=
| HRunWorkflow (e : run_event workflow)
| HRunJob (e : run_event job)
| HRunStep (e : run_event step)
| HState (e : state_event)
| HLog (l : workflow_log)
| HStepCompleted (r : step_run_result)
| HJobCompleted (r : job_run_result)
| HWorkflowCompleted (r : workflow_run_result).

Section Plugins.
(** The state of everything hooks can read or change. *)
Variable W : Type.
(** Signal registry operations on that state: signals/mod.rs:19-29. *)
Variable register_signal unregister_signal : job_id -> W -> W.

(** plugins/mod.rs:34-67 [Plugin] and runner.rs:79-120 [Runner]: the hooks have the same types. A hook is
    arbitrary code acting on the world; it returns (a hook that never returns or panics is not modelled). *)
Record receiver := Receiver {
  on_run_workflow : run_event workflow -> W -> W * result unit;
  on_run_job : run_event job -> W -> W * result unit;
  on_run_step : run_event step -> W -> W * result unit;
  on_state_change : state_event -> W -> W * result unit;
  on_log : workflow_log -> W -> W * result unit;
  on_step_completed : step_run_result -> W -> W * result unit;
  on_job_completed : job_run_result -> W -> W * result unit;
  on_workflow_completed : workflow_run_result -> W -> W * result unit;
  on_before_run_step : step -> W -> W * result step }.

(** plugin_driver.rs:18-28. The error is only logged. *)
Fixpoint driver_on_state_change (plugins : list receiver) (e : state_event) (w : W) : W :=
  match plugins with
  | [] => w
  | p :: ps => match on_state_change p e w with
               | (w', Err _) => driver_on_state_change ps e w'
               | (w', Ok _) => driver_on_state_change ps e w'
               end
  end.
(** plugin_driver.rs:30-36 *)
Fixpoint driver_on_log (plugins : list receiver) (e : workflow_log) (w : W) : W :=
  match plugins with
  | [] => w
  | p :: ps => match on_log p e w with
               | (w', Err _) => driver_on_log ps e w'
               | (w', Ok _) => driver_on_log ps e w'
               end
  end.
(** plugin_driver.rs:38-48 *)
Fixpoint driver_on_run_workflow (plugins : list receiver) (e : run_event workflow) (w : W) : W :=
  match plugins with
  | [] => w
  | p :: ps => match on_run_workflow p e w with
               | (w', Err _) => driver_on_run_workflow ps e w'
               | (w', Ok _) => driver_on_run_workflow ps e w'
               end
  end.
(** plugin_driver.rs:50-56 *)
Fixpoint driver_on_run_job (plugins : list receiver) (e : run_event job) (w : W) : W :=
  match plugins with
  | [] => w
  | p :: ps => match on_run_job p e w with
               | (w', Err _) => driver_on_run_job ps e w'
               | (w', Ok _) => driver_on_run_job ps e w'
               end
  end.
(** plugin_driver.rs:58-68 *)
Fixpoint driver_on_run_step (plugins : list receiver) (e : run_event step) (w : W) : W :=
  match plugins with
  | [] => w
  | p :: ps => match on_run_step p e w with
               | (w', Err _) => driver_on_run_step ps e w'
               | (w', Ok _) => driver_on_run_step ps e w'
               end
  end.
(** plugin_driver.rs:70-80 *)
Fixpoint driver_on_workflow_completed (plugins : list receiver) (e : workflow_run_result) (w : W) : W :=
  match plugins with
  | [] => w
  | p :: ps => match on_workflow_completed p e w with
               | (w', Err _) => driver_on_workflow_completed ps e w'
               | (w', Ok _) => driver_on_workflow_completed ps e w'
               end
  end.
(** plugin_driver.rs:82-92 *)
Fixpoint driver_on_job_completed (plugins : list receiver) (e : job_run_result) (w : W) : W :=
  match plugins with
  | [] => w
  | p :: ps => match on_job_completed p e w with
               | (w', Err _) => driver_on_job_completed ps e w'
               | (w', Ok _) => driver_on_job_completed ps e w'
               end
  end.
(** plugin_driver.rs:94-104 *)
Fixpoint driver_on_step_completed (plugins : list receiver) (e : step_run_result) (w : W) : W :=
  match plugins with
  | [] => w
  | p :: ps => match on_step_completed p e w with
               | (w', Err _) => driver_on_step_completed ps e w'
               | (w', Ok _) => driver_on_step_completed ps e w'
               end
  end.
(** plugin_driver.rs:106-122 *)
Fixpoint driver_on_before_run_step (plugins : list receiver) (st : step) (w : W) : W * step :=
  match plugins with
  | [] => (w, st)
  | p :: ps => match on_before_run_step p st w with
               | (w', Ok st') => driver_on_before_run_step ps st' w'
               | (w', Err _) => driver_on_before_run_step ps st w'
               end
  end.

(** execution_context/mod.rs:15-22: the plugins, the runner, the trigger event, the payload. *)
Record exec_context := ExecContext {
  ec_plugins : list receiver; ec_runner : receiver;
  ec_event : option trigger_event; ec_payload : option payload }.

(** execution_context/mod.rs:206-216 *)
Definition call_on_run_workflow (c : exec_context) (wf : workflow) (w : W) : W :=
  let e := RunEvent wf (ec_event c) (ec_payload c) in
  fst (on_run_workflow (ec_runner c) e (driver_on_run_workflow (ec_plugins c) e w)).
(** execution_context/mod.rs:218-233 *)
Definition call_on_run_job (c : exec_context) (j : job) (w : W) : W :=
  let w := register_signal (jb_id j) w in
  let e := RunEvent j (ec_event c) (ec_payload c) in
  fst (on_run_job (ec_runner c) e (driver_on_run_job (ec_plugins c) e w)).
(** execution_context/mod.rs:235-241 *)
Definition call_on_state_change (c : exec_context) (e : state_event) (w : W) : W :=
  fst (on_state_change (ec_runner c) e (driver_on_state_change (ec_plugins c) e w)).
(** execution_context/mod.rs:243-250 *)
Definition call_on_job_completed (c : exec_context) (r : job_run_result) (w : W) : W :=
  let w := unregister_signal (jr_id r) w in
  fst (on_job_completed (ec_runner c) r (driver_on_job_completed (ec_plugins c) r w)).
(** execution_context/mod.rs:33-39 and 252-258 *)
Definition call_on_run_step (c : exec_context) (st : step) (w : W) : W :=
  let e := RunEvent st (ec_event c) (ec_payload c) in
  fst (on_run_step (ec_runner c) e (driver_on_run_step (ec_plugins c) e w)).
(** execution_context/mod.rs:260-266 *)
Definition call_on_step_completed (c : exec_context) (r : step_run_result) (w : W) : W :=
  fst (on_step_completed (ec_runner c) r (driver_on_step_completed (ec_plugins c) r w)).
(** execution_context/mod.rs:268-276 *)
Definition call_on_before_run_step (c : exec_context) (st : step) (w : W) : W * step :=
  let '(w1, st1) := driver_on_before_run_step (ec_plugins c) st w in
  match on_before_run_step (ec_runner c) st1 w1 with
  | (w2, Ok st2) => (w2, st2)
  | (w2, Err _) => (w2, st1)
  end.
(** execution_context/mod.rs:278-287 *)
Definition call_on_workflow_completed (c : exec_context) (r : workflow_run_result) (w : W) : W :=
  fst (on_workflow_completed (ec_runner c) r (driver_on_workflow_completed (ec_plugins c) r w)).
(** execution_context/mod.rs:289-295 *)
Definition call_on_log (c : exec_context) (l : workflow_log) (w : W) : W :=
  fst (on_log (ec_runner c) l (driver_on_log (ec_plugins c) l w)).
End Plugins.

Arguments on_run_workflow {W}. Arguments on_run_job {W}. Arguments on_run_step {W}.
Arguments on_state_change {W}. Arguments on_log {W}. Arguments on_step_completed {W}.
Arguments on_job_completed {W}. Arguments on_workflow_completed {W}. Arguments on_before_run_step {W}.
Arguments ec_plugins {W}. Arguments ec_runner {W}. Arguments ec_event {W}. Arguments ec_payload {W}.
Arguments Receiver {W}. Arguments ExecContext {W}.
