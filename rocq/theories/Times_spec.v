(** Specification of timestamps (C110): executions in which every observation is stamped with the clock, and what the times found in
    results and log lines mean.

    The clock of the model only moves forward ([ETick], Exec_model.v); the code reads [chrono::Utc::now], which follows adjustments of the
    system clock. *)
From Coq Require Import Sorting.Sorted.
From Verif Require Import Base Types Cond_model Plugins_model Exec_model Exec_spec Workflow_model Workflow_spec.

(** Events with the time at which they happened. *)
Definition timed (A : Type) : Type := list (time * A).

(** An execution of a workflow (Workflow_model.v: [wrun]) begun at time [base], with stamps. *)
Inductive wtimed (glob : glob_oracle) (cx : ectx) (wf : workflow) : time -> list wop -> wstate -> timed (who * obs) -> Prop :=
| wtimed_init sh : wtimed glob cx wf (sh_now sh) [] (winit sh) []
| wtimed_step base ls s tr op s' o : wtimed glob cx wf base ls s tr -> wstep glob cx wf s op = Some (s', o) ->
    wtimed glob cx wf base (ls ++ [op]) s' (tr ++ map (fun x => (sh_now (ws_sh s), x)) o).

(** The stamped events of one task. *)
Definition timed_events_of (w : who) (tr : timed (who * obs)) : timed obs :=
  flat_map (fun '(t, (w', o)) => if eqb w' w then [(t, o)] else []) tr.
(** Nothing later than [t]. *)
Definition upto {A} (t : time) (evs : timed A) : Prop := Forall (fun e => fst e <= t)%N evs.
(** [a] is a reading of the clock taken after [base] and everything in [evs], and not after [t]. *)
Definition read_between {A} (base : time) (evs : timed A) (a t : time) : Prop := (base <= a)%N /\ upto a evs /\ (a <= t)%N.

(** The times of the steps of a job that ran, in order. *)
Definition step_times (r : step_run_result) : list time :=
  match sr_started_at r with Some t => [t] | None => [] end ++ match sr_completed_at r with Some t => [t] | None => [] end.
Definition is_spawn (o : obs) : bool := match o with OSpawn _ => true | _ => false end.
Definition is_run_step (o : obs) : bool := match o with OHook (HRunStep _) => true | _ => false end.

(** What event [o], emitted at [t] by a task that began at [base] and emitted [evs] before, says about time.
    - A log line carries the time at which it was taken from the stream: after the previous event, not after its delivery.
    - A step's started_at was read after everything before its on_run_step event and not after that; its completed_at after its last event
      before the final state update and not after that.
    - The same for a job and for the workflow; no job is started before the workflow's on_run_workflow event. *)
Definition truthful_event (cx : ectx) (base : time) (evs : timed obs) (t : time) (o : obs) : Prop :=
  match o with
  | OHook (HLog l) => read_between base evs (wl_time l) t
  | OHook (HStepCompleted r) => exists a b st before tf mid t2,
      sr_started_at r = Some a /\ sr_completed_at r = Some b /\ st_id st = sr_id r /\
      evs = before ++ (tf, OHook (HRunStep (RunEvent st (cm_event (cx_matcher cx)) (cx_payload cx)))) :: mid ++ [(t2, step_state_event (sr_id r) (sr_state r))] /\
      Forall (fun e => is_run_step (snd e) = false) mid /\
      read_between base before a tf /\ read_between tf mid b t2
  | OHook (HJobCompleted r) => exists a b j before tf mid t2,
      jr_started_at r = Some a /\ jr_completed_at r = Some b /\ jb_id j = jr_id r /\
      evs = before ++ (tf, OHook (HRunJob (RunEvent j (cm_event (cx_matcher cx)) (cx_payload cx)))) :: mid ++ [(t2, job_state_event (jr_id r) (jr_state r))] /\
      read_between base before a tf /\ read_between tf mid b t2 /\
      Sorted N.le (a :: flat_map step_times (jr_steps r) ++ [b])
  | OHook (HWorkflowCompleted r) => exists a b wf before tf mid t2,
      wr_started_at r = Some a /\ wr_completed_at r = Some b /\ wf_id wf = wr_id r /\
      evs = before ++ (tf, OHook (HRunWorkflow (RunEvent wf (cm_event (cx_matcher cx)) (cx_payload cx)))) :: mid ++ [(t2, wf_state_event wf (wr_state r))] /\
      Forall (fun e => is_spawn (snd e) = false) before /\
      read_between base before a tf /\ read_between tf mid b t2
  | _ => True
  end.
Definition truthful (cx : ectx) (base : time) (evs : timed obs) : Prop :=
  forall pre t o post, evs = pre ++ (t, o) :: post -> truthful_event cx base pre t o.

(** When each job task was started. *)
Definition spawns (tr : timed (who * obs)) : list (time * string) :=
  flat_map (fun e => match e with (t, (None, OSpawn k)) => [(t, k)] | _ => [] end) tr.

(** The times of a job's result, if it was started at [b] and is known at [c]: none if it was skipped. *)
Definition timely (b : time) (r : job_run_result) (c : time) : Prop :=
  (jr_state r = Skipped /\ jr_started_at r = None /\ jr_completed_at r = None /\ jr_steps r = []) \/
  exists a e, jr_started_at r = Some a /\ jr_completed_at r = Some e /\ (b <= a <= e)%N /\ (e <= c)%N /\ Sorted N.le (a :: flat_map step_times (jr_steps r) ++ [e]).
