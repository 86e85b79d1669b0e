(** Specification vocabulary for a workflow run together with its runner. *)
From Verif Require Import Base Types Signals_model Stream_model Cond_model Plugins_model Exec_model Exec_spec Workflow_model Workflow_spec System_model.

Section Spec.
Context {T iop iobs : Type}.
Variable R : rside T iop iobs.

(** The engine's events in a trace of the whole system. *)
Definition flow_of (tr : list (who * (obs + iobs))) : trace :=
  flat_map (fun x => match snd x with inl o => [(fst x, o)] | inr e => map (fun o => (fst x, o)) (rs_ev R e) end) tr.
Definition step_events (l : list iobs) : list obs := flat_map (rs_ev R) l.

(** All executions of one step with its runner, the rest of the program being the environment. *)
Inductive irun (me : task) (st0 : step) : list (iop + env_op) -> shared -> step_phase -> T -> list iobs -> Prop :=
| irun_init sh : irun me st0 [] sh (SpBefore st0) (rs_init R) []
| irun_op ops sh p x tr op sh' p' x' o : irun me st0 ops sh p x tr -> rs_step R me sh p x op = Some (sh', p', x', o) ->
    irun me st0 (ops ++ [inl op]) sh' p' x' (tr ++ o)
| irun_env ops sh p x tr e : irun me st0 ops sh p x tr -> irun me st0 (ops ++ [inr e]) (env_step sh e) p x tr.

(** Raising a signal of the signal manager: [cancel_job]'s second half, or a holder of a clone raising it. *)
Definition raises (e : env_op) : Prop :=
  match e with
  | ESig (MCancelFire _) | ESig (MSignal _ OCancel) | ESig (MSignal _ OTimeout) => True
  | _ => False
  end.
(** What one step saw: its own actions are actions of its job's task, signals are raised from outside the workflow only. *)
Definition part_of (all : list (sysop (iop := iop))) (i : nat) (l : iop + env_op) : Prop :=
  match l with
  | inl op => In (YStep i op) all
  | inr e => In (YFlow (WEnv e)) all \/ ~ raises e
  end.
(** In the execution [all] of the system, the i-th job task ran step [st] to result [r] with events [evs]. *)
Definition ran (all : list (sysop (iop := iop))) (i : nat) (st : step) (evs : list obs) (r : step_run_result) : Prop :=
  exists ops sh x tr, irun (S i) st ops sh (SpDone r) x tr /\ step_events tr = evs /\ forall l, In l ops -> part_of all i l.
End Spec.

(** ** The built-in runner *)
From Verif Require Import Runner_model Runner_spec Local_model Local_spec.
(** In the execution [all] the i-th job task ran step [st] on the built-in runner to result [r], with events [evs]; [ins] is what happened to
    the runner's task. *)
Definition ran_builtin (cx : ectx) (rhooks : run_context -> run_context) (conf : run_context -> xconf) (all : list (sysop (iop := lop))) (i : nat)
  (st : step) (evs : list obs) (r : step_run_result) : Prop :=
  exists lops s tr ins, lhist cx (S i) rhooks conf st lops s tr ins /\ lo_step s = SpDone r /\ engine_events tr = evs /\
    forall op, In op lops -> In (YStep i op) all \/ exists e, op = LWorld e /\ (In (YFlow (WEnv e)) all \/ ~ raises e).
(** Nothing but the commands themselves decides: nobody cancels a job, no step's timer fires, no file system operation of the runner fails, and
    every command can be started and waited for. *)
Definition untroubled (all : list (sysop (iop := lop))) : Prop :=
  (forall e, In (YFlow (WEnv e)) all -> ~ raises e) /\
  (forall i, ~ In (YStep i (LEngine OpTimer)) all /\ ~ In (YStep i (LRunner (XIFs false))) all /\
     ~ In (YStep i (LRunner (XICmd (CISpawn false)))) all /\ ~ In (YStep i (LRunner (XICmd CIWaitErr))) all).
(** No signal has been raised in [sh]. *)
Definition unraised (sh : shared) : Prop := forall a c, nth_error (sm_heap (sh_sm sh)) a = Some c -> sg_signal c = None.
(** The result of a step is the exit status of a command that the i-th job task's runner ran. *)
Definition exit_of (all : list (sysop (iop := lop))) (i : nat) (r : step_run_result) : Prop :=
  exists code, In (YStep i (LRunner (XICmd (CIExit code)))) all /\ mirrors (exit_result code) r.

(** ** Remote runners *)
From Verif Require Import Remote_model Remote_spec Distant_model Distant_spec.
(** In the execution [all] the i-th job task ran step [st] on a remote runner to result [r], with events [evs]; [gs] are the signals handed to it. *)
Definition ran_remotely (cx : ectx) (cl : task -> task) (all : list (sysop (iop := dop))) (i : nat) (st : step) (evs : list obs) (r : step_run_result) : Prop :=
  exists dops s gs, dhist cx (S i) (cl (S i)) st dops s evs gs /\ ds_step s = SpDone r /\
    forall op, In op dops -> In (YStep i op) all \/ exists e, op = DWorld e /\ (In (YFlow (WEnv e)) all \/ ~ raises e).
