(** Specification vocabulary for a workflow run on remote runners with the built-in runner behind them. *)
From Verif Require Import Base Types Signals_model Stream_model Cond_model Plugins_model Exec_model Exec_spec Workflow_model Workflow_spec Runner_model Runner_spec
  Sched_model Remote_model Remote_spec Local_model Local_spec Distant_model Distant_spec Worker_model Worker_spec System_model System_spec Finish_spec Chain_model.

(** In the execution [all] the i-th job task ran step [st] on a remote runner to result [r], with events [evs] (C112). *)
Definition ran_chained (cx : ectx) (cl sv : task -> task) (rhooks : runner_meta -> run_context -> run_context) (conf : runner_meta -> run_context -> xconf) (all : list (sysop (iop := kop))) (i : nat)
  (st : step) (evs : list obs) (r : step_run_result) : Prop :=
  exists kops s tr dops gs ins, khist cx (S i) (cl (S i)) (sv (S i)) rhooks conf st kops s tr dops gs ins /\ ds_step (k_d s) = SpDone r /\ k_events tr = evs /\
    forall op, In op kops -> In (YStep i op) all \/ exists e, op = KFlow (DWorld e) /\ (In (YFlow (WEnv e)) all \/ ~ raises e).
(** Hooks of steps leave them in their jobs. *)
Definition tame_worker (op : kop) : Prop := match op with KFlow d => tame_distant d | _ => True end.
(** Nothing but the commands themselves decides: nobody cancels a job, no step's timer fires, the scheduler always finds a runner, the connections hold, the calls are
    accepted, no file system operation of a server's runner fails and every command can be started and waited for. *)
Definition smooth (all : list (sysop (iop := kop))) : Prop :=
  (forall e, In (YFlow (WEnv e)) all -> ~ raises e) /\
  (forall i, ~ In (YStep i (KFlow (DEngine OpTimer))) all /\ (forall clients, ~ In (YStep i (KFlow (DPick clients None))) all) /\
     (forall f, is_fault f = true -> ~ In (YStep i (KFlow (DRemote f))) all) /\
     ~ In (YStep i (KExec (XIFs false))) all /\ ~ In (YStep i (KExec (XICmd (CISpawn false)))) all /\ ~ In (YStep i (KExec (XICmd CIWaitErr))) all).
(** The result of a step is the exit status of a command that a server ran for the i-th job task. *)
Definition remote_exit (all : list (sysop (iop := kop))) (i : nat) (r : step_run_result) : Prop :=
  exists code, In (YStep i (KExec (XICmd (CIExit code)))) all /\ mirrors (exit_result code) r.
