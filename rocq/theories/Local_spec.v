(** Specification vocabulary for a step on the built-in runner. *)
From Verif Require Import Base Types Signals_model Stream_model Cond_model Plugins_model Exec_model Exec_spec Runner_model Runner_spec Local_model.

(** What the engine emitted and what the task did, in order. *)
Definition engine_events (tr : list lobs) : list obs := flat_map (fun o => match o with LObs x => [x] | LEff _ => [] end) tr.
Definition task_effects (tr : list lobs) : list xeff := flat_map (fun o => match o with LEff x => [x] | LObs _ => [] end) tr.
(** The log lines the task sent. *)
Definition logs_of (tr : list xeff) : list log := flat_map (fun e => match e with EfLog l => [l] | _ => [] end) tr.
Definition task_logs (tr : list lobs) : list log := logs_of (task_effects tr).

(** The signal the engine hands to the step when it takes action [op] in state [s]: Timeout when its timer fires, the job's signal
    when it finds that raised and not delivered before. *)
Definition passes_on (s : lstate) (op : lop) : option signal :=
  match lo_step s, op with
  | SpLoop _ _ _ _ _ _, LEngine OpTimer => Some SigTimeout
  | SpLoop _ _ a _ _ _, LEngine OpJobSignal =>
      match nth_error (sm_heap (sh_sm (lo_sh s))) a with Some c => if sg_notified c then None else sg_signal c | None => None end
  | _, _ => None
  end.
(** What happens to the task in one transition: its own actions, and the signals handed to the step. *)
Definition happens (s : lstate) (op : lop) : list xinput :=
  match op with
  | LRunner i => [i]
  | _ => match passes_on s op with Some g => [XISignal g] | None => [] end
  end.
(** All executions of the step, with the history [ins] of its task. *)
Section H.
Variables (cx : ectx) (me : task) (rhooks : run_context -> run_context) (conf : run_context -> xconf) (st0 : step).
Inductive lhist : list lop -> lstate -> list lobs -> list xinput -> Prop :=
| lhist_init sh : lhist [] (LState sh (SpBefore st0) None) [] []
| lhist_step ops s tr ins op s' o : lhist ops s tr ins -> lstep cx me rhooks conf s op = Some (s', o) ->
    lhist (ops ++ [op]) s' (tr ++ o) (ins ++ happens s op).
(** What the runner is called with for step [st]. *)
Definition given (st : step) : run_context := RunContext (st_id st) (command_of_step st) (cm_event (cx_matcher cx)) (cx_payload cx).
End H.
