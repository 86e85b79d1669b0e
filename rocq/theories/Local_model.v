(** One step executed by the built-in runner in the same process: [ExecutionContext::run] (Exec_model.v) together with the task
    that [AstroRunner::run] spawns (Runner_model.v). They share the log stream and the step's signal. *)
From Verif Require Import Base Types Signals_model Stream_model Cond_model Plugins_model Exec_model Paths_model Docker_model Runner_model.

(** astro_runner.rs:72-97, executors/docker.rs:29-42, executors/host.rs:19-32: what the task executes for a context. *)
Definition runner_conf (show_f64 : spec_float -> string) (os arch base : string) (rc : run_context) : xconf :=
  let cmd := rx_command rc in
  let m := step_metadata base (rx_event rc) (cmd_id cmd) in
  if uses_host os arch (cmd_container cmd) then XConf true m (Types.cmd_run cmd) (Types.cmd_run cmd)
  else XConf false m (Types.cmd_run cmd) (docker_command_line show_f64 cmd m).

(** The spawned task: what it executes, where it is, and the calls on the stream's sender it has begun and not finished, one
    lock section each (stream.rs:80-118). *)
Record ltask := LTask { lt_conf : xconf; lt_x : xstate; lt_pending : list runner_op }.
Record lstate := LState { lo_sh : shared; lo_step : step_phase; lo_task : option ltask }.

(** The step's signal, as long as the engine holds it. *)
Definition phase_signal (p : step_phase) : option sig_state :=
  match p with
  | SpCalling _ _ _ sg _ | SpInProgress _ _ _ sg _ | SpEnter _ _ _ sg _ | SpLoop _ _ _ sg _ _
  | SpGotLog _ _ _ sg _ _ | SpDeliver _ _ _ sg _ _ | SpBroken _ _ _ sg _ => Some sg
  | _ => None
  end.
Definition sender_ops (e : xeff) : list runner_op :=
  match e with
  | EfLog (Log LLog m) => [RLog m]
  | EfLog (Log LError m) => [RError m]
  | EfEnd r => [REndCheck 0 r; REndCommit 0]
  | _ => []
  end.
(** The task's view of the signal is the step's signal (types/context.rs: a clone, i.e. the same object). *)
Definition see_signal (p : step_phase) (t : ltask) : ltask :=
  match phase_signal p with
  | Some sg => LTask (lt_conf t) (XState (xs_phase (lt_x t)) (sg_signal sg) (xs_result (lt_x t))) (lt_pending t)
  | None => t
  end.

Inductive lop :=
| LEngine (op : step_op)   (* the engine's next action *)
| LSpawn                   (* [AstroRunner::run] spawns the task, astro_runner.rs:54 *)
| LRunner (i : xinput)     (* the task's next action *)
| LSender                  (* the next lock section of a sender call of the task *)
| LWorld (e : env_op).
Inductive lobs := LObs (o : obs) | LEff (e : xeff).

Section Local.
Variable cx : ectx.
Variable me : task.
(** the runner's on_before_run plugins (astro_runner.rs:42) and [runner_conf] *)
Variable rhooks : run_context -> run_context.
Variable conf : run_context -> xconf.

Definition lstep (s : lstate) (op : lop) : option (lstate * list lobs) :=
  match op with
  | LEngine (OpRunner _) | LEngine (OpAnswer false) => None            (* astro_runner.rs:68: always Ok *)
  | LEngine o =>
      match o, lo_task s with
      | OpAnswer true, None => None                                    (* it returns after the spawn *)
      | _, t =>
          match step_step cx me (lo_sh s) (lo_step s) o with
          | Some (sh', p', obs) => Some (LState sh' p' (option_map (see_signal p') t), map LObs obs)
          | None => None
          end
      end
  | LSpawn =>
      match lo_step s, lo_task s with
      | SpCalling st _ _ _ _, None =>
          let rc := RunContext (st_id st) (command_of_step st) (cm_event (cx_matcher cx)) (cx_payload cx) in
          Some (LState (lo_sh s) (lo_step s) (Some (LTask (conf (rhooks rc)) xinit [])), [])
      | _, _ => None
      end
  | LRunner (XISignal _) => None
  | LRunner i =>
      match lo_task s with
      | Some (LTask c x []) =>
          match xstep c x i with
          | Some (x', o) => Some (LState (lo_sh s) (lo_step s) (Some (LTask c x' (flat_map sender_ops o))), map LEff o)
          | None => None
          end
      | _ => None
      end
  | LSender =>
      match lo_task s with
      | Some (LTask c x (o :: rest)) =>
          match step_step cx me (lo_sh s) (lo_step s) (OpRunner o) with
          | Some (sh', p', _) => Some (LState sh' p' (Some (LTask c x rest)), [])
          | None => Some (LState (lo_sh s) (lo_step s) (Some (LTask c x rest)), [])   (* the engine has dropped the stream *)
          end
      | _ => None
      end
  | LWorld e => Some (LState (env_step (lo_sh s) e) (lo_step s) (lo_task s), [])
  end.
Inductive lrun (st0 : step) : list lop -> lstate -> list lobs -> Prop :=
| lrun_init sh : lrun st0 [] (LState sh (SpBefore st0) None) []
| lrun_step ops s tr op s' o : lrun st0 ops s tr -> lstep s op = Some (s', o) -> lrun st0 (ops ++ [op]) s' (tr ++ o).
Fixpoint lexec (s : lstate) (ops : list lop) : option (lstate * list lobs) :=
  match ops with
  | [] => Some (s, [])
  | op :: ops' => match lstep s op with None => None | Some (s', o) => match lexec s' ops' with None => None | Some (s2, o2) => Some (s2, o ++ o2) end end
  end.
End Local.
