(** A whole workflow run whose steps go to remote runner servers that have the built-in runner: the engine with its jobs (System_model.v) and, for every step, the client's
    task, the server's task and the executor there (Worker_model.v). Each server has plugins [rhooks] and a configuration [conf] of its own. *)
From Verif Require Import Base Types Signals_model Stream_model Cond_model Plugins_model Exec_model Workflow_model Runner_model Sched_model Remote_model Local_model Distant_model Worker_model System_model.

(** What belongs to the step besides the engine's part: the client's task, the context of the call, the server's side, stray signals (client.rs:30-62, runner_server.rs:76-112). *)
Record kside := KSide { kd_task : option dtask; kd_ctx : option (run_context * runner_meta); kd_w : option worker; kd_lost : list signal }.
Definition kwhole (sh : shared) (p : step_phase) (x : kside) : kstate := KState (DState sh p (kd_task x)) (kd_ctx x) (kd_w x) (kd_lost x).
Definition kpart (s : kstate) : kside := KSide (ds_task (k_d s)) (k_ctx s) (k_w s) (k_lost s).
(** [cl], [sv]: the wakers of the client's and the server's task for the step that job task [me] is running (client.rs:49-59, runner_server.rs:98-104). *)
Definition chained (cx : ectx) (cl sv : task -> task) (rhooks : runner_meta -> run_context -> run_context) (conf : runner_meta -> run_context -> xconf) : rside kside kop kobs :=
  RSide (KSide None None None [])
    (fun me sh p x op =>
       match op with
       | KFlow (DWorld _) => None                                 (* the rest of the system does that *)
       | _ => match kstep cx me (cl me) (sv me) rhooks conf (kwhole sh p x) op with
              | Some (s', o) => Some (ds_sh (k_d s'), ds_step (k_d s'), kpart s', o)
              | None => None
              end
       end)
    (fun o => match o with KObs x => [x] | KEff _ => [] end).
