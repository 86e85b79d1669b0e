(** A workflow run together with the runner that executes its steps: the engine (Workflow_model.v: the workflow's task and the job
    tasks) and, for every step that is being or has been executed, the runner's side of it. The runner's side is a parameter;
    [builtin] and [distant] below are its two instances. *)
From Verif Require Import Base Types Signals_model Stream_model Cond_model Plugins_model Exec_model Workflow_model Paths_model
  Docker_model Runner_model Remote_model Local_model Distant_model.

(** The runner's side of one step: its state before the step begins and one action of engine, runner or both on the step, the job being
    run by task [me]. *)
Record rside (T iop iobs : Type) := RSide {
  rs_init : T;
  rs_step : task -> shared -> step_phase -> T -> iop -> option (shared * step_phase * T * list iobs);
  rs_ev : iobs -> list obs }.
Arguments RSide {T iop iobs}.
Arguments rs_init {T iop iobs}.
Arguments rs_step {T iop iobs}.
Arguments rs_ev {T iop iobs}.

Section System.
Context {T iop iobs : Type}.
Variable R : rside T iop iobs.
Variable glob : glob_oracle.
Variable cx : ectx.
Variable wf : workflow.

(** [sy_cur]: for each job task, the runner's side of its current step. [sy_past]: the runner's side of the steps the engine is done
    with: their tasks go on (e.g. to clean up, astro_runner.rs:54-66), with the step's phase and (unused) shared state as they were. *)
Record system := System { sy_w : wstate; sy_cur : list T; sy_past : list (nat * (shared * step_phase * T)) }.
Inductive sysop :=
| YFlow (op : wop)               (* the workflow and its jobs, except inside a step *)
| YStep (i : nat) (op : iop)     (* the current step of the i-th job task *)
| YPast (k : nat) (op : iop).    (* the runner's side of the k-th step that is done *)
Definition sysobs := (who * (obs + iobs))%type.

(** The i-th job task has just taken the result of its step (job.rs:83-95). *)
Definition step_over (w : wstate) (op : wop) : option (nat * step_phase) :=
  match op with
  | WTaskOp i JNext =>
      match nth_error (ws_tasks w) i with
      | Some t => match tk_phase t with JpStepRun _ _ _ (SpDone r) _ => Some (i, SpDone r) | _ => None end
      | None => None
      end
  | _ => None
  end.
Definition is_step_op (op : wop) : bool := match op with WTaskOp _ (JStep _) => true | _ => false end.
Definition pad (n : nat) (l : list T) : list T := l ++ repeat (rs_init R) (n - length l).
Definition set_phase (t : wtask) (p : job_phase) : wtask := WTask (tk_key t) (tk_job t) p (tk_sent t).

Definition sysstep (s : system) (op : sysop) : option (system * list sysobs) :=
  match op with
  | YFlow o =>
      if is_step_op o then None
      else match wstep glob cx wf (sy_w s) o with
           | None => None
           | Some (w', tr) =>
               let '(cur, past) :=
                 match step_over (sy_w s) o with
                 | Some (i, p) =>
                     (list_set i (rs_init R) (sy_cur s),
                      match nth_error (sy_cur s) i with Some t => [(i, (ws_sh (sy_w s), p, t))] | None => [] end)
                 | None => (sy_cur s, [])
                 end in
               Some (System w' (pad (length (ws_tasks w')) cur) (sy_past s ++ past), map (fun x => (fst x, inl (snd x))) tr)
           end
  | YStep i o =>
      match nth_error (ws_tasks (sy_w s)) i, nth_error (sy_cur s) i with
      | Some t, Some x =>
          match tk_phase t with
          | JpStepRun t0 js rs sp rest =>
              match rs_step R (S i) (ws_sh (sy_w s)) sp x o with
              | Some (sh', sp', x', out) =>
                  Some (System (WState sh' (ws_main (sy_w s)) (list_set i (set_phase t (JpStepRun t0 js rs sp' rest)) (ws_tasks (sy_w s))) (ws_chan (sy_w s)))
                               (list_set i x' (sy_cur s)) (sy_past s),
                        map (fun e => (Some i, inr e)) out)
              | None => None
              end
          | _ => None
          end
      | _, _ => None
      end
  | YPast k o =>
      match nth_error (sy_past s) k with
      | Some (i, (sh, p, x)) =>
          match rs_step R (S i) sh p x o with
          | Some (sh', p', x', out) =>
              Some (System (sy_w s) (sy_cur s) (list_set k (i, (sh', p', x')) (sy_past s)), map (fun e => (Some i, inr e)) out)
          | None => None
          end
      | None => None
      end
  end.
Inductive sysrun (sh0 : shared) : list sysop -> system -> list sysobs -> Prop :=
| sysrun_init : sysrun sh0 [] (System (winit sh0) [] []) []
| sysrun_step ops s tr op s' o : sysrun sh0 ops s tr -> sysstep s op = Some (s', o) -> sysrun sh0 (ops ++ [op]) s' (tr ++ o).
Fixpoint sysexec (s : system) (ops : list sysop) : option (system * list sysobs) :=
  match ops with
  | [] => Some (s, [])
  | op :: ops' => match sysstep s op with None => None | Some (s', o) => match sysexec s' ops' with None => None | Some (s2, o2) => Some (s2, o ++ o2) end end
  end.
End System.
Arguments System {T}.
Arguments sy_w {T}.
Arguments sy_cur {T}.
Arguments sy_past {T}.
Arguments YFlow {iop}.
Arguments YStep {iop}.
Arguments YPast {iop}.

(** The built-in runner in the same process (Local_model.v): AstroRunner with before-run plugins [rhooks]. *)
Definition builtin (cx : ectx) (rhooks : run_context -> run_context) (conf : run_context -> xconf) : rside (option ltask) lop lobs :=
  RSide None
    (fun me sh p t op =>
       match op with
       | LWorld _ => None
       | _ => match lstep cx me rhooks conf (LState sh p t) op with
              | Some (s', o) => Some (lo_sh s', lo_step s', lo_task s', o)
              | None => None
              end
       end)
    (fun o => match o with LObs x => [x] | LEff _ => [] end).
(** The remote runner's client (Distant_model.v). *)
Definition distant (cx : ectx) (cl : task -> task) : rside (option dtask) dop obs :=
  RSide None
    (fun me sh p t op =>
       match op with
       | DWorld _ => None
       | _ => match dstep cx me (cl me) (DState sh p t) op with
              | Some (s', o) => Some (ds_sh s', ds_step s', ds_task s', o)
              | None => None
              end
       end)
    (fun o => [o]).
