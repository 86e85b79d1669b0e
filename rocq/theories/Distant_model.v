(** One step executed by a remote runner: [ExecutionContext::run] (Exec_model.v) together with the task that the client's
    [run] spawns and the server it talks to (Remote_model.v). Engine and task share the log stream and the step's signal. *)
From Verif Require Import Base Types Signals_model Stream_model Cond_model Plugins_model Exec_model Runner_model Sched_model Remote_model Local_model.

(** client.rs:30-62. [dt_remote]: the run call and its stream ([None]: no runner was available, :41-46). [dt_sig]: the
    context's signal, a clone of the step's signal, i.e. the same object. [dt_pending]: the calls on the stream's sender that
    have been begun and not finished, one lock section each (stream.rs:80-118). *)
Record dtask := DTask { dt_remote : option remote; dt_sig : sig_state; dt_pending : list runner_op }.
Record dstate := DState { ds_sh : shared; ds_step : step_phase; ds_task : option dtask }.

Definition calls_of (e : seff) : list runner_op :=
  match e with
  | SeLog l => [match l_type l with LError => RError (l_message l) | LLog => RLog (l_message l) end]
  | SeEnd r => [REndCheck 0 r; REndCommit 0]
  end.
Definition share (p : step_phase) (t : dtask) : dtask :=
  match phase_signal p with Some sg => DTask (dt_remote t) sg (dt_pending t) | None => t end.
(** What the client's task does, as opposed to the server. It is one task: it does the next thing when its call on the
    sender has returned. *)
Definition client_side (i : rinput) : bool := match i with RiLog _ | RiResult _ | RiRunnerFails => false | _ => true end.

Inductive dop :=
| DEngine (op : step_op)                                                  (* the engine's next action *)
| DPick (clients : map_ string runner_meta) (pick : option runner_meta)   (* client.rs:33-48: the scheduler has answered *)
| DRemote (i : rinput)                                                    (* client's task, transport and server *)
| DSender                                                                 (* the next lock section of a sender call *)
| DWorld (e : env_op).

Section Distant.
Variable cx : ectx.
Variable me cl : task.     (* the wakers of the engine's and of the client's task *)

Definition dengine (s : dstate) (op : step_op) : option (dstate * list obs) :=
  match step_step cx me (ds_sh s) (ds_step s) op with
  | Some (sh', p', o) => Some (DState sh' p' (option_map (share p') (ds_task s)), o)
  | None => None
  end.
(** An operation on the objects shared with the engine; nothing happens to the engine when it has dropped them. *)
Definition at_engine (s : dstate) (o : runner_op) : step_phase :=
  match step_step cx me (ds_sh s) (ds_step s) (OpRunner o) with Some (_, p', _) => p' | None => ds_step s end.
Definition dstep (s : dstate) (op : dop) : option (dstate * list obs) :=
  match op with
  | DEngine (OpRunner _) | DEngine (OpAnswer false) => None               (* client.rs:45, 61: always Ok *)
  | DEngine (OpAnswer true) =>
      match ds_task s with
      | Some (DTask (Some _) _ _) | Some (DTask None _ []) => dengine s (OpAnswer true)
      | _ => None
      end
  | DEngine o => dengine s o
  | DPick clients pick =>
      match ds_step s, ds_task s with
      | SpCalling _ _ _ sg _, None =>
          match client_start clients pick with
          | Some (inl effs) => Some (DState (ds_sh s) (ds_step s) (Some (DTask None sg (flat_map calls_of effs))), [])
          | Some (inr _) => Some (DState (ds_sh s) (ds_step s) (Some (DTask (Some remote_init) sg [])), [])
          | None => None                                                  (* client.rs:48 would panic: excluded by C59 *)
          end
      | _, _ => None
      end
  | DRemote i =>
      match ds_task s with
      | Some (DTask (Some r) sg pend) =>
          if client_side i && match pend with [] => false | _ => true end then None
          else match remote_step r i with
               | None => None
               | Some r' =>
                   let pend' := pend ++ flat_map calls_of (skipn (length (r_effs r)) (r_effs r')) in
                   match i with
                   | RiSignal g _ =>                                      (* client.rs:284 [context.signal.recv()] *)
                       match sig_poll cl sg with
                       | (sg', Some g') =>
                           if eqb g g' then Some (DState (ds_sh s) (at_engine s (RSig (OPoll cl))) (Some (DTask (Some r') sg' pend')), [])
                           else None
                       | _ => None
                       end
                   | _ => Some (DState (ds_sh s) (ds_step s) (Some (DTask (Some r') sg pend')), [])
                   end
               end
      | _ => None
      end
  | DSender =>
      match ds_task s with
      | Some (DTask r sg (o :: rest)) => Some (DState (ds_sh s) (at_engine s o) (Some (DTask r sg rest)), [])
      | _ => None
      end
  | DWorld e => Some (DState (env_step (ds_sh s) e) (ds_step s) (ds_task s), [])
  end.
Inductive drun (st0 : step) : list dop -> dstate -> list obs -> Prop :=
| drun_init sh : drun st0 [] (DState sh (SpBefore st0) None) []
| drun_step ops s tr op s' o : drun st0 ops s tr -> dstep s op = Some (s', o) -> drun st0 (ops ++ [op]) s' (tr ++ o).
Fixpoint dexec (s : dstate) (ops : list dop) : option (dstate * list obs) :=
  match ops with
  | [] => Some (s, [])
  | op :: ops' => match dstep s op with None => None | Some (s', o) => match dexec s' ops' with None => None | Some (s2, o2) => Some (s2, o ++ o2) end end
  end.
End Distant.
