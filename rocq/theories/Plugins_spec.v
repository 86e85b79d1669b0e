(** Specification of event delivery. *)
From Verif Require Import Base Types Plugins_model.

(** One delivery of event [e] to one receiver. *)
Definition receive {W} (e : hook_event) (r : receiver W) (w : W) : W :=
  fst match e with
      | HRunWorkflow x => on_run_workflow r x w
      | HRunJob x => on_run_job r x w
      | HRunStep x => on_run_step r x w
      | HState x => on_state_change r x w
      | HLog x => on_log r x w
      | HStepCompleted x => on_step_completed r x w
      | HJobCompleted x => on_job_completed r x w
      | HWorkflowCompleted x => on_workflow_completed r x w
      end.

(** The receivers, in the order in which they must be called: plugins in registration order, then the runner. *)
Definition receivers {W} (c : exec_context W) : list (receiver W) := ec_plugins c ++ [ec_runner c].

(** Deliver to each receiver once, in order. *)
Definition deliver {W} (c : exec_context W) (e : hook_event) (w : W) : W :=
  fold_left (fun w r => receive e r w) (receivers c) w.

(** C22: passing a step through hooks one after the other. *)
Inductive passes {W} : list (receiver W) -> step -> W -> step -> W -> Prop :=
| passes_nil st w : passes [] st w st w
| passes_ok r rs st w st1 w1 st' w' :
    on_before_run_step r st w = (w1, Ok st1) -> passes rs st1 w1 st' w' -> passes (r :: rs) st w st' w'
| passes_err r rs st w e w1 st' w' :
    on_before_run_step r st w = (w1, Err e) -> passes rs st w1 st' w' -> passes (r :: rs) st w st' w'.

(** A receiver that writes down which events it gets, under name [n], and returns [answer]. *)
Definition recorder (n : nat) (answer : hook_event -> result unit) : receiver (list (nat * hook_event)) :=
  let hook e w := (w ++ [(n, e)], answer e) in
  Receiver (fun e => hook (HRunWorkflow e)) (fun e => hook (HRunJob e)) (fun e => hook (HRunStep e))
    (fun e => hook (HState e)) (fun e => hook (HLog e)) (fun e => hook (HStepCompleted e))
    (fun e => hook (HJobCompleted e)) (fun e => hook (HWorkflowCompleted e)) (fun st w => (w, Ok st)).
