(** Model of how events are delivered while several tasks run: plugins/plugin_driver.rs:18-104 and the [call_on_*] functions of
    execution_context/mod.rs:206-295. [Workflow_model] treats one delivery as one transition; here it is what it is in the code: the plugins are called
    one after the other, then the runner, with an await at each call, and the task goes on only after the last call has returned. In between, all other
    tasks, the runners and the environment go on. *)
From Verif Require Import Base Types Signals_model Stream_model Cond_model Plugins_model Exec_model Workflow_model.

(** Whose own action it is. What runners do ([OpRunner]) and what happens outside the run is nobody's. *)
Definition runner_acts (op : job_op) : bool := match op with JStep (OpRunner _) => true | _ => false end.
Definition actor (op : wop) : option who :=
  match op with
  | WMain | WGithub _ => Some None
  | WTaskOp i op => if runner_acts op then None else Some (Some i)
  | WSend i => Some (Some i)
  | WEnv _ => None
  end.
(** The events in what a transition emits. *)
Definition hooks (o : trace) : list hook_event := flat_map (fun x => match snd x with OHook e => [e] | _ => [] end) o.

(** [vs_going]: for each task that is inside a [call_on_*], how many receivers it has called so far. *)
Record vstate := VState { vs_w : wstate; vs_going : map_ who nat }.
Inductive vop :=
| VDo (op : wop)        (* a transition that is not a delivery *)
| VCall (t : who)       (* task [t] calls the next receiver of the event it delivers *)
| VReturn (t : who).    (* the last of these calls has returned and task [t] goes on *)
(** Receivers are numbered: the plugins in the order of registration from 0, then the runner. *)
Inductive vobs := VGot (receiver : nat) (t : who) (e : hook_event) | VSeen (x : who * obs).

Section Views.
Variable glob : glob_oracle.
Variable cx : ectx.
Variable wf : workflow.
(** the number of plugins *)
Variable n : nat.

(** The action by which a task delivers an event, where it is at one. *)
Definition delivery_ops (t : who) : list wop := match t with None => [WMain] | Some i => [WTaskOp i JNext; WTaskOp i (JStep OpNext)] end.
Definition delivers (s : wstate) (op : wop) : option (hook_event * wstate) :=
  match wstep glob cx wf s op with
  | Some (s', o) => match hooks o with [e] => Some (e, s') | _ => None end
  | None => None
  end.
Fixpoint first_some {A B} (f : A -> option B) (l : list A) : option B := match l with [] => None | a :: l' => match f a with Some b => Some b | None => first_some f l' end end.
Definition delivering (s : wstate) (t : who) : option (hook_event * wstate) := first_some (delivers s) (delivery_ops t).
(** How many receivers have been called for the event task [t] delivers. *)
Definition called (v : vstate) (t : who) : nat := match lookup t (vs_going v) with Some k => k | None => 0 end.
Definition idle (v : vstate) (op : wop) : bool := match actor op with Some t => match lookup t (vs_going v) with Some _ => false | None => true end | None => true end.

(** plugin_driver.rs:18-104: [for plugin in &self.plugins { plugin.on_*(event.clone()).await }], the error is only logged;
    execution_context/mod.rs:206-295: then [self.runner.on_*(event).await]. *)
Definition vstep (v : vstate) (op : vop) : option (vstate * list vobs) :=
  match op with
  | VDo op =>
      if idle v op
      then match wstep glob cx wf (vs_w v) op with
           | Some (s', o) => match hooks o with [] => Some (VState s' (vs_going v), map VSeen o) | _ => None end
           | None => None
           end
      else None
  | VCall t =>
      match delivering (vs_w v) t with
      | Some (e, _) => if Nat.leb (called v t) n then Some (VState (vs_w v) (insert t (S (called v t)) (vs_going v)), [VGot (called v t) t e]) else None
      | None => None
      end
  | VReturn t =>
      match delivering (vs_w v) t with
      | Some (_, s') => if Nat.eqb (called v t) (S n) then Some (VState s' (remove t (vs_going v)), []) else None
      | None => None
      end
  end.
Definition vinit (sh : shared) : vstate := VState (winit sh) [].
(** All executions. *)
Inductive vrun : list vop -> vstate -> list vobs -> Prop :=
| vrun_init sh : vrun [] (vinit sh) []
| vrun_step ops v tr op v' o : vrun ops v tr -> vstep v op = Some (v', o) -> vrun (ops ++ [op]) v' (tr ++ o).
End Views.
