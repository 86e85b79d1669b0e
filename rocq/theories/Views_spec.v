(** Specification vocabulary: what one plugin (or the runner) sees. *)
From Verif Require Import Base Types Signals_model Stream_model Cond_model Plugins_model Exec_model Workflow_model Views_model.

(** What the k-th receiver is called with, and by which task, among everything else that happens but is not an event. *)
Definition view (k : nat) (tr : list vobs) : trace :=
  flat_map (fun x => match x with VGot k' t e => if Nat.eqb k' k then [(t, OHook e)] else [] | VSeen y => [y] end) tr.
(** The events it is called with, and those of them that come from one task. *)
Definition got (k : nat) (tr : list vobs) : list (who * hook_event) :=
  flat_map (fun x => match x with VGot k' t e => if Nat.eqb k' k then [(t, e)] else [] | VSeen _ => [] end) tr.
Definition got_from (k : nat) (t : who) (tr : list vobs) : list hook_event := map snd (filter (fun x => eqb (fst x) t) (got k tr)).
(** The events of an execution in which each delivery is one transition. *)
Definition event_list (tr : trace) : list (who * hook_event) := flat_map (fun x => match snd x with OHook e => [(fst x, e)] | _ => [] end) tr.
(** Nobody is inside a delivery. *)
Definition quiet (v : vstate) : Prop := vs_going v = [].
(** The next own action of a task where it has only one, which is the kind of action by which events are delivered. *)
Definition plain_next (op : wop) : bool := match op with WMain | WTaskOp _ JNext | WTaskOp _ (JStep OpNext) => true | _ => false end.
(** Everything else: what GitHub, the runners, the timers, the signals, the hooks, the environment and the results' channel do. *)
Definition others (ops : list vop) : list wop := flat_map (fun x => match x with VDo op => if plain_next op then [] else [op] | _ => [] end) ops.
(** Same progress of everything: the state except for results that lie in the channel after nobody will read it. *)
Definition same_progress (s s' : wstate) : Prop :=
  ws_sh s = ws_sh s' /\ ws_main s = ws_main s' /\ ws_tasks s = ws_tasks s' /\ (ws_chan s = ws_chan s' \/ exists r, ws_main s = WpDone r).
(** The receiver has been told that the job is over: it was completed, or skipped. *)
Definition told_over (k : nat) (j : job) (tr : list vobs) : Prop :=
  exists t, (exists r, In (t, HJobCompleted r) (got k tr) /\ jr_id r = jb_id j) \/ In (t, HState (JobStateUpdated (jb_id j) Skipped)) (got k tr).
(** Nothing but calls of receivers and returns from them. *)
Definition only_deliveries (ops : list vop) : Prop := Forall (fun x => exists t, x = VCall t \/ x = VReturn t) ops.
