(** Workflow runs on remote runners together with the default scheduler that places their steps: the runs of one [AstroRun] (Fleet_model.v) whose
    runner is the remote client (Distant_model.v), the client's table of runners (client.rs:21-26, 176-192) and its [DefaultScheduler]
    (Sched_model.v; client.rs:321-325). In Distant_model.v the scheduler's answer is arbitrary; here it is what the scheduler answers to the request
    the client makes for the step, while other steps' requests are under way. *)
From Verif Require Import Base Types Signals_model Stream_model Cond_model Plugins_model Exec_model Workflow_model Runner_model Sched_model Remote_model
  Distant_model System_model Fleet_model.

#[global] Instance EqDec_runner_meta : EqDec runner_meta.
Proof. unfold EqDec. decide equality; apply eq_dec. Defined.

(** A call of [schedule] (client.rs:33-39): for which run, for which of its job tasks, and the client's clone of the table (:33), in which the
    answer is looked up (:48). *)
Record asking := Asking { as_run : nat; as_job : nat; as_clients : map_ string runner_meta }.
(** [dp_asked]: the calls made so far; a call is named by its position. *)
Record dispatch := Dispatch { dp_fleet : @fleet (option dtask); dp_clients : map_ string runner_meta; dp_sched : smach; dp_asked : list asking }.

Inductive pop :=
| PConnect (a : attempt)                          (* client.rs:176-192: one url of [start] has been tried *)
| PFleet (op : fop (iop := dop))                  (* everything that does not involve the scheduler *)
| PAsk (k i : nat) (runners : list runner_meta)   (* client.rs:33-39 with the first lock section of [schedule]; [runners]: the table's values *)
| PLock (c : nat).                                (* the next lock section of a call of [schedule] *)
Inductive pobs :=
| PSeen (k : nat) (x : sysobs (iobs := obs))      (* an event of the k-th run *)
| PSched (e : sev).                               (* an event of the scheduler *)

Section Dispatch.
Variable cl : task -> task.
Variable glob : glob_oracle.
Definition remote_fleet_step := fstep (fun cx => distant cx cl) glob.

(** The step that the i-th job task of the k-th run wants executed: [Runner::run] has been called (execution_context/mod.rs:67) and has
    not got past the scheduler. *)
Definition wanting (f : @fleet (option dtask)) (k i : nat) : option step :=
  match nth_error (fl_runs f) k with
  | Some r =>
      match nth_error (ws_tasks (sy_w (fr_sys r))) i, nth_error (sy_cur (fr_sys r)) i with
      | Some t, Some None => match tk_phase t with JpStepRun _ _ _ (SpCalling st _ _ _ _) _ => Some st | _ => None end
      | _, _ => None
      end
  | None => None
  end.
(** default.rs:46-47: what [schedule] reads of the context (execution_context/mod.rs:56-66, step.rs:27-41). *)
Definition request (runners : list runner_meta) (st : step) : sched_req :=
  SchedReq runners (st_id st) (option_map co_name (cmd_container (command_of_step st))).
(** The values of a [HashMap] come in an order of its own. *)
Fixpoint remove_one (m : runner_meta) (l : list runner_meta) : option (list runner_meta) :=
  match l with [] => None | x :: l' => if eqb x m then Some l' else option_map (cons x) (remove_one m l') end.
Fixpoint reordered (a b : list runner_meta) : bool :=
  match a with [] => match b with [] => true | _ => false end | x :: a' => match remove_one x b with Some b' => reordered a' b' | None => false end end.
(** The call [c] is about the i-th job task of the k-th run and has not returned. *)
Definition asked_for (d : dispatch) (k i : nat) : bool :=
  existsb (fun x => match nth_error (dp_asked d) (fst x) with Some a => Nat.eqb (as_run a) k && Nat.eqb (as_job a) i | None => false end) (sm_calls (dp_sched d)).
(** Which actions of the fleet involve the scheduler. *)
Definition picks_runner (op : fop (iop := dop)) : bool :=
  match op with FRunOp _ (YStep _ (DPick _ _)) | FRunOp _ (YPast _ (DPick _ _)) => true | _ => false end.
Definition answered (o : list sev) : option (option runner_meta) :=
  fold_left (fun x e => match e with EvReturned _ _ r => Some r | _ => x end) o None.

(** client.rs:39-48: when [schedule] returns, the client goes on in the same task. *)
Definition then_pick (d : dispatch) (asked : list asking) (a : asking) (m : smach) (o : list sev) : option (dispatch * list pobs) :=
  match answered o with
  | None => Some (Dispatch (dp_fleet d) (dp_clients d) m asked, map PSched o)
  | Some r =>
      match remote_fleet_step (dp_fleet d) (FRunOp (as_run a) (YStep (as_job a) (DPick (as_clients a) r))) with
      | Some (f, x) => Some (Dispatch f (dp_clients d) m asked, map PSched o ++ map (fun y => PSeen (fst y) (snd y)) x)
      | None => None
      end
  end.
Definition pstep (d : dispatch) (op : pop) : option (dispatch * list pobs) :=
  match op with
  | PConnect a => Some (Dispatch (dp_fleet d) (connect_all [a] (dp_clients d)) (dp_sched d) (dp_asked d), [])
  | PFleet o =>
      if picks_runner o then None
      else match remote_fleet_step (dp_fleet d) o with
           | Some (f, x) => Some (Dispatch f (dp_clients d) (dp_sched d) (dp_asked d), map (fun y => PSeen (fst y) (snd y)) x)
           | None => None
           end
  | PAsk k i runners =>
      match wanting (dp_fleet d) k i with
      | Some st =>
          if asked_for d k i || negb (reordered runners (map snd (dp_clients d))) then None
          else let a := Asking k i (dp_clients d) in
               match smach_step (dp_sched d) (SBegin (length (dp_asked d)) (request runners st)) with
               | Some (m, o) => then_pick d (dp_asked d ++ [a]) a m o
               | None => None
               end
      | None => None
      end
  | PLock c =>
      match nth_error (dp_asked d) c, smach_step (dp_sched d) (SNext c) with
      | Some a, Some (m, o) => then_pick d (dp_asked d) a m o
      | _, _ => None
      end
  end.
Definition pinit (now : time) : dispatch := Dispatch (finit now) [] (SMach sched_init []) [].
Inductive dispatch_run (now : time) : list pop -> dispatch -> list pobs -> Prop :=
| dispatch_init : dispatch_run now [] (pinit now) []
| dispatch_step ops d tr op d' o : dispatch_run now ops d tr -> pstep d op = Some (d', o) -> dispatch_run now (ops ++ [op]) d' (tr ++ o).
Fixpoint pexec (d : dispatch) (ops : list pop) : option (dispatch * list pobs) :=
  match ops with
  | [] => Some (d, [])
  | op :: ops' => match pstep d op with None => None | Some (d', o) => match pexec d' ops' with None => None | Some (d2, o2) => Some (d2, o ++ o2) end end
  end.
End Dispatch.
