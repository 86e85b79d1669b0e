(** Specification vocabulary: steps of workflow runs placed on remote runners. *)
From Coq Require Import Sorting.Permutation.
From Verif Require Import Base Types Exec_model Workflow_model Sched_model Sched_spec Remote_model Distant_model System_model Fleet_model Dispatch_model.

(** The events of the scheduler, and those of the runs. *)
Definition sched_events (tr : list pobs) : list sev := flat_map (fun e => match e with PSched x => [x] | _ => [] end) tr.
Definition run_seen (tr : list pobs) : list (nat * sysobs (iobs := obs)) := flat_map (fun e => match e with PSeen k x => [(k, x)] | _ => [] end) tr.
(** The runners connected after the actions [ops]. *)
Definition tried (ops : list pop) : list attempt := flat_map (fun op => match op with PConnect a => [a] | _ => [] end) ops.
Definition connected (ops : list pop) : map_ string runner_meta := connect_all (tried ops) [].

(** Call [c] of the scheduler was made for the i-th job task of the k-th run. *)
Definition made_for (d : dispatch) (c k i : nat) : Prop := exists a, nth_error (dp_asked d) c = Some a /\ as_run a = k /\ as_job a = i.
(** ... and has not returned. *)
Definition pending (d : dispatch) (c k i : nat) : Prop := lookup c (sm_calls (dp_sched d)) <> None /\ made_for d c k i.
(** The engine gives the runner a step of that job. *)
Definition gives (k i : nat) (rc : run_context) : pobs := PSeen k (Some i, inr (ORun rc)).
(** No such event, and no call for that job, is in [tr]. *)
Definition nothing_new (d : dispatch) (k i : nat) (tr : list pobs) : Prop :=
  (forall rc, ~ In (gives k i rc) tr) /\ (forall c q, In (PSched (EvCalled c q)) tr -> ~ made_for d c k i).
(** What the scheduler is asked about a step: the runners on offer, the step's id and the name of its container. *)
Definition asks_about (l : list runner_meta) (rc : run_context) : sched_req :=
  SchedReq l (cmd_id (rx_command rc)) (option_map co_name (cmd_container (rx_command rc))).

(** Which runner the runs were given, in order: for which run and job, from which table, and the answer. *)
Definition given_runners (d : dispatch) (tr : list pobs) : list (nat * nat * map_ string runner_meta * option runner_meta) :=
  flat_map (fun e => match e with
                     | EvReturned c _ r => match nth_error (dp_asked d) c with Some a => [(as_run a, as_job a, as_clients a, r)] | None => [] end
                     | _ => []
                     end) (sched_events tr).
Definition taken_runners (fops : list (fop (iop := dop))) : list (nat * nat * map_ string runner_meta * option runner_meta) :=
  flat_map (fun op => match op with FRunOp k (YStep i (DPick clients r)) => [(k, i, clients, r)] | _ => [] end) fops.
(** What the runs did otherwise. *)
Definition fleet_ops (ops : list pop) : list (fop (iop := dop)) := flat_map (fun op => match op with PFleet o => [o] | _ => [] end) ops.
(** No completion is reported to the scheduler. *)
Definition only_asks (sops : list sop) : Prop := forall op, In op sops -> match op with SBegin _ _ | SNext _ => True | _ => False end.
(** The step given last to the runner for that job has no answer of the scheduler yet. *)
Definition unanswered (d : dispatch) (k i : nat) (tr : list pobs) : Prop := forall c q r, In (PSched (EvReturned c q r)) tr -> ~ made_for d c k i.
