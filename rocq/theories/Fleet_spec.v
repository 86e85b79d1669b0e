(** Specification vocabulary: workflows running at the same time. *)
From Verif Require Import Base Types Signals_model Stream_model Cond_model Plugins_model Exec_model Workflow_model Workflow_spec System_model System_spec Finish_spec Fleet_model.

(** [id] is the id of a job of [wf]. *)
Definition job_of (wf : workflow) (id : job_id) : Prop := exists k j, In (k, j) (wf_jobs wf) /\ jb_id j = id.
(** The rest of the program enters [id] into the table of running jobs or removes it. *)
Definition enters (id : job_id) (e : env_op) : Prop := e = ESig (MRegister id) \/ e = ESig (MUnregister id).

Section S.
Context {T iop iobs : Type}.
(** What the k-th run did, and its events. *)
Definition run_ops (k : nat) (ops : list (fop (iop := iop))) : list (sysop (iop := iop)) :=
  flat_map (fun op => match op with FRunOp k' o => if Nat.eqb k' k then [o] else [] | _ => [] end) ops.
Definition run_events (k : nat) (tr : list (nat * sysobs (iobs := iobs))) : list (sysobs (iobs := iobs)) := map snd (filter (fun x => Nat.eqb (fst x) k) tr).
(** The k-th run as it is in [f], with the current shared state. *)
Definition run_at (f : @fleet T) (k : nat) (cx : ectx) (wf : workflow) (s : @system T) : Prop :=
  exists r ca, nth_error (fl_runs f) k = Some r /\ nth_error (fl_ctx f) (fr_ctx r) = Some (cx, ca) /\ fr_wf r = wf /\ s = settle (fl_now f) (fl_sm f) ca (fr_sys r).

(** What has happened since the k-th run was started. *)
Fixpoint since (k : nat) (ops : list (fop (iop := iop))) : list (fop (iop := iop)) :=
  match ops with
  | [] => []
  | FStart _ _ :: ops' => match k with 0 => ops' | S k' => since k' ops' end
  | _ :: ops' => since k ops'
  end.
(** An action of a job, outside its steps. *)
Definition job_action (op : sysop (iop := iop)) : bool := match op with YFlow (WTaskOp _ _) => true | _ => false end.

(** Where something comes from that the k-th run sees of the rest of the program: time passing and calls of cancel_job, or another run, which
    cancels no job and, by the actions of its jobs, enters or removes only jobs of its own workflow; all this since the k-th run was started. *)
Definition from_others (ops : list (fop (iop := iop))) (f : @fleet T) (k : nat) (e : env_op) : Prop :=
  (exists d, e = ETick d /\ In (FTick d) (since k ops)) \/ (exists c j, e = ESig (MCancelGet c j) /\ In (FLook c j) (since k ops)) \/
  (exists c, e = ESig (MCancelFire c) /\ In (FFire c) (since k ops)) \/
  (~ raises e /\ (forall c j, e <> ESig (MCancelGet c j)) /\ exists k' r op, k' <> k /\ nth_error (fl_runs f) k' = Some r /\ In op (run_ops k' (since k ops)) /\
     forall id, enters id e -> job_of (fr_wf r) id /\ job_action op = true).

(** The runs are of workflows whose jobs have different names, and no two of them have a job id in common. *)
Definition named (f : @fleet T) : Prop := forall k r, nth_error (fl_runs f) k = Some r -> NoDup (keys (wf_jobs (fr_wf r))).
Definition apart (f : @fleet T) : Prop := forall k k' r r' id, k <> k' -> nth_error (fl_runs f) k = Some r -> nth_error (fl_runs f) k' = Some r' ->
  job_of (fr_wf r) id -> ~ job_of (fr_wf r') id.
(** Since the k-th run was started, no job of another run that has a job id in common with it has done anything (outside its steps). *)
Definition alone (ops : list (fop (iop := iop))) (f : @fleet T) (k : nat) : Prop := forall k' r r' id op, k' <> k -> nth_error (fl_runs f) k = Some r -> nth_error (fl_runs f) k' = Some r' ->
  job_of (fr_wf r) id -> job_of (fr_wf r') id -> In op (run_ops k' (since k ops)) -> job_action op = false.
(** A run is over: it has a result and all jobs that were started have ended. *)
Definition over (r : @frun T) : Prop := (exists x, ws_main (sy_w (fr_sys r)) = WpDone x) /\ forall t, In t (ws_tasks (sy_w (fr_sys r))) -> exists x, tk_phase t = JpReturned x.
End S.
