(** Specification of what a workflow run does. A trace is a list of (who, event): [None] is the workflow itself, [Some i]
    the i-th job task it started. *)
From Verif Require Import Base Types Signals_model Cond_model Plugins_model Exec_model Exec_spec Workflow_model.

(** The events of one participant. *)
Definition events_of (w : who) (tr : trace) : list obs :=
  flat_map (fun x => if eqb (fst x) w then [snd x] else []) tr.

(** The job results the workflow has received, in order; the keys of the jobs it has started, in order. *)
Definition received_in (evs : list obs) : list (string * job_run_result) :=
  flat_map (fun o => match o with OReceive k r => [(k, r)] | _ => [] end) evs.
Definition started_in (evs : list obs) : list string :=
  flat_map (fun o => match o with OSpawn k => [k] | _ => [] end) evs.
Definition received (tr : trace) : list (string * job_run_result) := received_in (events_of None tr).
Definition started (tr : trace) : list string := started_in (events_of None tr).

Definition wf_state_event (wf : workflow) (s : wf_state) : obs := OHook (HState (WorkflowStateUpdated (wf_id wf) s)).

(** The jobs with dependencies, all of them among [ks], that are not themselves among [ks]. *)
Definition eligible (wf : workflow) (ks : list string) : list string :=
  map fst (filter (fun kj => match jb_depends_on (snd kj) with
                             | [] => false
                             | ds => forallb (fun d => memb d ks) ds && negb (memb (fst kj) ks)
                             end) (wf_jobs wf)).
(** The jobs without dependencies. *)
Definition independent (wf : workflow) : list string :=
  map fst (filter (fun kj => match jb_depends_on (snd kj) with [] => true | _ => false end) (wf_jobs wf)).

(** C34: what the workflow does with the results [recs] it receives one after another, [earlier] being the keys received
    before: after each it starts every eligible job (again). *)
Fixpoint reactions (wf : workflow) (earlier : list string) (recs : list (string * job_run_result)) : list obs :=
  match recs with
  | [] => []
  | (k, r) :: recs' =>
      OReceive k r :: map OSpawn (eligible wf (earlier ++ [k])) ++ reactions wf (earlier ++ [k]) recs'
  end.

(** C36: the final state, given the results in the order received. *)
Definition wf_final_state (recs : list (string * job_run_result)) (s : wf_state) : Prop :=
  let bad x := jr_state (snd x) = Failed \/ jr_state (snd x) = Cancelled in
  ((forall x, In x recs -> ~ bad x) /\ s = Succeeded) \/
  (exists before x after, recs = before ++ x :: after /\ bad x /\ (forall y, In y after -> ~ bad y) /\ s = jr_state (snd x)).

(** The latest result received for a key. *)
Definition latest (recs : list (string * job_run_result)) (k : string) (r : job_run_result) : Prop :=
  exists before after, recs = before ++ (k, r) :: after /\ ~ In k (map fst after).

(** C37: the workflow's own events when it has returned [r]. *)
Inductive wf_story (cx : ectx) (wf : workflow) : list obs -> workflow_run_result -> Prop :=
| ws_skipped c : wf_on wf = Some c ->
    wf_story cx wf [OMatch c false; wf_state_event wf Skipped] (WorkflowRunResult (wf_id wf) Skipped None None [])
| ws_run check recs s t0 t1 jobs :
    lets_run (wf_on wf) check -> (t0 <= t1)%N ->
    wf_final_state recs s -> (forall k r, lookup k jobs = Some r <-> latest recs k r) ->
    (forall k, In k (keys jobs) <-> In k (keys (wf_jobs wf))) -> NoDup (keys jobs) ->
    let r := WorkflowRunResult (wf_id wf) s (Some t0) (Some t1) jobs in
    wf_story cx wf
      (check ++ [OHook (HRunWorkflow (RunEvent wf (cm_event (cx_matcher cx)) (cx_payload cx))); wf_state_event wf InProgress]
       ++ map OSpawn (independent wf) ++ reactions wf [] recs
       ++ [wf_state_event wf s; OHook (HWorkflowCompleted r)]) r.

(** Dependencies as a relation on job keys. *)
Definition depends (wf : workflow) (k d : string) : Prop := exists j, In (k, j) (wf_jobs wf) /\ In d (jb_depends_on j).
Inductive depends_trans (wf : workflow) : string -> string -> Prop :=
| dt_one k d : depends wf k d -> depends_trans wf k d
| dt_more k d e : depends wf k d -> depends_trans wf d e -> depends_trans wf k e.
(** All dependencies are jobs of the workflow and there is no cycle, by giving every job a level above its dependencies'. *)
Definition acyclic (wf : workflow) : Prop :=
  exists level : string -> nat, forall k d, depends wf k d -> In d (keys (wf_jobs wf)) /\ level d < level k.
(** A set of jobs each of which waits for a member of the set, or for a job that does not exist. *)
Definition waits_for_itself (wf : workflow) (S : string -> Prop) : Prop :=
  (exists k, In k (keys (wf_jobs wf)) /\ S k) /\
  forall k, S k -> exists d, depends wf k d /\ (S d \/ ~ In d (keys (wf_jobs wf))).

(** C35: upper bound for the number of results received, [u] jobs being still unknown and [t] tasks outstanding;
    [n] jobs in all. *)
Fixpoint receive_bound (n u t : nat) : nat :=
  match u with
  | 0 => 0
  | S u' => (t + 1) + receive_bound n u' (t + (t + 1) * n)
  end.

(** C33: every job with dependencies is, directly or indirectly, a dependency or a dependent of every other job. *)
Definition comparable (wf : workflow) : Prop :=
  forall k j, In (k, j) (wf_jobs wf) -> jb_depends_on j <> [] ->
  forall k', In k' (keys (wf_jobs wf)) -> k' = k \/ depends_trans wf k k' \/ depends_trans wf k' k.

(** C34: how often job [k] (= [j]) is started when the results of [ks] are received one after another: once for every
    receipt after which all its dependencies have been received and itself not. *)
Definition ready_after (k : string) (j : job) (seen : list string) : bool :=
  forallb (fun d => memb d seen) (jb_depends_on j) && negb (memb k seen).
Definition start_count (k : string) (j : job) (ks : list string) : nat :=
  match jb_depends_on j with
  | [] => 1
  | _ => length (filter (fun n => ready_after k j (firstn n ks)) (seq 1 (length ks)))
  end.

(** The job of the task has finished (its result may still have to be delivered). *)
Definition finished (t : wtask) : Prop := exists r, tk_phase t = JpReturned r.
(** The task's job crashed. *)
Definition crashed (t : wtask) : Prop := exists t0 js rs why rest, tk_phase t = JpStepRun t0 js rs (SpPanic why) rest.

(** The jobs have different ids. *)
Definition distinct_ids (wf : workflow) : Prop :=
  forall k k' j j', In (k, j) (wf_jobs wf) -> In (k', j') (wf_jobs wf) -> jb_id j = jb_id j' -> k = k'.
(** Nobody outside this run registers or unregisters one of its jobs, and hooks do not move steps to other jobs. *)
Definition well_behaved (wf : workflow) (op : wop) : Prop :=
  match op with
  | WEnv (ESig (MRegister x)) | WEnv (ESig (MUnregister x)) => forall k j, In (k, j) (wf_jobs wf) -> x <> jb_id j
  | WTaskOp _ (JStep (OpBefore c)) =>
      forall st, step_id_job_id (st_id (snd (call_on_before_run_step unit c st tt))) = step_id_job_id (st_id st)
  | _ => True
  end.
Definition is_main (op : wop) : bool := match op with WMain => true | _ => false end.
