(** Model of crates/astro-run/src/workflow/mod.rs [Workflow::run] together with the job tasks it spawns. The main task and
    the job tasks interleave arbitrarily; each transition contains at most one access to shared state (channel, signal
    registry, condition cache, clock) or one event. *)
From Verif Require Import Base Types Signals_model Stream_model Cond_model Plugins_model Exec_model.

(** workflow/mod.rs:153-161: a spawned task: it runs the job and then sends the result. A panic inside the job leaves the
    task in [JpStepRun .. (SpPanic _) ..] for ever: the panic ends the tokio task and nothing is sent. *)
Record wtask := WTask { tk_key : string; tk_job : job; tk_phase : job_phase; tk_sent : bool }.

Inductive wphase :=
| WpCheck                                                                   (* :29 should_skip *)
| WpFetch (c : condition) (ev : trigger_event)                              (* awaiting GitHub for the workflow's condition *)
| WpSkip                                                                    (* :30-35 *)
| WpStart                                                                   (* :46 *)
| WpRunEvent (t0 : time)                                                    (* :50 *)
| WpInProgress (t0 : time)                                                  (* :51-56 *)
| WpSpawn (t0 : time) (ws : wf_state) (waiting rest : list (string * job))  (* :63-87 *)
| WpLoop (t0 : time) (ws : wf_state) (waiting : list (string * job)) (results : map_ string job_run_result)   (* :92 *)
| WpScan (t0 : time) (ws : wf_state) (waiting : list (string * job)) (results : map_ string job_run_result)
    (todo : list (string * job))                                            (* :109-123 *)
| WpBroken (t0 : time) (ws : wf_state) (results : map_ string job_run_result)   (* :126 *)
| WpEndState (r : workflow_run_result)                                      (* :133-138 *)
| WpEndDone (r : workflow_run_result)                                       (* :148 *)
| WpDone (r : workflow_run_result).                                         (* :37-43, :150 *)

Record wstate := WState {
  ws_sh : shared; ws_main : wphase; ws_tasks : list wtask; ws_chan : list (string * job_run_result) }.

(** Who made an observation: the main task or the i-th spawned job task. *)
Definition who := option nat.
Definition trace := list (who * obs).

Inductive wop :=
| WMain                       (* the main task's next action *)
| WGithub (gh : github)       (* GitHub answers the main task's condition check *)
| WTaskOp (i : nat) (op : job_op)
| WSend (i : nat)             (* :157 [sender.send] of task i goes through *)
| WEnv (e : env_op).          (* anything outside this workflow run *)

Section Workflow.
Variable glob : glob_oracle.
Variable cx : ectx.
Variable wf : workflow.

(** :68-80: some dependency is not a job of the workflow *)
Definition has_missing_dep (j : job) : bool := existsb (fun d => negb (contains_key d (wf_jobs wf))) (jb_depends_on j).
Definition has_deps (j : job) : bool := match jb_depends_on j with [] => false | _ => true end.
(** :110-119 *)
Definition ready (results : map_ string job_run_result) (j : job) : bool :=
  has_deps j && forallb (fun d => contains_key d results) (jb_depends_on j).
(** :93-97 *)
Definition ws_after (ws : wf_state) (r : job_run_result) : wf_state :=
  match jr_state r with Failed => Failed | Cancelled => Cancelled | _ => ws end.

Definition wf_obs (s : wf_state) : trace := [(None, OHook (HState (WorkflowStateUpdated (wf_id wf) s)))].
Definition new_task (kj : string * job) : wtask := WTask (fst kj) (snd kj) JpCheck false.
Definition set_main (p : wphase) (s : wstate) : wstate := WState (ws_sh s) p (ws_tasks s) (ws_chan s).
(** :86, :120 [run_job] *)
Definition spawn (kj : string * job) (p : wphase) (s : wstate) : wstate * trace :=
  (WState (ws_sh s) p (ws_tasks s ++ [new_task kj]) (ws_chan s), [(None, OSpawn (fst kj))]).

(** :58 *)
Definition channel_capacity : nat := 10.

Definition main_step (s : wstate) : option (wstate * trace) :=
  match ws_main s with
  | WpCheck =>
      match wf_on wf with
      | None => Some (set_main WpStart s, [])
      | Some c => match is_match_first glob (cx_matcher cx) (sh_cache (ws_sh s)) c with
                  | Decided b => Some (set_main (if b then WpStart else WpSkip) s, [(None, OMatch c b)])
                  | NeedFetch ev => Some (set_main (WpFetch c ev) s, [])
                  end
      end
  | WpFetch _ _ => None
  | WpSkip => Some (set_main (WpDone (WorkflowRunResult (wf_id wf) Skipped None None [])) s, wf_obs Skipped)
  | WpStart => Some (set_main (WpRunEvent (sh_now (ws_sh s))) s, [])
  | WpRunEvent t0 =>
      Some (set_main (WpInProgress t0) s,
            [(None, OHook (HRunWorkflow (RunEvent wf (cm_event (cx_matcher cx)) (cx_payload cx))))])
  | WpInProgress t0 => Some (set_main (WpSpawn t0 InProgress [] (wf_jobs wf)) s, wf_obs InProgress)
  | WpSpawn t0 ws waiting [] => Some (set_main (WpLoop t0 ws waiting []) s, [])
  | WpSpawn t0 ws waiting ((key, j) :: rest) =>
      if has_deps j
      then Some (set_main (WpSpawn t0 (if has_missing_dep j then Failed else ws) (waiting ++ [(key, j)]) rest) s, [])
      else Some (spawn (key, j) (WpSpawn t0 ws waiting rest) s)
  | WpLoop t0 ws waiting results =>
      match ws_chan s with
      | [] => None
      | (key, r) :: chan' =>
          let ws' := ws_after ws r in
          let waiting' := filter (fun kj => negb (eqb (fst kj) key)) waiting in
          let results' := insert key r results in
          let p' := if Nat.eqb (length results') (length (wf_jobs wf))
                    then WpBroken t0 (match ws' with InProgress => Succeeded | _ => ws' end) results'
                    else WpScan t0 ws' waiting' results' waiting' in
          Some (WState (ws_sh s) p' (ws_tasks s) chan', [(None, OReceive key r)])
      end
  | WpScan t0 ws waiting results [] => Some (set_main (WpLoop t0 ws waiting results) s, [])
  | WpScan t0 ws waiting results ((key, j) :: todo) =>
      if ready results j
      then Some (spawn (key, j) (WpScan t0 ws waiting results todo) s)
      else Some (set_main (WpScan t0 ws waiting results todo) s, [])
  | WpBroken t0 ws results =>
      Some (set_main (WpEndState (WorkflowRunResult (wf_id wf) ws (Some t0) (Some (sh_now (ws_sh s))) results)) s, [])
  | WpEndState r => Some (set_main (WpEndDone r) s, [(None, OHook (HState (WorkflowStateUpdated (wr_id r) (wr_state r))))])
  | WpEndDone r => Some (set_main (WpDone r) s, [(None, OHook (HWorkflowCompleted r))])
  | WpDone _ => None
  end.

Definition set_task (i : nat) (t : wtask) (s : wstate) : wstate :=
  WState (ws_sh s) (ws_main s) (list_set i t (ws_tasks s)) (ws_chan s).

Definition wstep (s : wstate) (op : wop) : option (wstate * trace) :=
  match op with
  | WMain => main_step s
  | WGithub gh =>
      match ws_main s with
      | WpFetch c ev =>
          let '(cache', b) := is_match_second glob (fetch_payload gh ev) (sh_cache (ws_sh s)) c in
          Some (WState (set_cache cache' (ws_sh s)) (if b then WpStart else WpSkip) (ws_tasks s) (ws_chan s), [(None, OMatch c b)])
      | _ => None
      end
  | WTaskOp i op =>
      match nth_error (ws_tasks s) i with
      | None => None
      | Some t =>
          match job_step glob cx (S i) (tk_job t) (ws_sh s) (tk_phase t) op with
          | None => None
          | Some (sh', p', o) =>
              Some (WState sh' (ws_main s) (list_set i (WTask (tk_key t) (tk_job t) p' (tk_sent t)) (ws_tasks s)) (ws_chan s),
                    map (fun x => (Some i, x)) o)
          end
      end
  | WSend i =>
      match nth_error (ws_tasks s) i with
      | Some (WTask key j (JpReturned r) false) =>
          match ws_main s with
          | WpDone _ => Some (set_task i (WTask key j (JpReturned r) true) s, [])   (* receiver dropped: the send fails *)
          | _ => if Nat.ltb (length (ws_chan s)) channel_capacity
                 then Some (WState (ws_sh s) (ws_main s) (list_set i (WTask key j (JpReturned r) true) (ws_tasks s))
                                   (ws_chan s ++ [(key, r)]), [])
                 else None
          end
      | _ => None
      end
  | WEnv e => Some (WState (env_step (ws_sh s) e) (ws_main s) (ws_tasks s) (ws_chan s), [])
  end.

Definition winit (sh : shared) : wstate := WState sh WpCheck [] [].

(** All executions. *)
Inductive wrun : list wop -> wstate -> trace -> Prop :=
| wrun_init sh : wrun [] (winit sh) []
| wrun_step ls s tr op s' o : wrun ls s tr -> wstep s op = Some (s', o) -> wrun (ls ++ [op]) s' (tr ++ o).

Fixpoint wexec (s : wstate) (ops : list wop) : option (wstate * trace) :=
  match ops with
  | [] => Some (s, [])
  | op :: ops' => match wstep s op with
                  | None => None
                  | Some (s', o) => match wexec s' ops' with None => None | Some (s2, o2) => Some (s2, o ++ o2) end
                  end
  end.
End Workflow.
