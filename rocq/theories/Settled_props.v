(** C162: a run that has completed makes nothing more on the machine, and what it made is what its clean-up removes. *)
From Verif Require Import Base Types Signals_model Stream_model Cond_model
  Plugins_model Plugins_spec Exec_model Exec_spec Workflow_model Workflow_spec Workflow_proof Workflow_props
  Paths_model Docker_model Runner_model Runner_proof Ids_model Ids_spec Local_model Local_spec System_model System_spec System_proof System_flow System_inst Step_props System_props Paths_spec Paths_props
  Process_spec Process_proof Process_props Fleet_model Fleet_spec Fleet_props Machine_spec Machine_props Settled_spec Settled_proof.

(** A run makes directories, files and processes only for a step that was given to the runner, has not ended, and whose process has not been started yet. *)
Theorem C162_only_while_preparing : forall cx rhooks conf glob wf sh0 ops s tr, sysrun (builtin cx rhooks conf) glob cx wf sh0 ops s tr ->
  forall pre w e post, tr = pre ++ (w, inr (LEff e)) :: post -> makes e -> exists i rc, w = Some i /\ being_prepared i rc pre.
Proof. intros cx rhooks conf glob wf sh0 ops s tr Hr. exact (made_run cx rhooks conf glob wf _ _ _ _ Hr). Qed.
Print Assumptions C162_only_while_preparing.

(** So after the workflow's completion, if no job was started twice, it makes nothing. *)
Theorem C162_nothing_after_completion : forall cx rhooks conf glob wf, NoDup (keys (wf_jobs wf)) ->
  forall sh0 ops s tr, sysrun (builtin cx rhooks conf) glob cx wf sh0 ops s tr -> NoDup (started (flow_of (builtin cx rhooks conf) tr)) ->
  forall before r after, tr = before ++ (None, inl (OHook (HWorkflowCompleted r))) :: after -> forall w e, In (w, inr (LEff e)) after -> ~ makes e.
Proof.
  intros cx rhooks conf glob wf Hnd sh0 ops s tr Hr Hs before r after -> w e Hin Hm. apply in_split in Hin as (p & q & ->).
  assert (E : before ++ (None, inl (OHook (HWorkflowCompleted r))) :: p ++ (w, inr (LEff e)) :: q = (before ++ (None, inl (OHook (HWorkflowCompleted r))) :: p) ++ (w, inr (LEff e)) :: q) by (rewrite <- app_assoc; reflexivity).
  destruct (made_run cx rhooks conf glob wf _ _ _ _ Hr _ _ _ _ E Hm) as (i & rc & _ & Hp). exact (settled cx rhooks conf glob wf Hnd _ _ _ _ _ _ _ _ _ Hr Hs Hp).
Qed.
Print Assumptions C162_nothing_after_completion.

(** Everything a run creates or writes on the disk lies in the directory that the runner removes when the workflow is over: [runs] is what the runner has been given by then, for
    this run and for others, and all steps with the workflow's id came with this run's event. *)
Theorem C162_made_in_what_is_removed : forall cx rhooks show_f64 os arch base glob wf, NoDup (keys (wf_jobs wf)) ->
  (forall rc, cmd_id (rx_command (rhooks rc)) = cmd_id (rx_command rc) /\ rx_event (rhooks rc) = rx_event rc) ->
  forall sh0 ops s tr w runs, sysrun (builtin cx rhooks (runner_conf show_f64 os arch base)) glob cx wf sh0 ops s tr ->
  ordinary_repo (event_repo (cm_event (cx_matcher cx))) -> only_steps_of w tr ->
  (forall i rc, In (Some i, inr (LObs (ORun rc))) tr -> In (cmd_id (rx_command rc), rx_event rc) runs) ->
  (forall id ev, In (id, ev) runs -> step_id_workflow_id id = WorkflowId w -> ev = cm_event (cx_matcher cx)) ->
  forall who e p, In (who, inr (LEff e)) tr -> touches e p -> within (cleanup_dir base (events_after runs) (WorkflowId w)) p.
Proof.
  intros cx rhooks show os arch base glob wf Hnd Hk sh0 ops s tr w runs Hr Or Ho Hin Hu who e p He Ht. apply in_split in He as (pre & post & E).
  destruct (C152_effects _ _ _ _ _ Hnd _ _ _ _ Hr _ _ _ _ E) as (i & key & j & st0 & st & _ & _ & _ & _ & _ & H5 & (ins & x & effs & X & Hx) & _).
  assert (H6 : In (Some i, inr (LObs (ORun (given cx st)))) tr) by (rewrite E; apply in_or_app; left; exact H5).
  destruct (Hk (given cx st)) as [K1 K2]. assert (P := own_places _ _ _ _ _ X Hx).
  set (rc := rhooks (given cx st)) in *. assert (M : xc_meta (runner_conf show os arch base rc) = step_metadata base (cm_event (cx_matcher cx)) (st_id st)).
  { unfold runner_conf. rewrite K1, K2. cbn [given rx_command rx_event command_of_step cmd_id]. destruct (uses_host _ _ _); reflexivity. }
  assert (Hrun := Hin _ _ H6). destruct (Ho _ _ H6) as [Hw Hi]. cbn [given rx_command rx_event command_of_step cmd_id] in Hrun, Hw, Hi.
  assert (Ew : step_id_workflow_id (st_id st) = WorkflowId w) by (unfold step_id_workflow_id; rewrite Hw; reflexivity).
  assert (Ow : ordinary (wid_0 (WorkflowId w))) by (cbn [wid_0]; rewrite <- Hw; apply Hi).
  destruct (C53_contains_own_directories base runs (WorkflowId w) (cm_event (cx_matcher cx)) (st_id st) Ow Or Hu Hrun Ew (proj2 Hi)) as (D1 & D2 & D3).
  assert (D : within (cleanup_dir base (events_after runs) (WorkflowId w)) (xc_dir (runner_conf show os arch base rc))).
  { unfold xc_dir. rewrite M. destruct (xc_host _); assumption. }
  destruct e; cbn [touches] in Ht; try contradiction; subst p; rewrite ?M in P.
  - rewrite P. exact D.
  - destruct P as [-> _]. exact D3.
  - rewrite P. exact D.
Qed.
Print Assumptions C162_made_in_what_is_removed.

(** In particular if the workflow's jobs with dependencies are all comparable (C33), as in a chain of jobs. *)
Theorem C162_nothing_after_completion_of_comparable_jobs : forall cx rhooks conf glob wf, NoDup (keys (wf_jobs wf)) -> comparable wf ->
  forall sh0 ops s tr, sysrun (builtin cx rhooks conf) glob cx wf sh0 ops s tr ->
  forall before r after, tr = before ++ (None, inl (OHook (HWorkflowCompleted r))) :: after -> forall w e, In (w, inr (LEff e)) after -> ~ makes e.
Proof.
  intros cx rhooks conf glob wf Hnd Hc sh0 ops s tr Hr. apply (C162_nothing_after_completion cx rhooks conf glob wf Hnd _ _ _ _ Hr).
  destruct (flow_run _ glob cx wf (builtin_faithful cx rhooks conf) _ _ _ _ Hr) as (wls & W & _ & _). exact (C33_comparable_jobs_start_once_partial glob cx wf _ _ _ Hnd Hc W).
Qed.
Print Assumptions C162_nothing_after_completion_of_comparable_jobs.

(** For other workflows it is false: here job c, which depends on a alone, is started a second time when b's result arrives (C33); the workflow completes when the first of the two has
    finished, and the second makes the step's directory again after that. *)
Definition twice_wf : workflow := Workflow (WorkflowId "w") None None
  [("a", Job (JobId "w" "a") None None [] [] []); ("b", Job (JobId "w" "b") None None [] [] []); ("c", Job (JobId "w" "c") None None [sys_step "c"] ["a"] [])].
Definition twice_ops : list (sysop (iop := lop)) :=
  repeat (YFlow WMain) 8 ++ repeat (YFlow (WTaskOp 0 JNext)) 9 ++ [YFlow (WSend 0)] ++ repeat (YFlow (WTaskOp 1 JNext)) 9 ++ [YFlow (WSend 1)] ++
  repeat (YFlow WMain) 6 ++ sys_job 2 0 ++ repeat (YFlow WMain) 4 ++ firstn 16 (sys_job 3 0).
Theorem C162_not_if_a_job_is_started_twice : exists s tr before r after,
  sysrun (builtin c26_cx (fun c => c) (runner_conf (fun _ => "") "linux" "x86_64" "/b")) (fun _ => None) c26_cx twice_wf sys_sh twice_ops s tr /\ NoDup (keys (wf_jobs twice_wf)) /\
  started (flow_of (builtin c26_cx (fun c => c) (runner_conf (fun _ => "") "linux" "x86_64" "/b")) tr) = ["a"; "b"; "c"; "c"] /\
  tr = before ++ (None, inl (OHook (HWorkflowCompleted r))) :: after /\ wr_state r = Succeeded /\ In (Some 3, inr (LEff (EfMkdir "/b/w/c/data"))) after.
Proof.
  destruct (sysexec (builtin c26_cx (fun c => c) (runner_conf (fun _ => "") "linux" "x86_64" "/b")) (fun _ => None) c26_cx twice_wf (System (winit sys_sh) [] []) twice_ops) as [[s tr]|] eqn:E; [|vm_compute in E; discriminate E].
  exists s, tr. assert (R := sysexec_run _ _ _ _ _ _ _ _ _ _ _ (sysrun_init _ _ _ _ _) E).
  assert (L : started (flow_of (builtin c26_cx (fun c => c) (runner_conf (fun _ => "") "linux" "x86_64" "/b")) tr) = ["a"; "b"; "c"; "c"] /\
    exists r after, tr = firstn 33 tr ++ (None, inl (OHook (HWorkflowCompleted r))) :: after /\ wr_state r = Succeeded /\ In (Some 3, inr (LEff (EfMkdir "/b/w/c/data"))) after).
  { clear R. vm_compute in E. injection E as _ <-. split; [vm_compute; reflexivity|]. do 2 eexists. split; [vm_compute; reflexivity|]. split; [reflexivity|]. cbn [In]. repeat (first [left; reflexivity|right]). }
  destruct L as (L1 & r & after & L2 & L3 & L4). exists (firstn 33 tr), r, after. split; [exact R|]. split; [repeat constructor; cbn; intuition discriminate|]. auto.
Qed.
Print Assumptions C162_not_if_a_job_is_started_twice.

(** The same of every run on a machine on which several runs are in progress. *)
Theorem C162_on_a_machine : forall rhooks conf glob now ops f tr, fleet_run (fun cx => builtin cx rhooks conf) glob now ops f tr -> named f ->
  forall k cx wf s, run_at f k cx wf s -> NoDup (started (flow_of (builtin cx rhooks conf) (run_events k tr))) ->
  forall before r after, run_events k tr = before ++ (None, inl (OHook (HWorkflowCompleted r))) :: after -> forall w e, In (w, inr (LEff e)) after -> ~ makes e.
Proof.
  intros rhooks conf glob now ops f tr Hr Hn k cx wf s Ha Hs before r after E. destruct (C127_builtin _ _ _ _ _ _ _ Hr Hn _ _ _ _ Ha) as (sh0 & ops' & S & _).
  assert (Nd : NoDup (keys (wf_jobs wf))). { destruct Ha as (x & ca & E' & _ & Ew & _). rewrite <- Ew. exact (Hn _ _ E'). }
  exact (C162_nothing_after_completion cx rhooks conf glob wf Nd sh0 ops' s _ S Hs before r after E).
Qed.
Print Assumptions C162_on_a_machine.

(** Non-vacuity: the run of C152's example completes; the two directories it makes lie in /b/w, which is what is removed. *)
Example C162_nonvacuous : exists s tr r, sysrun (builtin c26_cx (fun c => c) (runner_conf (fun _ => "") "linux" "x86_64" "/b")) (fun _ => None) c26_cx sys_wf sys_sh (sys_ops 3) s tr /\
  tr = removelast tr ++ [(None, inl (OHook (HWorkflowCompleted r)))] /\ NoDup (started (flow_of (builtin c26_cx (fun c => c) (runner_conf (fun _ => "") "linux" "x86_64" "/b")) tr)) /\
  flat_map (fun x => match x with (_, inr (LEff (EfMkdir p))) => [p] | _ => [] end) (removelast tr) = ["/b/w/a/data"; "/b/w/b/data"] /\
  cleanup_dir "/b" (events_after (map (fun rc => (cmd_id (rx_command rc), rx_event rc)) (calls_of 0 tr ++ calls_of 1 tr))) (WorkflowId "w") = "/b/w" /\
  ordinary_repo (event_repo (cm_event (cx_matcher c26_cx))) /\ only_steps_of "w" tr.
Proof.
  destruct (sysexec (builtin c26_cx (fun c => c) (runner_conf (fun _ => "") "linux" "x86_64" "/b")) (fun _ => None) c26_cx sys_wf (System (winit sys_sh) [] []) (sys_ops 3)) as [[s tr]|] eqn:E; [|vm_compute in E; discriminate E].
  assert (R := sysexec_run _ _ _ _ _ _ _ _ _ _ _ (sysrun_init _ _ _ _ _) E). vm_compute in E. injection E as _ <-.
  do 3 eexists. split; [exact R|]. split; [vm_compute; reflexivity|]. split; [match goal with |- NoDup ?x => let y := eval vm_compute in x in change (NoDup y) end; repeat constructor; cbn; intuition discriminate|].
  split; [reflexivity|]. split; [reflexivity|]. split; [exact Logic.I|].
  intros i rc H. cbn [In] in H. repeat (destruct H as [H|H]; [first [discriminate H|injection H as <- <-; split; [reflexivity|repeat split; discriminate]]|]); destruct H.
Qed.
