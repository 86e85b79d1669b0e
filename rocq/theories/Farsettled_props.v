(** C163: what a run on remote runners leaves on the runners' machines. *)
From Verif Require Import Base Types Signals_model Stream_model Cond_model
  Plugins_model Plugins_spec Exec_model Exec_spec Workflow_model Workflow_spec
  Paths_model Docker_model Runner_model Runner_proof Ids_model Ids_spec Sched_model Remote_model Local_model Local_spec Distant_model Worker_model System_model System_spec System_proof System_flow System_inst Step_props Distant_props System_props
  Paths_spec Paths_props Chain_model Chain_spec Chain_proof Chain_props Process_spec Process_props Chainproc_spec Chainproc_props Machine_spec Settled_spec.
From Verif Require Import Config_model Fleet_model Fleet_spec Fleet_proof Fleet_props Dispatch_model Dispatch_spec Dispatch_props Farm_model Farm_spec Farm_proof Farm_place Farm_main Farm_serve Farm_props Remote_spec Chainproc_proof Process_proof Paths_proof.

(** Everything done on a runner's disk for a step of a run lies in the directory which that runner removes when it learns that the step's workflow has completed: [runs] is what the runner
    has been given by then, this step included, for all workflows, and all steps of this workflow came with the same event. *)
Theorem C163_made_in_what_is_removed : forall cx cl sv rhooks show_f64 os arch base glob wf, NoDup (keys (wf_jobs wf)) ->
  (forall srv rc, cmd_id (rx_command (rhooks srv rc)) = cmd_id (rx_command rc) /\ rx_event (rhooks srv rc) = rx_event rc) ->
  let conf := fun srv : runner_meta => runner_conf show_f64 (os srv) (arch srv) (base srv) in
  forall sh0 ops s tr, sysrun (chained cx cl sv rhooks conf) glob cx wf sh0 ops s tr ->
  forall pre who e p post, tr = pre ++ (who, inr (KEff e)) :: post -> touches e p ->
  exists i rc srv, who = Some i /\ In (Some i, inr (KObs (ORun rc))) pre /\ asked ops i srv /\
    let id := cmd_id (rx_command rc) in let w := step_id_workflow_id id in
    forall runs, In (id, rx_event rc) runs -> (forall id' ev, In (id', ev) runs -> step_id_workflow_id id' = w -> ev = rx_event rc) ->
      ordinary_repo (event_repo (rx_event rc)) -> ordinary_id id -> within (cleanup_dir (base srv) (events_after runs) w) p.
Proof.
  intros cx cl sv rhooks show os arch base glob wf Hnd Hk conf sh0 ops s tr Hr pre who e p post E Ht.
  destruct (C155_effects _ _ _ _ _ _ _ Hnd _ _ _ _ Hr _ _ _ _ E) as (i & key & j & st0 & st & srv & Hw & _ & _ & _ & _ & H5 & Ha & ins & x & effs & X & Hin).
  exists i, (given cx st), srv. split; [exact Hw|]. split; [exact H5|]. split; [exact Ha|]. intros id w runs Hrun Hu Or Oi.
  destruct (Hk srv (given cx st)) as [K1 K2]. assert (P := own_places _ _ _ _ _ X Hin).
  set (rc := rhooks srv (given cx st)) in *. assert (M : xc_meta (conf srv rc) = step_metadata (base srv) (rx_event (given cx st)) id).
  { unfold conf, runner_conf. rewrite K1, K2. destruct (uses_host _ _ _); reflexivity. }
  assert (Ow : ordinary (wid_0 w)) by (exact (proj1 Oi)).
  destruct (C53_contains_own_directories (base srv) runs w (rx_event (given cx st)) id Ow Or Hu Hrun eq_refl (proj2 Oi)) as (D1 & D2 & D3).
  assert (D : within (cleanup_dir (base srv) (events_after runs) w) (xc_dir (conf srv rc))).
  { unfold xc_dir. rewrite M. destruct (xc_host _); assumption. }
  destruct e; cbn [touches] in Ht; try contradiction; subst p; rewrite ?M in P.
  - rewrite P. exact D.
  - destruct P as [-> _]. exact D3.
  - rewrite P. exact D.
Qed.
Print Assumptions C163_made_in_what_is_removed.

(** The same in a deployment of several runs, a scheduling client and runner servers: of whatever a server does on its disk for a step of the [k]-th run, which was placed there. *)
Theorem C163_in_a_deployment : forall cl sv rhooks show_f64 os arch base glob now ops q tr,
  let conf := fun srv : runner_meta => runner_conf show_f64 (os srv) (arch srv) (base srv) in
  (forall srv rc, cmd_id (rx_command (rhooks srv rc)) = cmd_id (rx_command rc) /\ rx_event (rhooks srv rc) = rx_event rc) ->
  farm_run cl sv rhooks conf glob now ops q tr -> forall k who e p pre post, tr = pre ++ QSeen k (who, inr (KEff e)) :: post -> touches e p ->
  exists i rc srv, who = Some i /\ placed (fm_asked q) (client_view pre) k i rc (Some srv) /\
    let id := cmd_id (rx_command rc) in let w := step_id_workflow_id id in
    forall runs, In (id, rx_event rc) runs -> (forall id' ev, In (id', ev) runs -> step_id_workflow_id id' = w -> ev = rx_event rc) ->
      ordinary_repo (event_repo (rx_event rc)) -> ordinary_id id -> within (cleanup_dir (base srv) (events_after runs) w) p.
Proof.
  intros cl sv rhooks show os arch base glob now ops q tr conf Hk Hr k who e p pre post E Ht.
  destruct (C148_only_what_was_sent _ _ _ _ _ _ _ _ _ _ _ _ _ _ Hr E) as (i & rc & srv & Hw & Hp & _ & _ & ins & x & effs & X & Hin).
  exists i, rc, srv. split; [exact Hw|]. split; [exact Hp|]. intros id w runs Hrun Hu Or Oi.
  destruct (Hk srv rc) as [K1 K2]. assert (P := own_places _ _ _ _ _ X Hin).
  set (rc' := rhooks srv rc) in *. assert (M : xc_meta (conf srv rc') = step_metadata (base srv) (rx_event rc) id).
  { unfold conf, runner_conf. rewrite K1, K2. destruct (uses_host _ _ _); reflexivity. }
  assert (Ow : ordinary (wid_0 w)) by (exact (proj1 Oi)).
  destruct (C53_contains_own_directories (base srv) runs w (rx_event rc) id Ow Or Hu Hrun eq_refl (proj2 Oi)) as (D1 & D2 & D3).
  assert (D : within (cleanup_dir (base srv) (events_after runs) w) (xc_dir (conf srv rc'))).
  { unfold xc_dir. rewrite M. destruct (xc_host _); assumption. }
  destruct e; cbn [touches] in Ht; try contradiction; subst p; rewrite ?M in P.
  - rewrite P. exact D.
  - destruct P as [-> _]. exact D3.
  - rewrite P. exact D.
Qed.
Print Assumptions C163_in_a_deployment.

(** But other than a local run (C162), a remote run can make things after its completion has been announced, and so after the runner has removed the workflow's directory: the connection
    breaks while the server prepares the only step; step, job and workflow are over, failed; and the server then makes the step's directory and starts the process. *)
Notation far := (chained c26_cx (fun t => t + 100) (fun t => t + 200) (fun _ c => c) (fun _ => runner_conf (fun _ => "") "linux" "x86_64" "/b")).
Definition one_wf : workflow := Workflow (WorkflowId "w") None None [("a", Job (JobId "w" "a") None None [sys_step "a"] [] [])].
Definition later_ops (err : string) : list (sysop (iop := kop)) :=
  repeat (YFlow WMain) 6 ++ repeat (YFlow (WTaskOp 0 JNext)) 6 ++
  map (YStep 0) (map KFlow [DEngine (OpBefore c26_hooks); DEngine OpNext; DEngine OpNext; DEngine OpNext; DEngine OpNext; DEngine OpNext; DPick [("r", far_runner)] (Some far_runner)] ++
    [KArrive; KExec XIGo] ++ map KFlow [DEngine (OpAnswer true); DRemote (RiAnswer (Some err)); DSender; DSender; DSender; DEngine OpNext; DEngine OpNext; DEngine OpStream;
     DEngine OpNext; DEngine OpNext; DEngine OpNext; DEngine OpStream; DEngine OpNext; DEngine OpNext; DEngine OpNext; DEngine OpNext]) ++
  repeat (YFlow (WTaskOp 0 JNext)) 5 ++ [YFlow (WSend 0)] ++ repeat (YFlow WMain) 4 ++ [YPast 0 (KExec (XIFs true)); YPast 0 (KExec (XICmd (CISpawn true)))].
Theorem C163_may_be_made_after_completion : forall err, exists s tr before r,
  sysrun far (fun _ => None) c26_cx one_wf sys_sh (later_ops err) s tr /\ NoDup (started (flow_of far tr)) /\
  tr = before ++ [(None, inl (OHook (HWorkflowCompleted r))); (Some 0, inr (KEff (EfMkdir "/b/w/a/data"))); (Some 0, inr (KEff (EfSpawn "make")))] /\ wr_state r = Failed.
Proof.
  intros err. destruct (sysexec far (fun _ => None) c26_cx one_wf (System (winit sys_sh) [] []) (later_ops err)) as [[s tr]|] eqn:E; [|vm_compute in E; discriminate E].
  exists s, tr. assert (R : sysrun far (fun _ => None) c26_cx one_wf sys_sh (later_ops err) s tr) by exact (sysexec_run _ _ _ _ _ _ _ _ _ _ _ (sysrun_init _ _ _ _ _) E).
  assert (L : NoDup (started (flow_of far tr)) /\ exists r, tr = removelast (removelast (removelast tr)) ++ [(None, inl (OHook (HWorkflowCompleted r))); (Some 0, inr (KEff (EfMkdir "/b/w/a/data"))); (Some 0, inr (KEff (EfSpawn "make")))] /\ wr_state r = Failed).
  { clear R. vm_compute in E. injection E as _ <-. split; [match goal with |- NoDup ?x => let y := eval vm_compute in x in change (NoDup y) end; repeat constructor; cbn; intuition discriminate|].
    eexists. split; [vm_compute; reflexivity|reflexivity]. }
  destruct L as (N & r & L & Hf). exists (removelast (removelast (removelast tr))), r. auto.
Qed.
Print Assumptions C163_may_be_made_after_completion.

(** Non-vacuity of the first: in this run the directory made late is "/b/w/a/data", and what is removed is "/b/w". *)
Example C163_nonvacuous : forall err, exists s tr, sysrun far (fun _ => None) c26_cx one_wf sys_sh (later_ops err) s tr /\ NoDup (keys (wf_jobs one_wf)) /\
  In (Some 0, inr (KEff (EfMkdir "/b/w/a/data"))) tr /\ cleanup_dir "/b" (events_after [(StepId "w" "a" 0, None)]) (WorkflowId "w") = "/b/w" /\ ordinary_id (StepId "w" "a" 0).
Proof.
  intros err. destruct (C163_may_be_made_after_completion err) as (s & tr & before & r & R & _ & -> & _). exists s, (before ++ [(None, inl (OHook (HWorkflowCompleted r))); (Some 0, inr (KEff (EfMkdir "/b/w/a/data"))); (Some 0, inr (KEff (EfSpawn "make")))]).
  split; [exact R|]. split; [repeat constructor; cbn; intuition discriminate|]. split; [apply in_or_app; right; right; left; reflexivity|]. split; [reflexivity|]. repeat split; discriminate.
Qed.
