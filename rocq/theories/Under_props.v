(** C164: whose directory the clean-up of a step's task removes: no other job's, but possibly the one the job's next step is working in. *)
From Verif Require Import Base Types Signals_model Stream_model Cond_model
  Plugins_model Plugins_spec Exec_model Exec_spec Workflow_model Workflow_spec Workflow_proof Workflow_props
  Ids_model Ids_spec Ids_proof Paths_model Paths_spec Paths_proof Docker_model Runner_model Runner_proof Local_model Local_spec
  System_model System_spec System_proof System_flow System_inst Step_props System_props Process_spec Process_proof Process_props
  Fleet_model Fleet_spec Fleet_props.

(** A job of two host steps. The first one's timer of 60 seconds fires; the engine goes on with the second, which makes the job's directory again and starts its command in it. Then the
    first step's task, which has been killing its process, gets to its clean-up and removes that directory; the second command is still running: it goes on to write a line of output. *)
Definition host_step (n : N) (cmd : string) : step :=
  Step (StepId "w" "a" n) None None (Some (ContainerOptions "host/linux" None None)) cmd true [] [] (Duration 60 0).
Definition two_wf : workflow := Workflow (WorkflowId "w") None None [("a", Job (JobId "w" "a") None None [host_step 0 "one"; host_step 1 "two"] [] [])].
Definition opening : list lop :=
  [LEngine (OpBefore c26_hooks); LEngine OpNext; LEngine OpNext; LEngine OpNext; LEngine OpNext; LEngine OpNext;
   LSpawn; LRunner XIGo; LEngine (OpAnswer true); LRunner (XIFs true); LEngine OpNext; LEngine OpNext; LRunner (XICmd (CISpawn true))].
Definition shared_ops : list (sysop (iop := lop)) :=
  repeat (YFlow WMain) 6 ++ repeat (YFlow (WTaskOp 0 JNext)) 6 ++ map (YStep 0) opening ++ [YFlow (WEnv (ETick 60000000000))] ++
  map (YStep 0) [LEngine OpTimer; LRunner XITake; LSender; LSender; LEngine OpNext; LEngine OpStream; LEngine OpNext; LEngine OpNext; LEngine OpNext; LEngine OpNext] ++
  repeat (YFlow (WTaskOp 0 JNext)) 2 ++ map (YStep 0) opening ++ [YPast 0 (LRunner (XIFs true)); YStep 0 (LRunner (XICmd (CIOut (RdLine "hello"))))].
Definition effects_of (tr : list (who * (obs + lobs))) : list (who * xeff) := flat_map (fun x => match x with (w, inr (LEff e)) => [(w, e)] | _ => [] end) tr.
Theorem C164_host_directory_removed_under_next_step : exists s tr,
  sysrun (builtin c26_cx (fun c => c) (runner_conf (fun _ => "") "linux" "x86_64" "/b")) (fun _ => None) c26_cx two_wf sys_sh shared_ops s tr /\
  effects_of tr = [(Some 0, EfMkdir "/b/w/a/data"); (Some 0, EfSpawn "one"); (Some 0, EfEnd (RFailed 123));
                   (Some 0, EfMkdir "/b/w/a/data"); (Some 0, EfSpawn "two"); (Some 0, EfRmdir "/b/w/a/data"); (Some 0, EfLog (Log LLog "hello"))].
Proof.
  destruct (sysexec (builtin c26_cx (fun c => c) (runner_conf (fun _ => "") "linux" "x86_64" "/b")) (fun _ => None) c26_cx two_wf (System (winit sys_sh) [] []) shared_ops) as [[s tr]|] eqn:E; [|vm_compute in E; discriminate E].
  exists s, tr. split; [exact (sysexec_run _ _ _ _ _ _ _ _ _ _ _ (sysrun_init _ _ _ _ _) E)|]. vm_compute in E. injection E as _ <-. vm_compute. reflexivity.
Qed.
Print Assumptions C164_host_directory_removed_under_next_step.

(** Two steps' directories, one inside the other: then they are the same step's, or the same job's and both are the job's shared directory. *)
Definition dir_of (host : bool) (m : metadata) : string := if host then md_data_dir m else md_step_dir m.
Lemma dirs_nested base r (h h' : bool) id id' : ordinary_repo r -> ordinary_id id -> ordinary_id id' ->
  within (dir_of h (build_metadata base r id)) (dir_of h' (build_metadata base r id')) ->
  step_id_job_id id = step_id_job_id id' /\ h = h' /\ (h = false -> id = id').
Proof.
  intros Hr Hi Hi' (rest & E & _). unfold dir_of in E.
  assert (Q : forall (h : bool) id, ordinary_id id -> components (if h then md_data_dir (build_metadata base r id) else md_step_dir (build_metadata base r id)) =
    (fst (components base), (snd (components base) ++ repo_names r) ++ [sid_0 id; sid_1 id; if h then "data" else show_usize (sid_2 id)])).
  { intros b i Hb. destruct b; [apply data_dir_components|apply step_dir_components]; assumption. }
  rewrite (Q h' id' Hi'), (Q h id Hi) in E. cbn [fst snd] in E. injection E as E. rewrite <- (app_assoc (_ ++ _)) in E. apply app_inv_head in E. cbn [app] in E. injection E as E0 E1 E2 _.
  split; [unfold step_id_job_id; congruence|]. destruct h, h'; try (split; [reflexivity|intros; discriminate]).
  - destruct (data_not_decimal (sid_2 id')). rewrite <- E2. apply show_usize_decimal.
  - destruct (data_not_decimal (sid_2 id)). rewrite E2. apply show_usize_decimal.
  - split; [reflexivity|]. intros _. apply show_usize_inj in E2. destruct id, id'. cbn in *. congruence.
Qed.

(** In any run: the directory that a step's task removes is its own, and holds the directory of another step given to the runner only if both belong to the same job and are executed
    on the host. *)
Theorem C164_only_same_jobs_host_steps : forall cx rhooks show_f64 os arch base glob wf, NoDup (keys (wf_jobs wf)) ->
  (forall rc, cmd_id (rx_command (rhooks rc)) = cmd_id (rx_command rc) /\ rx_event (rhooks rc) = rx_event rc) ->
  ordinary_repo (event_repo (cm_event (cx_matcher cx))) ->
  forall sh0 ops s tr, sysrun (builtin cx rhooks (runner_conf show_f64 os arch base)) glob cx wf sh0 ops s tr ->
  forall before w p after, tr = before ++ (w, inr (LEff (EfRmdir p))) :: after ->
  exists i rc, w = Some i /\ In (Some i, inr (LObs (ORun rc))) before /\ p = xc_dir (runner_conf show_f64 os arch base (rhooks rc)) /\
    forall k rc', In (Some k, inr (LObs (ORun rc'))) tr -> ordinary_id (cmd_id (rx_command rc)) -> ordinary_id (cmd_id (rx_command rc')) ->
      within p (xc_dir (runner_conf show_f64 os arch base (rhooks rc'))) ->
      cmd_id (rx_command rc') = cmd_id (rx_command rc) \/
      (step_id_job_id (cmd_id (rx_command rc')) = step_id_job_id (cmd_id (rx_command rc)) /\
       uses_host os arch (cmd_container (rx_command (rhooks rc))) = true /\ uses_host os arch (cmd_container (rx_command (rhooks rc'))) = true).
Proof.
  intros cx rhooks show os arch base glob wf Hnd Hk Or sh0 ops s tr Hr before w p after E.
  destruct (C152_effects _ _ _ _ _ Hnd _ _ _ _ Hr _ _ _ _ E) as (i & key & j & st0 & st & -> & _ & _ & _ & _ & H5 & (ins & x & effs & X & Hx) & _).
  assert (P := own_places _ _ _ _ _ X Hx). cbn beta iota in P. exists i, (given cx st). split; [reflexivity|]. split; [exact H5|]. split; [exact P|].
  assert (G : forall st', xc_dir (runner_conf show os arch base (rhooks (given cx st'))) =
    dir_of (uses_host os arch (cmd_container (rx_command (rhooks (given cx st'))))) (build_metadata base (event_repo (cm_event (cx_matcher cx))) (st_id st'))).
  { intros st'. destruct (Hk (given cx st')) as [K1 K2]. unfold runner_conf, xc_dir, dir_of, step_metadata. rewrite K1, K2. destruct (uses_host _ _ _); reflexivity. }
  intros k rc' Hin Oi Oi' Hw. assert (Hc : In rc' (calls_of k tr)) by (apply call_listed; exact Hin).
  edestruct run_calls as (_ & _ & _ & sts & _ & _ & _ & _ & K5); [..|exact Hr|exact Hc|]; try eassumption. rewrite K5 in Hc. apply in_map_iff in Hc as (st' & <- & _).
  rewrite P, !G in Hw. apply dirs_nested in Hw as (J & Hh & Hs); [|exact Or|exact Oi|exact Oi'].
  change (cmd_id (rx_command (given cx st'))) with (st_id st'). change (cmd_id (rx_command (given cx st))) with (st_id st).
  destruct (uses_host os arch (cmd_container (rx_command (rhooks (given cx st))))) eqn:Eh; [right; auto|left; symmetry; auto].
Qed.
Print Assumptions C164_only_same_jobs_host_steps.

(** The same of every run on a machine on which several runs are in progress. *)
Theorem C164_on_a_machine : forall rhooks show_f64 os arch base glob now ops f tr,
  fleet_run (fun cx => builtin cx rhooks (runner_conf show_f64 os arch base)) glob now ops f tr -> named f ->
  (forall rc, cmd_id (rx_command (rhooks rc)) = cmd_id (rx_command rc) /\ rx_event (rhooks rc) = rx_event rc) ->
  forall n cx wf s, run_at f n cx wf s -> ordinary_repo (event_repo (cm_event (cx_matcher cx))) ->
  forall before w p after, run_events n tr = before ++ (w, inr (LEff (EfRmdir p))) :: after ->
  exists i rc, w = Some i /\ In (Some i, inr (LObs (ORun rc))) before /\ p = xc_dir (runner_conf show_f64 os arch base (rhooks rc)) /\
    forall k rc', In (Some k, inr (LObs (ORun rc'))) (run_events n tr) -> ordinary_id (cmd_id (rx_command rc)) -> ordinary_id (cmd_id (rx_command rc')) ->
      within p (xc_dir (runner_conf show_f64 os arch base (rhooks rc'))) ->
      cmd_id (rx_command rc') = cmd_id (rx_command rc) \/
      (step_id_job_id (cmd_id (rx_command rc')) = step_id_job_id (cmd_id (rx_command rc)) /\
       uses_host os arch (cmd_container (rx_command (rhooks rc))) = true /\ uses_host os arch (cmd_container (rx_command (rhooks rc'))) = true).
Proof.
  intros rhooks show os arch base glob now ops f tr Hr Hn Hk n cx wf s Ha Or before w p after E. destruct (C127_builtin _ _ _ _ _ _ _ Hr Hn _ _ _ _ Ha) as (sh0 & ops' & S & _).
  assert (Nd : NoDup (keys (wf_jobs wf))). { destruct Ha as (x & ca & E' & _ & Ew & _). rewrite <- Ew. exact (Hn _ _ E'). }
  exact (C164_only_same_jobs_host_steps cx rhooks show os arch base glob wf Nd Hk Or _ _ _ _ S _ _ _ _ E).
Qed.
Print Assumptions C164_on_a_machine.

(** Non-vacuity: in the witness's run a directory is removed, both steps have ordinary names, and they share the directory /b/w/a/data; a step of the same job executed in a container
    has its own. *)
Example C164_nonvacuous : exists s tr rc rc' before after,
  sysrun (builtin c26_cx (fun c => c) (runner_conf (fun _ => "") "linux" "x86_64" "/b")) (fun _ => None) c26_cx two_wf sys_sh shared_ops s tr /\
  tr = before ++ (Some 0, inr (LEff (EfRmdir "/b/w/a/data"))) :: after /\ calls_of 0 tr = [rc; rc'] /\ rc <> rc' /\
  xc_dir (runner_conf (fun _ => "") "linux" "x86_64" "/b" rc) = "/b/w/a/data" /\ xc_dir (runner_conf (fun _ => "") "linux" "x86_64" "/b" rc') = "/b/w/a/data" /\
  ordinary_id (cmd_id (rx_command rc)) /\ ordinary_id (cmd_id (rx_command rc')) /\ ordinary_repo (event_repo (cm_event (cx_matcher c26_cx))) /\ NoDup (keys (wf_jobs two_wf)) /\
  xc_dir (runner_conf (fun _ => "") "linux" "x86_64" "/b" (given c26_cx (Step (StepId "w" "a" 2) None None (Some (ContainerOptions "alpine" None None)) "three" false [] [] (Duration 60 0)))) = "/b/w/a/2".
Proof.
  destruct (sysexec (builtin c26_cx (fun c => c) (runner_conf (fun _ => "") "linux" "x86_64" "/b")) (fun _ => None) c26_cx two_wf (System (winit sys_sh) [] []) shared_ops) as [[s tr]|] eqn:E; [|vm_compute in E; discriminate E].
  assert (R := sysexec_run _ _ _ _ _ _ _ _ _ _ _ (sysrun_init _ _ _ _ _) E).
  assert (L : exists rc rc' after, tr = firstn (length tr - 2) tr ++ (Some 0, inr (LEff (EfRmdir "/b/w/a/data"))) :: after /\ calls_of 0 tr = [rc; rc'] /\ rc <> rc' /\
    xc_dir (runner_conf (fun _ => "") "linux" "x86_64" "/b" rc) = "/b/w/a/data" /\ xc_dir (runner_conf (fun _ => "") "linux" "x86_64" "/b" rc') = "/b/w/a/data" /\
    ordinary_id (cmd_id (rx_command rc)) /\ ordinary_id (cmd_id (rx_command rc'))).
  { clear R. vm_compute in E. injection E as _ <-. do 3 eexists. split; [vm_compute; reflexivity|]. split; [vm_compute; reflexivity|]. split; [discriminate|].
    split; [vm_compute; reflexivity|]. split; [vm_compute; reflexivity|]. split; vm_compute; intuition discriminate. }
  destruct L as (rc & rc' & after & L1 & L2 & L3 & L4 & L5 & L6 & L7). exists s, tr, rc, rc', (firstn (length tr - 2) tr), after.
  split; [exact R|]. repeat (split; [first [assumption|exact Logic.I|repeat constructor; cbn; intuition discriminate]|]). reflexivity.
Qed.
