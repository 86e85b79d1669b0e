(** C164 on a runner's machine: whose directory the clean-up of a step's task removes there. *)
From Verif Require Import Base Types Signals_model Stream_model Cond_model
  Plugins_model Plugins_spec Exec_model Exec_spec Workflow_model Workflow_spec
  Paths_model Docker_model Runner_model Runner_proof Ids_model Ids_spec Sched_model Remote_model Local_model Local_spec Distant_model Worker_model System_model System_spec System_proof System_flow System_inst Step_props Distant_props System_props
  Paths_spec Paths_props Chain_model Chain_spec Chain_proof Chain_props Process_spec Process_props Chainproc_spec Chainproc_props Machine_spec.
From Verif Require Import Config_model Fleet_model Fleet_spec Fleet_proof Fleet_props Dispatch_model Dispatch_spec Dispatch_props Farm_model Farm_spec Farm_proof Farm_place Farm_main Farm_serve Farm_props Remote_spec Chainproc_proof Process_proof Paths_proof Under_props Farsettled_props.

Lemma removed_dirs (rhooks : run_context -> run_context) show os arch base rc rc' :
  (forall rc, cmd_id (rx_command (rhooks rc)) = cmd_id (rx_command rc) /\ rx_event (rhooks rc) = rx_event rc) ->
  ordinary_repo (event_repo (rx_event rc)) -> rx_event rc' = rx_event rc -> ordinary_id (cmd_id (rx_command rc)) -> ordinary_id (cmd_id (rx_command rc')) ->
  within (xc_dir (runner_conf show os arch base (rhooks rc))) (xc_dir (runner_conf show os arch base (rhooks rc'))) ->
  cmd_id (rx_command rc') = cmd_id (rx_command rc) \/
  (step_id_job_id (cmd_id (rx_command rc')) = step_id_job_id (cmd_id (rx_command rc)) /\
   uses_host os arch (cmd_container (rx_command (rhooks rc))) = true /\ uses_host os arch (cmd_container (rx_command (rhooks rc'))) = true).
Proof.
  intros Hk Or Ev Oi Oi' Hw.
  assert (G : forall c, rx_event c = rx_event rc -> xc_dir (runner_conf show os arch base (rhooks c)) =
    dir_of (uses_host os arch (cmd_container (rx_command (rhooks c)))) (build_metadata base (event_repo (rx_event rc)) (cmd_id (rx_command c)))).
  { intros c Ec. destruct (Hk c) as [K1 K2]. unfold runner_conf, xc_dir, dir_of, step_metadata. rewrite K1, K2, Ec. destruct (uses_host _ _ _); reflexivity. }
  rewrite (G rc eq_refl), (G rc' Ev) in Hw. apply dirs_nested in Hw as (J & Hh & Hs); [|exact Or|exact Oi|exact Oi'].
  destruct (uses_host os arch (cmd_container (rx_command (rhooks rc)))) eqn:Eh; [right; auto|left; symmetry; auto].
Qed.

(** A directory removed on a runner's machine in a run is the directory of a step that a job had handed over before; it holds the directory of another step with the same event, whether
    or not of this run, only if it is the same job's and both are executed on the host. *)
Theorem C164_on_a_runners_machine : forall cx cl sv rhooks show_f64 os arch base glob wf, NoDup (keys (wf_jobs wf)) ->
  (forall srv rc, cmd_id (rx_command (rhooks srv rc)) = cmd_id (rx_command rc) /\ rx_event (rhooks srv rc) = rx_event rc) ->
  let conf := fun srv : runner_meta => runner_conf show_f64 (os srv) (arch srv) (base srv) in
  forall sh0 ops s tr, sysrun (chained cx cl sv rhooks conf) glob cx wf sh0 ops s tr ->
  forall pre who p post, tr = pre ++ (who, inr (KEff (EfRmdir p))) :: post ->
  exists i rc srv, who = Some i /\ In (Some i, inr (KObs (ORun rc))) pre /\ asked ops i srv /\ p = xc_dir (conf srv (rhooks srv rc)) /\
    forall rc', rx_event rc' = rx_event rc -> ordinary_repo (event_repo (rx_event rc)) -> ordinary_id (cmd_id (rx_command rc)) -> ordinary_id (cmd_id (rx_command rc')) ->
      within p (xc_dir (conf srv (rhooks srv rc'))) ->
      cmd_id (rx_command rc') = cmd_id (rx_command rc) \/
      (step_id_job_id (cmd_id (rx_command rc')) = step_id_job_id (cmd_id (rx_command rc)) /\
       uses_host (os srv) (arch srv) (cmd_container (rx_command (rhooks srv rc))) = true /\ uses_host (os srv) (arch srv) (cmd_container (rx_command (rhooks srv rc'))) = true).
Proof.
  intros cx cl sv rhooks show os arch base glob wf Hnd Hk conf sh0 ops s tr Hr pre who p post E.
  destruct (C155_effects _ _ _ _ _ _ _ Hnd _ _ _ _ Hr _ _ _ _ E) as (i & key & j & st0 & st & srv & Hw & _ & _ & _ & _ & H5 & Ha & ins & x & effs & X & Hin).
  assert (P := own_places _ _ _ _ _ X Hin). cbn beta iota in P. exists i, (given cx st), srv. repeat (split; [assumption|]). intros rc' Ev Or Oi Oi' Hd. rewrite P in Hd.
  exact (removed_dirs (rhooks srv) show _ _ _ _ _ (Hk srv) Or Ev Oi Oi' Hd).
Qed.
Print Assumptions C164_on_a_runners_machine.

(** The same in a deployment of several runs, a scheduling client and runner servers. *)
Theorem C164_in_a_deployment : forall cl sv rhooks show_f64 os arch base glob now ops q tr,
  let conf := fun srv : runner_meta => runner_conf show_f64 (os srv) (arch srv) (base srv) in
  (forall srv rc, cmd_id (rx_command (rhooks srv rc)) = cmd_id (rx_command rc) /\ rx_event (rhooks srv rc) = rx_event rc) ->
  farm_run cl sv rhooks conf glob now ops q tr -> forall k who p pre post, tr = pre ++ QSeen k (who, inr (KEff (EfRmdir p))) :: post ->
  exists i rc srv, who = Some i /\ placed (fm_asked q) (client_view pre) k i rc (Some srv) /\ p = xc_dir (conf srv (rhooks srv rc)) /\
    forall rc', rx_event rc' = rx_event rc -> ordinary_repo (event_repo (rx_event rc)) -> ordinary_id (cmd_id (rx_command rc)) -> ordinary_id (cmd_id (rx_command rc')) ->
      within p (xc_dir (conf srv (rhooks srv rc'))) ->
      cmd_id (rx_command rc') = cmd_id (rx_command rc) \/
      (step_id_job_id (cmd_id (rx_command rc')) = step_id_job_id (cmd_id (rx_command rc)) /\
       uses_host (os srv) (arch srv) (cmd_container (rx_command (rhooks srv rc))) = true /\ uses_host (os srv) (arch srv) (cmd_container (rx_command (rhooks srv rc'))) = true).
Proof.
  intros cl sv rhooks show os arch base glob now ops q tr conf Hk Hr k who p pre post E.
  destruct (C148_only_what_was_sent _ _ _ _ _ _ _ _ _ _ _ _ _ _ Hr E) as (i & rc & srv & Hw & Hp & _ & _ & ins & x & effs & X & Hin).
  assert (P := own_places _ _ _ _ _ X Hin). cbn beta iota in P. exists i, rc, srv. repeat (split; [assumption|]). intros rc' Ev Or Oi Oi' Hd. rewrite P in Hd.
  exact (removed_dirs (rhooks srv) show _ _ _ _ _ (Hk srv) Or Ev Oi Oi' Hd).
Qed.
Print Assumptions C164_in_a_deployment.

(** Non-vacuity: a run in which the server cannot start the step's command and removes the directory it has made for it. *)
Definition unstarted_ops : list (sysop (iop := kop)) :=
  firstn (length (later_ops "gone") - 1) (later_ops "gone") ++ [YPast 0 (KExec (XICmd (CISpawn false))); YPast 0 (KExec (XIFs true))].
Example C164_far_nonvacuous : exists s tr before after, sysrun far (fun _ => None) c26_cx one_wf sys_sh unstarted_ops s tr /\ NoDup (keys (wf_jobs one_wf)) /\
  tr = before ++ (Some 0, inr (KEff (EfRmdir "/b/w/a/data"))) :: after /\ In (Some 0, inr (KEff (EfMkdir "/b/w/a/data"))) before /\
  In (Some 0, inr (KObs (ORun (given c26_cx (sys_step "a"))))) before /\ ordinary_id (cmd_id (rx_command (given c26_cx (sys_step "a")))) /\
  ordinary_repo (event_repo (rx_event (given c26_cx (sys_step "a")))).
Proof.
  destruct (sysexec far (fun _ => None) c26_cx one_wf (System (winit sys_sh) [] []) unstarted_ops) as [[s tr]|] eqn:E; [|vm_compute in E; discriminate E].
  exists s, tr. assert (R : sysrun far (fun _ => None) c26_cx one_wf sys_sh unstarted_ops s tr) by exact (sysexec_run _ _ _ _ _ _ _ _ _ _ _ (sysrun_init _ _ _ _ _) E).
  assert (L : exists n after, tr = firstn n tr ++ (Some 0, inr (KEff (EfRmdir "/b/w/a/data"))) :: after /\ In (Some 0, inr (KEff (EfMkdir "/b/w/a/data"))) (firstn n tr) /\
    In (Some 0, inr (KObs (ORun (given c26_cx (sys_step "a"))))) (firstn n tr)).
  { clear R. vm_compute in E. injection E as _ <-.
    match goal with |- exists n after, ?t = _ /\ _ => let k := eval vm_compute in (length t - 1) in exists k end.
    eexists. split; [vm_compute; reflexivity|]. split; vm_compute; repeat (first [left; reflexivity|right]). }
  destruct L as (n & after & L1 & L2 & L3). exists (firstn n tr), after. repeat (split; [first [assumption|repeat constructor; cbn; intuition discriminate]|]). repeat split; discriminate.
Qed.
