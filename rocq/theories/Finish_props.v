(** C108, C109: from wherever it is, a workflow run can be completed. *)
From Verif Require Import Base Types Config_model Config_spec Config_props Signals_model Stream_model Cond_model Plugins_model Exec_model Exec_spec Step_props Workflow_model Workflow_spec Workflow_props
  Runner_model Sched_model Remote_model Local_model Local_props Distant_model System_model System_spec System_proof System_inst System_props Finish_spec Finish_proof Finish_step Finish_cycle.

(** *** C108 *)
(** The built-in runner.  Whatever happened before - any interleaving, signals, timeouts, crashes of commands, hooks that leave steps in their
    jobs - the run is not stuck: it reaches its result when what is still running goes on, with nothing further from outside, whatever the
    hooks [c] of the steps still to come do (short of moving them to another job), whatever GitHub answers and whatever code commands exit with. *)
Theorem C108_builtin : forall glob cx rhooks conf wf sh0 ops s tr,
  NoDup (keys (wf_jobs wf)) -> wf_jobs wf <> [] -> acyclic wf -> distinct_ids wf -> (forall k j, In (k, j) (wf_jobs wf) -> owns_steps j) ->
  sysrun (builtin cx rhooks conf) glob cx wf sh0 ops s tr -> (forall op, In op ops -> orderly wf tame_local op) ->
  forall gh c code, keeps_steps c ->
  exists more s' o r, Forall (goes_on gh (plain_local c code)) more /\ sysexec (builtin cx rhooks conf) glob cx wf s more = Some (s', o) /\ ws_main (sy_w s') = WpDone r.
Proof.
  intros glob cx rhooks conf wf sh0 ops s tr Hn Hne Ha Hd Ho Hr Hop gh c code Hc.
  eapply (always_completes (builtin cx rhooks conf) glob cx wf tame_local (plain_local c code) gh); try eassumption.
  - apply builtin_faithful.
  - apply builtin_tracks.
  - apply builtin_ends.
  - apply plain_tame. exact Hc.
Qed.
Print Assumptions C108_builtin.

(** Remote runners: the same, when the scheduler answers (with a connected runner, an unknown one, or that there is none - anything but
    a panic), the server accepts the call and its runner's result arrives. *)
Theorem C108_distant : forall glob cx cl wf sh0 ops s tr,
  NoDup (keys (wf_jobs wf)) -> wf_jobs wf <> [] -> acyclic wf -> distinct_ids wf -> (forall k j, In (k, j) (wf_jobs wf) -> owns_steps j) ->
  sysrun (distant cx cl) glob cx wf sh0 ops s tr -> (forall op, In op ops -> orderly wf tame_distant op) ->
  forall gh c clients pick rr, keeps_steps c -> client_start clients pick <> None ->
  exists more s' o r, Forall (goes_on gh (plain_distant c clients pick rr)) more /\ sysexec (distant cx cl) glob cx wf s more = Some (s', o) /\ ws_main (sy_w s') = WpDone r.
Proof.
  intros glob cx cl wf sh0 ops s tr Hn Hne Ha Hd Ho Hr Hop gh c clients pick rr Hc Hp.
  eapply (always_completes (distant cx cl) glob cx wf tame_distant (plain_distant c clients pick rr) gh); try eassumption.
  - apply distant_faithful.
  - apply distant_tracks.
  - apply distant_ends. exact Hp.
  - apply plain_tame_distant. exact Hc.
Qed.
Print Assumptions C108_distant.

(** The hypotheses hold of a run stopped in the middle of a job: the two-job workflow of System_props.v, in its first step. *)
Lemma sys_hooks_keep : keeps_steps c26_hooks.
Proof. intros st. reflexivity. Qed.
Lemma sys_acyclic : acyclic sys_wf.
Proof.
  exists (fun k => if eq_dec k "a" then 0 else 1). intros k d (j & H & Hd).
  destruct H as [[= <- <-]|[[= <- <-]|[]]]; cbn in Hd; [destruct Hd|]. destruct Hd as [<-|[]]. cbn. split; [auto|lia].
Qed.
Lemma sys_owns k j : In (k, j) (wf_jobs sys_wf) -> owns_steps j.
Proof. intros [[= <- <-]|[[= <- <-]|[]]] st [<-|[]]; reflexivity. Qed.
Definition half_ops : list (sysop (iop := lop)) := firstn 20 (sys_ops 0).
Example C108_nonvacuous : NoDup (keys (wf_jobs sys_wf)) /\ wf_jobs sys_wf <> [] /\ acyclic sys_wf /\ distinct_ids sys_wf /\ (forall k j, In (k, j) (wf_jobs sys_wf) -> owns_steps j) /\
  keeps_steps c26_hooks /\ client_start [] None <> None /\ (forall op, In op half_ops -> orderly sys_wf tame_local op) /\
  (exists s tr, sysrun (builtin c26_cx (fun c => c) loc_conf) (fun _ => None) c26_cx sys_wf sys_sh half_ops s tr /\ ws_tasks (sy_w s) <> [] /\ forall r, ws_main (sy_w s) <> WpDone r).
Proof.
  split; [repeat constructor; cbn; intuition discriminate|]. split; [discriminate|]. split; [exact sys_acyclic|].
  split; [intros k1 k2 j1 j2 [[= <- <-]|[[= <- <-]|[]]] [[= <- <-]|[[= <- <-]|[]]]; cbn; congruence|].
  split; [exact sys_owns|]. split; [exact sys_hooks_keep|]. split; [discriminate|].
  split; [intros op H; vm_compute in H; repeat (destruct H as [<-|H]; [cbn; auto; try exact sys_hooks_keep; try exact Logic.I|]); destruct H|].
  do 2 eexists. split; [eapply (sysexec_run _ _ _ _ _ half_ops [] _ [] _ _ (sysrun_init _ _ _ _ _)); vm_compute; reflexivity|]. split; discriminate.
Qed.

(** *** C109 *)
(** What a config must be like for its workflow to be run to completion: exactly, no job depends on itself, directly or indirectly.  All other
    requirements of C108 hold of whatever the builder returns. *)
Lemma built_runs pd decode env id config uuid wf : (forall t w, decode t = inl w -> NoDup (keys (uw_jobs w))) -> build pd decode env id config uuid = Ok wf ->
  NoDup (keys (wf_jobs wf)) /\ wf_jobs wf <> [] /\ distinct_ids wf /\ (forall k j, In (k, j) (wf_jobs wf) -> owns_steps j) /\
  (forall k d, depends wf k d -> In d (keys (wf_jobs wf))).
Proof.
  intros HD HB. destruct (C15_C16_built_workflow_shape _ _ _ _ _ _ _ HD HB) as (Hnd & Hne & Hsh & _). split; [exact Hnd|]. split; [exact Hne|].
  apply (C15_C19_build _ _ _ _ _ _ _ HD) in HB as (t & w & _ & _ & _ & _ & _ & _ & HF).
  assert (K : forall k j, In (k, j) (wf_jobs wf) -> exists u, built_job pd env (match id with Some i => i | None => uuid end) k u j).
  { clear - HF. induction HF as [|[k0 u0] [k1 j1] us js [-> Hb] _ IH]; intros k j H; [destruct H|]. destruct H as [[= <- <-]|H]; eauto. }
  split; [|split].
  - intros k k' j j' H H' E. destruct (K _ _ H) as (u & E1 & _), (K _ _ H') as (u' & E2 & _). rewrite E1, E2 in E. congruence.
  - intros k j H st Hst. destruct (K _ _ H) as (u & E1 & _ & _ & _ & _ & Hs & _). apply In_nth_error in Hst as [i Hi]. rewrite (Hs _ _ Hi), E1. reflexivity.
  - intros k d (j & H & Hd). exact (proj2 (Hsh _ _ H) d Hd).
Qed.
Theorem C109_no_cycle : forall pd decode env id config uuid wf, (forall t w, decode t = inl w -> NoDup (keys (uw_jobs w))) ->
  build pd decode env id config uuid = Ok wf -> (forall k, ~ depends_trans wf k k) ->
  (forall glob cx rhooks conf sh0 ops s tr, sysrun (builtin cx rhooks conf) glob cx wf sh0 ops s tr -> (forall op, In op ops -> orderly wf tame_local op) ->
   forall gh c code, keeps_steps c ->
   exists more s' o r, Forall (goes_on gh (plain_local c code)) more /\ sysexec (builtin cx rhooks conf) glob cx wf s more = Some (s', o) /\ ws_main (sy_w s') = WpDone r) /\
  (forall glob cx cl sh0 ops s tr, sysrun (distant cx cl) glob cx wf sh0 ops s tr -> (forall op, In op ops -> orderly wf tame_distant op) ->
   forall gh c clients pick rr, keeps_steps c -> client_start clients pick <> None ->
   exists more s' o r, Forall (goes_on gh (plain_distant c clients pick rr)) more /\ sysexec (distant cx cl) glob cx wf s more = Some (s', o) /\ ws_main (sy_w s') = WpDone r).
Proof.
  intros pd decode env id config uuid wf HD HB Hc. destruct (built_runs _ _ _ _ _ _ _ HD HB) as (Hnd & Hne & Hid & Ho & Hd).
  assert (Ha : acyclic wf) by (apply no_cycle_acyclic; [exact Hnd|exact Hd|intros [k Hk]; exact (Hc k Hk)]).
  split; intros; [eapply C108_builtin|eapply C108_distant]; eassumption.
Qed.
Print Assumptions C109_no_cycle.
(** With a cycle: no job on the cycle, nor any job depending on one of its jobs, is ever started; no run ever ends, except as skipped by the
    workflow's own condition. *)
Theorem C109_cycle : forall pd decode env id config uuid wf e, (forall t w, decode t = inl w -> NoDup (keys (uw_jobs w))) ->
  build pd decode env id config uuid = Ok wf -> depends_trans wf e e ->
  (forall glob cx rhooks conf sh0 ops s tr, sysrun (builtin cx rhooks conf) glob cx wf sh0 ops s tr ->
   (forall k, depends_trans wf k e -> ~ In k (started (flow_of (builtin cx rhooks conf) tr))) /\
   (forall r, ws_main (sy_w s) = WpDone r -> wr_state r = Skipped /\ exists c, wf_on wf = Some c)) /\
  (forall glob cx cl sh0 ops s tr, sysrun (distant cx cl) glob cx wf sh0 ops s tr ->
   (forall k, depends_trans wf k e -> ~ In k (started (flow_of (distant cx cl) tr))) /\
   (forall r, ws_main (sy_w s) = WpDone r -> wr_state r = Skipped /\ exists c, wf_on wf = Some c)).
Proof.
  intros pd decode env id config uuid wf e HD HB He. destruct (built_runs _ _ _ _ _ _ _ HD HB) as (Hnd & _).
  assert (Hw := cycle_waits wf e He). split.
  - intros glob cx rhooks conf sh0 ops s tr Hr. destruct (C105_engine _ _ _ _ _ _ _ _ _ Hr) as (wls & W & _). exact (C20_self_waiting_jobs_hang _ _ _ _ _ _ _ Hnd Hw W).
  - intros glob cx cl sh0 ops s tr Hr. destruct (C107_engine _ _ _ _ _ _ _ _ Hr) as (wls & W & _). exact (C20_self_waiting_jobs_hang _ _ _ _ _ _ _ Hnd Hw W).
Qed.
Print Assumptions C109_cycle.
(** There is no third case. *)
Theorem C109_dichotomy : forall pd decode env id config uuid wf, (forall t w, decode t = inl w -> NoDup (keys (uw_jobs w))) ->
  build pd decode env id config uuid = Ok wf -> (forall k, ~ depends_trans wf k k) \/ exists e, depends_trans wf e e.
Proof.
  intros pd decode env id config uuid wf HD HB. destruct (built_runs _ _ _ _ _ _ _ HD HB) as (Hnd & _ & _ & _ & Hd).
  destruct (cycle_or wf Hnd Hd) as [Ha|H]; [left|right; exact H]. destruct Ha as [level Hl].
  assert (K : forall a b, depends_trans wf a b -> level b < level a) by (induction 1 as [k d H|k d e H _ IH]; destruct (Hl _ _ H); lia).
  intros k Hk. specialize (K _ _ Hk). lia.
Qed.
Print Assumptions C109_dichotomy.

(** A built workflow without a cycle, and an accepted config with one. *)
Definition c109_config (d : option (list string)) : user_workflow := UserWorkflow None None
  [("a", UserJob None None None [UCommand (ex_cmd "x")] None None); ("b", UserJob None None None [UCommand (ex_cmd "y")] None (Some ["a"; "c"]));
   ("c", UserJob None None None [UCommand (ex_cmd "z")] None d)].
Example C109_nonvacuous :
  (exists wf, build ex_pd (fun _ => inl (c109_config (Some ["a"]))) ex_env (Some "id") (Some "text") "uuid" = Ok wf /\ forall k, ~ depends_trans wf k k) /\
  (exists wf, build ex_pd (fun _ => inl (c109_config (Some ["b"]))) ex_env (Some "id") (Some "text") "uuid" = Ok wf /\ depends_trans wf "b" "b").
Proof.
  split; (eexists; split; [vm_compute; reflexivity|]).
  - intros k Hk. pose (level := fun k : string => if eq_dec k "a" then 0 else if eq_dec k "c" then 1 else 2).
    match type of Hk with depends_trans ?w _ _ => assert (K : forall x y, depends_trans w x y -> level y < level x) end.
    { assert (K1 : forall x y, depends (Workflow (WorkflowId "id") None None [("a", Job (JobId "id" "a") None None [Step (StepId "id" "a" 0) None None None "x" false [] [] (Duration 3600 0)] [] []);
        ("b", Job (JobId "id" "b") None None [Step (StepId "id" "b" 0) None None None "y" false [] [] (Duration 3600 0)] ["a"; "c"] []);
        ("c", Job (JobId "id" "c") None None [Step (StepId "id" "c" 0) None None None "z" false [] [] (Duration 3600 0)] ["a"] [])]) x y -> level y < level x).
      { intros x y (j & H & Hd). cbn [wf_jobs] in H. destruct H as [H|[H|[H|H]]]; try (injection H as <- <-); [| | |destruct H]; cbn in Hd; repeat (destruct Hd as [<-|Hd]; [cbn; lia|]); destruct Hd. }
      induction 1 as [x y H|x y z H _ IH]; [apply K1; exact H|specialize (K1 _ _ H); lia]. }
    specialize (K _ _ Hk). lia.
  - apply (dt_more _ "b" "c" "b"); [|apply dt_one]; (eexists; split; [cbn [wf_jobs]; (right; left; reflexivity) || (right; right; left; reflexivity)|cbn; auto]).
Qed.
