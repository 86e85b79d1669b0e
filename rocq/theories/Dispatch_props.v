(** Theorems about workflow runs on remote runners with the default scheduler (C135-C139): any number of runs in any number of contexts, any plugins,
    conditions and behaviour of the runners, any moment at which runners are connected, any order in which a table is enumerated, any interleaving. *)
From Coq Require Import Sorting.Permutation.
From Verif Require Import Base Types Signals_model Stream_model Cond_model Plugins_model Exec_model Workflow_model Runner_model Sched_model Sched_spec Sched_proof Sched_props
  Remote_model Distant_model System_model Fleet_model Fleet_spec Fleet_proof Fleet_main Dispatch_model Dispatch_spec Dispatch_proof Dispatch_main Step_props Distant_props System_props.

(** C135. The runs behave as runs on remote runners do (C101-C133 apply to them), and the runner each step is given is the scheduler's answer to the call
    made for it, in the client's table of that moment. *)
Theorem C135_runs : forall cl glob now ops d tr, dispatch_run cl glob now ops d tr ->
  exists fops, fleet_run (fun cx => distant cx cl) glob now fops (dp_fleet d) (run_seen tr) /\
    filter (fun op => negb (picks_runner op)) fops = fleet_ops ops /\ taken_runners fops = given_runners d tr.
Proof. exact fleet_part. Qed.
(** The scheduler's history is one in which calls are made and no completion is reported. *)
Theorem C135_scheduler : forall cl glob now ops d tr, dispatch_run cl glob now ops d tr ->
  exists sops, sched_run sops (dp_sched d) (sched_events tr) /\ only_asks sops.
Proof. exact sched_part. Qed.
(** Each call is about the step the engine has given the runner last for that job, once, and offers the runners connected at that moment. *)
Theorem C135_asked : forall cl glob now ops d tr, dispatch_run cl glob now ops d tr ->
  forall pre c q post, tr = pre ++ PSched (EvCalled c q) :: post ->
  exists k i l ops1 ops2 rc pre1 pre2, ops = ops1 ++ PAsk k i l :: ops2 /\ nth_error (dp_asked d) c = Some (Asking k i (connected ops1)) /\
    Permutation l (map snd (connected ops1)) /\ pre = pre1 ++ gives k i rc :: pre2 /\ nothing_new d k i pre2 /\ q = asks_about l rc.
Proof. exact called_about. Qed.
Theorem C135_one_at_a_time : forall cl glob now ops d tr, dispatch_run cl glob now ops d tr ->
  forall c c' k i, pending d c k i -> pending d c' k i -> c = c'.
Proof. intros cl glob now ops d tr R. exact (di_one _ _ _ (dinv_run _ _ _ _ _ _ R)). Qed.
Print Assumptions C135_runs.
Print Assumptions C135_scheduler.
Print Assumptions C135_asked.
Print Assumptions C135_one_at_a_time.

(** C136. From a step's being given to the runner until its answer, the client can go on, whatever the others do, and has the answer after three of its own actions. *)
Theorem C136_answer : forall cl glob now ops d tr, dispatch_run cl glob now ops d tr ->
  forall pre k i rc post, tr = pre ++ gives k i rc :: post -> unanswered d k i post ->
  forall l, Permutation l (map snd (connected ops)) ->
  exists c more d' o q r, length more <= 3 /\ Forall (fun op => op = PAsk k i l \/ op = PLock c) more /\ pexec cl glob d more = Some (d', o) /\
    In (PSched (EvReturned c q r)) o /\ made_for d' c k i.
Proof.
  intros cl glob now ops d tr R pre k i rc post E Hu l P. destruct (given_waits _ _ _ _ _ _ R _ _ _ _ _ E Hu) as (st & W & _).
  assert (Keep : forall more d0 d' o c, pexec cl glob d0 more = Some (d', o) -> made_for d0 c k i -> made_for d' c k i).
  { clear. induction more as [|op more IH]; intros d0 d' o c E M; cbn [pexec] in E; [injection E as <- <-; exact M|].
    destruct (pstep cl glob d0 op) as [[d1 o1]|] eqn:E1; [|discriminate]. destruct (pexec cl glob d1 more) as [[d2 o2]|] eqn:E2; [|discriminate]. injection E as <- <-.
    eapply IH; [exact E2|]. destruct (asked_grows _ _ _ _ _ _ E1) as [ex Ex]. destruct M as (a & Ea & Ha). exists a. rewrite Ex, nth_error_app1; [auto|]. apply nth_error_Some. congruence. }
  destruct (asked_for d k i) eqn:Ea.
  - apply asked_for_spec in Ea as [c [L M]]. destruct (lookup c (sm_calls (dp_sched d))) as [x|] eqn:Ex; [|contradiction].
    destruct (lock_answers _ _ _ 2 _ _ _ c k i x R M Ex) as (more & d' & o & q & r & H1 & H2 & H3 & _ & H5); [destruct x; cbn; lia|].
    exists c, more, d', o, q, r. split; [lia|]. split; [eapply Forall_impl; [|exact H2]; auto|]. eauto.
  - assert (Np : forall c, ~ pending d c k i) by (intros c Hc; assert (C : asked_for d k i = true) by (apply asked_for_spec; eauto); congruence).
    destruct (ask_answers _ _ _ _ _ _ _ _ _ l R W Np P) as (more & d' & o & q & r & H1 & H2 & H3 & _ & H5).
    exists (length (dp_asked d)), (PAsk k i l :: more), d', o, q, r. split; [cbn; lia|]. split; [constructor; [auto|eapply Forall_impl; [|exact H2]; auto]|]. split; [exact H3|]. split; [exact H5|].
    cbn [pexec] in H3. destruct (pstep cl glob d (PAsk k i l)) as [[d1 o1]|] eqn:E1; [|discriminate]. destruct (pexec cl glob d1 more) as [[d2 o2]|] eqn:E2; [|discriminate]. injection H3 as -> _.
    eapply Keep; [exact E2|]. cbn [pstep] in E1. rewrite W, Ea in E1. destruct (_ || _); [discriminate|]. destruct (smach_step _ _) as [[m o3]|]; [|discriminate].
    assert (T : dp_asked d1 = dp_asked d ++ [Asking k i (dp_clients d)]).
    { revert E1. unfold then_pick. destruct (answered o3); [destruct (remote_fleet_step _ _ _ _) as [[f x]|]; [|discriminate]|]; intros [= <- <-]; reflexivity. }
    exists (Asking k i (dp_clients d)). rewrite T, nth_error_app2, Nat.sub_diag by lia. auto.
Qed.
(** No call of the scheduler is ever stuck, and its answer is always found in the client's table (client.rs:48 does not panic). *)
Theorem C136_goes_on : forall cl glob now ops d tr c k i, dispatch_run cl glob now ops d tr -> pending d c k i -> pstep cl glob d (PLock c) <> None.
Proof. intros cl glob now ops d tr c k i R [L _]. eapply lock_possible; eassumption. Qed.
Print Assumptions C136_answer.
Print Assumptions C136_goes_on.

(** C137. All the container steps of a job go to one runner. *)
Theorem C137_one_runner : forall cl glob now ops d tr, dispatch_run cl glob now ops d tr ->
  forall j k i, (forall k' i' rc, In (gives k' i' rc) tr -> step_id_job_id (cmd_id (rx_command rc)) = j -> k' = k /\ i' = i) ->
  forall c q r c' q' r', In (PSched (EvReturned c q (Some r))) tr -> In (PSched (EvReturned c' q' (Some r'))) tr ->
    step_id_job_id (sq_step q) = j -> step_id_job_id (sq_step q') = j -> ~ host_step q -> ~ host_step q' -> r = r'.
Proof.
  intros cl glob now ops d tr R j k i H c q r c' q' r' H1 H2. apply in_sched in H1, H2. eapply one_runner; [exact R|eapply mine_given; eassumption|eassumption|eassumption].
Qed.
Print Assumptions C137_one_runner.

(** C138. Which runner a container step is given: the one of the job's latest container step, if there was one; otherwise the one with the fewest steps so far
    (of all jobs, whether or not they are over), the first of them in the order of the offer. *)
Theorem C138_choice : forall cl glob now ops d tr, dispatch_run cl glob now ops d tr ->
  forall pre c q res post, sched_events tr = pre ++ EvReturned c q res :: post -> ~ host_step q ->
  exists before mid mid', pre = before ++ EvCalled c q :: mid ++ mid' /\ quiet c (mid ++ mid') /\
    match affinity before (step_id_job_id (sq_step q)) with
    | Some a => exists r, res = Some r /\ rm_id r = a /\ In r (sq_runners q)
    | None => match res with
              | Some r => first_least (fun x => rm_support_docker x = true) (fun x => picks (rm_id x) (before ++ EvCalled c q :: mid)) (sq_runners q) r
              | None => forall x, In x (sq_runners q) -> rm_support_docker x = false
              end
    end.
Proof. exact container_choice. Qed.
Print Assumptions C138_choice.

(** C139. The runner a step is given is connected, under the id it reports; a container step is refused iff no runner on offer supports containers, and is
    only given one that does. *)
Theorem C139_connected : forall cl glob now ops d tr, dispatch_run cl glob now ops d tr ->
  forall c q r, In (PSched (EvReturned c q (Some r))) tr -> In r (sq_runners q) /\ lookup (rm_id r) (connected ops) = Some r.
Proof. intros cl glob now ops d tr R c q r H. apply in_sched in H. destruct (returned_scheduled _ _ _ _ _ _ R _ _ _ H) as (_ & _ & H1 & H2). auto. Qed.
Theorem C139_container : forall cl glob now ops d tr, dispatch_run cl glob now ops d tr ->
  forall c q res, In (PSched (EvReturned c q res)) tr -> ~ host_step q ->
  (forall r, res = Some r -> rm_support_docker r = true) /\ (res = None <-> forall x, In x (sq_runners q) -> rm_support_docker x = false).
Proof.
  intros cl glob now ops d tr R c q res H Hh. apply in_sched, in_split in H as (pre & post & E). destruct (sched_part _ _ _ _ _ _ R) as (sops & S & _).
  assert (Hd : forall r, res = Some r -> rm_support_docker r = true).
  { intros r ->. destruct (C38_suitable_partial _ _ _ _ _ _ _ _ S E) as (_ & Hd & _). apply Hd; [exact Hh|]. eapply offers_stable, R. }
  split; [exact Hd|]. destruct (container_choice _ _ _ _ _ _ R _ _ _ _ _ E Hh) as (before & mid & mid' & _ & _ & H). split.
  - intros ->. destruct (affinity before (step_id_job_id (sq_step q))); [destruct H as (r & C & _); discriminate C|exact H].
  - intros Hn. destruct res as [r|]; [|reflexivity]. exfalso. specialize (Hd r eq_refl). assert (Hin : In r (sq_runners q)) by (destruct (C38_suitable_partial _ _ _ _ _ _ _ _ S E) as (Hin & _); exact Hin).
    rewrite (Hn r Hin) in Hd. discriminate.
Qed.
(** A host step is only given a runner whose platform it names, which supports host steps or has had a container step of the job; and it is
    refused only if no runner on offer supports host steps and has that platform. *)
Theorem C139_host : forall cl glob now ops d tr, dispatch_run cl glob now ops d tr ->
  forall pre c q res post, sched_events tr = pre ++ EvReturned c q res :: post -> host_step q ->
  match res with
  | Some r => (exists n, sq_container q = Some n /\ names_platform n r) /\
      (rm_support_host r = true \/ exists id, In (EvScheduled id false (rm_id r)) pre /\ step_id_job_id id = step_id_job_id (sq_step q))
  | None => forall x, In x (sq_runners q) -> ~ host_capable q x
  end.
Proof.
  intros cl glob now ops d tr R pre c q res post E Hh. destruct (sched_part _ _ _ _ _ _ R) as (sops & S & _). destruct res as [r|].
  - destruct (C38_suitable_partial _ _ _ _ _ _ _ _ S E) as (_ & _ & H). destruct (H Hh) as [H1 [H2|[_ H2]]]; auto.
  - intros x Hx Hc. apply (C67_none_only_if_nothing_suits _ _ _ _ _ _ _ S E x Hx). split; [intros _; exact Hc|intros C; contradiction].
Qed.
Print Assumptions C139_connected.
Print Assumptions C139_container.
Print Assumptions C139_host.

(** Two runs of one workflow shape with two container steps each; the first runner is connected before the runs begin, the second while the first run is
    under way. The first run's second step goes to the runner of its first, although the other one is offered first and has had as many steps. *)
Definition dp_near : runner_meta := server_metadata "near" 5 true true "linux" "x86_64".
Definition dp_far : runner_meta := server_metadata "far" 5 true false "linux" "x86_64".
Definition dp_box (id : string) : workflow := Workflow (WorkflowId id) None None
  [("a", Job (JobId id "a") None None (map (fun n => Step (StepId id "a" n) None None (Some (ContainerOptions "alpine" None None)) "make" false [] [] (Duration 60 0)) [0; 1]%N) [] [])].
Definition dp_flow (k : nat) (l : list (sysop (iop := dop))) : list pop := map (fun op => PFleet (FRunOp k op)) l.
Definition dp_begin : list (sysop (iop := dop)) :=
  map (YStep 0) [DEngine (OpBefore c26_hooks); DEngine OpNext; DEngine OpNext; DEngine OpNext; DEngine OpNext; DEngine OpNext].
Definition dp_rest : list (sysop (iop := dop)) :=
  map (YStep 0) [DEngine (OpAnswer true); DRemote (RiAnswer None); DEngine OpNext; DEngine OpNext; DRemote (RiLog (log_log "hello")); DRemote RiDeliver; DSender;
   DRemote (RiResult RSucceeded); DRemote RiDeliver; DSender; DSender; DEngine OpStream; DEngine OpNext; DEngine OpNext; DEngine OpNext; DEngine OpStream;
   DEngine OpNext; DEngine OpNext; DEngine OpNext; DEngine OpNext] ++ repeat (YFlow (WTaskOp 0 JNext)) 2.
Definition dp_ops : list pop :=
  [PFleet (FContext c26_cx); PConnect (Reports dp_near); PFleet (FStart 0 (dp_box "w")); PConnect Unreachable; PFleet (FStart 0 (dp_box "v"))] ++
  dp_flow 0 (repeat (YFlow WMain) 6 ++ repeat (YFlow (WTaskOp 0 JNext)) 6 ++ dp_begin) ++ [PAsk 0 0 [dp_near]; PLock 0] ++
  dp_flow 1 (repeat (YFlow WMain) 6 ++ repeat (YFlow (WTaskOp 0 JNext)) 6 ++ dp_begin) ++ [PConnect (Reports dp_far); PLock 0; PAsk 1 0 [dp_near; dp_far]; PLock 1; PLock 1] ++
  dp_flow 0 (dp_rest ++ dp_begin) ++ [PAsk 0 0 [dp_far; dp_near]].
Lemma pexec_run cl glob now more : forall ops d tr d' o, dispatch_run cl glob now ops d tr -> pexec cl glob d more = Some (d', o) -> dispatch_run cl glob now (ops ++ more) d' (tr ++ o).
Proof.
  induction more as [|op more IH]; intros ops d tr d' o R E; cbn [pexec] in E; [injection E as <- <-; rewrite !app_nil_r; exact R|].
  destruct (pstep cl glob d op) as [[d1 o1]|] eqn:E1; [|discriminate]. destruct (pexec cl glob d1 more) as [[d2 o2]|] eqn:E2; [|discriminate]. injection E as <- <-.
  change (op :: more) with ([op] ++ more). rewrite !app_assoc. eapply IH; [|exact E2]. eapply dispatch_step; eassumption.
Qed.
Definition dp_cl (t : task) : task := t + 100.
Definition dp_state (ops : list pop) : option (dispatch * list pobs) := pexec dp_cl (fun _ => None) (pinit 0%N) ops.
Lemma dp_reach ops d tr : dp_state ops = Some (d, tr) -> dispatch_run dp_cl (fun _ => None) 0%N ops d tr.
Proof. intros E. exact (pexec_run _ _ _ ops [] (pinit 0%N) [] _ _ (dispatch_init _ _ _) E). Qed.
Example C135_nonvacuous : exists d tr, dispatch_run dp_cl (fun _ => None) 0%N (dp_ops ++ [PLock 2]) d tr /\
  map (fun x => (fst (fst x), snd x)) (given_runners d tr) = [((0, 0), Some dp_near); ((1, 0), Some dp_far); ((0, 0), Some dp_near)] /\ length (sched_events tr) = 9.
Proof. eexists _, _. split; [apply dp_reach; vm_compute; reflexivity|]. split; vm_compute; reflexivity. Qed.
Lemma at_position (tr : list pobs) n e : nth_error tr n = Some e -> tr = firstn n tr ++ e :: skipn (S n) tr.
Proof. revert tr. induction n as [|n IH]; intros [|x tr] H; try discriminate H; [injection H as ->; reflexivity|]. cbn [firstn skipn app]. f_equal. apply IH, H. Qed.
(** The second step of the first run has been given to the runner and its call is under way. *)
Example C136_nonvacuous : exists d tr pre rc post, dispatch_run dp_cl (fun _ => None) 0%N dp_ops d tr /\ tr = pre ++ gives 0 0 rc :: post /\ unanswered d 0 0 post /\
  cmd_id (rx_command rc) = StepId "w" "a" 1 /\ pending d 2 0 0 /\ Permutation [dp_far; dp_near] (map snd (connected dp_ops)).
Proof.
  destruct (dp_state dp_ops) as [[d tr]|] eqn:E; [|vm_compute in E; discriminate E].
  assert (G : match nth_error tr 28 with Some (PSeen 0 (Some 0, inr (ORun rc))) => cmd_id (rx_command rc) = StepId "w" "a" 1 | _ => False end /\
    forallb (fun e => match e with PSched (EvReturned _ _ _) => false | _ => true end) (skipn 29 tr) = true /\
    lookup 2 (sm_calls (dp_sched d)) <> None /\ exists a, nth_error (dp_asked d) 2 = Some a /\ as_run a = 0 /\ as_job a = 0).
  { vm_compute in E. injection E as <- <-. split; [reflexivity|]. split; [reflexivity|]. split; [discriminate|]. eexists. split; [reflexivity|]. split; reflexivity. }
  destruct G as (G1 & G2 & G3 & G4). destruct (nth_error tr 28) as [[[|k] [[[|i]|] [y|y]]|e]|] eqn:En; try contradiction. destruct y as [|rc| | |]; try contradiction.
  exists d, tr, (firstn 28 tr), rc, (skipn 29 tr). split; [apply dp_reach, E|]. split; [apply at_position, En|]. split.
  { intros c q r H _. rewrite forallb_forall in G2. discriminate (G2 _ H). }
  split; [exact G1|]. split; [split; [exact G3|exact G4]|]. apply (reordered_spec [dp_far; dp_near]). vm_compute. reflexivity.
Qed.
Definition given_of (tr : list pobs) : list (nat * nat * job_id) :=
  flat_map (fun e => match e with PSeen k (Some i, inr (ORun rc)) => [(k, i, step_id_job_id (cmd_id (rx_command rc)))] | _ => [] end) tr.
(** Two container steps of one job, the other job's steps belonging to it alone. *)
Example C137_nonvacuous : exists d tr c q c' q', dispatch_run dp_cl (fun _ => None) 0%N (dp_ops ++ [PLock 2]) d tr /\
  (forall k' i' rc, In (gives k' i' rc) tr -> step_id_job_id (cmd_id (rx_command rc)) = JobId "w" "a" -> k' = 0 /\ i' = 0) /\
  In (PSched (EvReturned c q (Some dp_near))) tr /\ In (PSched (EvReturned c' q' (Some dp_near))) tr /\ sq_step q <> sq_step q' /\
  step_id_job_id (sq_step q) = JobId "w" "a" /\ step_id_job_id (sq_step q') = JobId "w" "a" /\ ~ host_step q /\ ~ host_step q' /\
  (exists c2 q2, In (PSched (EvReturned c2 q2 (Some dp_far))) tr).
Proof.
  destruct (dp_state (dp_ops ++ [PLock 2])) as [[d tr]|] eqn:E; [|vm_compute in E; discriminate E].
  set (q0 := SchedReq [dp_near] (StepId "w" "a" 0) (Some "alpine")). set (q2 := SchedReq [dp_far; dp_near] (StepId "w" "a" 1) (Some "alpine")).
  assert (G : given_of tr = [(0, 0, JobId "w" "a"); (1, 0, JobId "v" "a"); (0, 0, JobId "w" "a")] /\
    map (fun e => match e with EvReturned c q r => Some (c, q, r) | _ => None end) (sched_events tr) =
      [None; None; Some (0, q0, Some dp_near); None; None; Some (1, SchedReq [dp_near; dp_far] (StepId "v" "a" 0) (Some "alpine"), Some dp_far); None; None; Some (2, q2, Some dp_near)]).
  { vm_compute in E. injection E as <- <-. split; vm_compute; reflexivity. }
  destruct G as [G1 G2].
  assert (Ret : forall c q r, In (Some (c, q, r)) (map (fun e => match e with EvReturned c q r => Some (c, q, r) | _ => None end) (sched_events tr)) -> In (PSched (EvReturned c q r)) tr).
  { intros c q r H. apply in_map_iff in H as (e & He & Hin). destruct e; try discriminate He. injection He as -> -> ->. apply in_sched, Hin. }
  rewrite G2 in Ret. assert (Hh : forall l id, ~ host_step (SchedReq l id (Some "alpine"))) by (intros l id H; apply runs_on_host_spec in H; discriminate H).
  exists d, tr, 0, q0, 2, q2. split; [apply dp_reach, E|]. split.
  { intros k i rc H Hj. assert (K : In (k, i, step_id_job_id (cmd_id (rx_command rc))) (given_of tr)).
    { unfold given_of. apply in_flat_map. eexists. split; [exact H|]. left. reflexivity. }
    rewrite G1, Hj in K. cbn [In] in K. destruct K as [[= <- <-]|[K|[[= <- <-]|[]]]]; auto; discriminate K. }
  split; [apply Ret; cbn [In]; auto 12|]. split; [apply Ret; cbn [In]; auto 12|]. split; [discriminate|]. split; [reflexivity|]. split; [reflexivity|]. split; [apply Hh|]. split; [apply Hh|].
  exists 1, (SchedReq [dp_near; dp_far] (StepId "v" "a" 0) (Some "alpine")). apply Ret. cbn [In]. auto 12.
Qed.
(** A container step when no connected runner supports containers. *)
Definition dp_bare : runner_meta := server_metadata "bare" 5 false true "linux" "x86_64".
Definition dp_none : list pop :=
  [PFleet (FContext c26_cx); PConnect (Reports dp_bare); PFleet (FStart 0 (dp_box "w"))] ++
  dp_flow 0 (repeat (YFlow WMain) 6 ++ repeat (YFlow (WTaskOp 0 JNext)) 6 ++ dp_begin) ++ [PAsk 0 0 [dp_bare]; PLock 0] ++ dp_flow 0 (map (YStep 0) [DSender; DSender; DSender; DEngine (OpAnswer true)]).
Example C139_nonvacuous : exists d tr q, dispatch_run dp_cl (fun _ => None) 0%N dp_none d tr /\ In (PSched (EvReturned 0 q None)) tr /\ ~ host_step q /\ sq_runners q = [dp_bare].
Proof.
  destruct (dp_state dp_none) as [[d tr]|] eqn:E; [|vm_compute in E; discriminate E].
  exists d, tr, (SchedReq [dp_bare] (StepId "w" "a" 0) (Some "alpine")). split; [apply dp_reach, E|]. split.
  { assert (G : sched_events tr = [EvCalled 0 (SchedReq [dp_bare] (StepId "w" "a" 0) (Some "alpine")); EvReturned 0 (SchedReq [dp_bare] (StepId "w" "a" 0) (Some "alpine")) None]).
    { vm_compute in E. injection E as <- <-. vm_compute. reflexivity. }
    apply in_sched. rewrite G. right. left. reflexivity. }
  split; [|reflexivity]. intros H. apply runs_on_host_spec in H. discriminate H.
Qed.
