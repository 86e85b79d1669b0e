(** C154, C155: what a workflow run on remote runners with the built-in runner does on the runners' machines. *)
From Verif Require Import Base Types Signals_model Stream_model Cond_model
  Plugins_model Plugins_spec Exec_model Exec_spec Job_proof Workflow_model Workflow_spec Workflow_proof Workflow_inv
  Paths_model Docker_model Runner_model Runner_proof Ids_model Ids_spec Sched_model Remote_model Local_model Local_spec Distant_model Worker_model System_model System_spec System_proof System_flow System_inst Step_props Workflow_props Distant_props System_props
  Remote_spec Remote_proof Paths_spec Paths_props Chain_model Chain_spec Chain_proof Chain_props Process_spec Process_proof Process_props Chainproc_spec Chainproc_proof.

(** ** C154 *)
(** Every process was started for a call of the runner of its own. *)
Theorem C154_once : forall cx cl sv rhooks conf glob wf sh0 ops s tr, sysrun (chained cx cl sv rhooks conf) glob cx wf sh0 ops s tr -> exists l, permits rhooks conf ops tr l.
Proof. intros cx cl sv rhooks conf glob wf sh0 ops s tr Hr. destruct (chain_run cx cl sv rhooks conf glob wf _ _ _ _ Hr) as [_ _ (l & e & P & _)]. eauto. Qed.
Print Assumptions C154_once.

Lemma permits_count rhooks conf all tr l i : permits rhooks conf all tr l -> length (started_for i tr) + length (filter (fun p => Nat.eqb (fst p) i) l) = length (given_by i tr).
Proof.
  assert (S1 : forall a b, started_for i (a ++ b) = started_for i a ++ started_for i b) by (intros; apply flat_map_app).
  assert (G1 : forall a b, given_by i (a ++ b) = given_by i a ++ given_by i b) by (intros; apply flat_map_app).
  induction 1 as [|tr l k rc P IH|tr l1 l2 k rc srv t P IH A E|tr l w e P IH N]; [reflexivity| | |]; rewrite S1, G1, !app_length.
  - rewrite filter_app, app_length. cbn. destruct (Nat.eqb k i); cbn; lia.
  - rewrite filter_app, app_length in *. cbn in *. destruct (Nat.eqb k i); cbn in *; lia.
  - assert (Z : started_for i [(w, e)] = [] /\ given_by i [(w, e)] = []).
    { unfold started_for, given_by. cbn. destruct w as [k|]; [|split; reflexivity]. destruct e as [o|[o|o]]; [split; reflexivity| |]; destruct o; try (split; reflexivity); destruct (N Logic.I). }
    destruct Z as [-> ->]. cbn. lia.
Qed.
Section Calls.
Variables (cx : ectx) (cl sv : task -> task) (rhooks : runner_meta -> run_context -> run_context) (conf : runner_meta -> run_context -> xconf) (glob : glob_oracle) (wf : workflow).
Notation C := (chained cx cl sv rhooks conf).
Hypothesis Hnd : NoDup (keys (wf_jobs wf)).
Lemma given_seen i tr : subsequence (given_by i tr) (calls_in (events_of (Some i) (flow_of C tr))).
Proof.
  induction tr as [|[w e] tr IH]; [constructor|]. change ((w, e) :: tr) with ([(w, e)] ++ tr). unfold given_by in *. rewrite flat_map_app, flow_app, events_of_app, calls_in_app. apply subseq_app; [|exact IH].
  cbn [flat_map app]. rewrite app_nil_r. destruct w as [k|]; [|constructor]. destruct e as [o|[o|e]]; [constructor| |constructor].
  destruct o; try constructor. destruct (Nat.eqb k i) eqn:Ek; [|constructor]. apply Nat.eqb_eq in Ek as ->. unfold events_of. cbn. rewrite eqb_refl. cbn. apply subseq_refl.
Qed.
Lemma run_given sh0 ops s tr i rc : sysrun C glob cx wf sh0 ops s tr -> In rc (given_by i tr) ->
  exists key j sts0 sts, nth_error (started (flow_of C tr)) i = Some key /\ In (key, j) (wf_jobs wf) /\ subsequence sts0 (jb_steps j) /\ Forall2 hooked sts0 sts /\ given_by i tr = map (given cx) sts.
Proof.
  intros Hr Hin. destruct (flow_run _ glob cx wf (chained_faithful cx cl sv rhooks conf) _ _ _ _ Hr) as (wls & W & _).
  destruct (winv glob cx wf Hnd _ _ _ W) as [_ [T1 T2 _ _]].
  assert (Hs := given_seen i tr).
  assert (Ho : exists o, In o (events_of (Some i) (flow_of C tr))).
  { destruct (events_of (Some i) (flow_of C tr)) as [|o l]; [|exists o; left; reflexivity]. cbn in Hs. inversion Hs as [? E|? ? ? ? E E2|]. rewrite <- E in Hin. destruct Hin. }
  destruct Ho as [o Ho]. destruct (task_events glob cx wf _ _ _ i o W Ho) as [t Ht].
  destruct (tasks_run_inv glob cx wf _ _ _ W) as [TR _]. destruct (TR i t Ht) as (jls & J & _).
  destruct (job_prefix_story glob cx (S i) _ _ _ _ _ J) as (tail & r & Hst). apply job_calls in Hst. rewrite calls_in_app in Hst.
  assert (K : steps_called cx (jb_steps (tk_job t)) (given_by i tr)) by (eapply subseq_called; [|exact Hst]; apply subseq_more, Hs).
  destruct K as (a & b & K1 & K2 & K3). exists (tk_key t), (tk_job t), a, b. split; [rewrite <- T1, nth_error_map, Ht; reflexivity|]. split; [apply T2; eapply nth_error_In; eauto|auto].
Qed.
Lemma given_listed i rc tr : In (Some i, inr (KObs (ORun rc))) tr -> In rc (given_by i tr).
Proof. intros H. unfold given_by. apply in_flat_map. eexists. split; [exact H|]. cbn. rewrite Nat.eqb_refl. left. reflexivity. Qed.

(** So for no job are more processes started than calls were made for it, and the calls are those of some of its steps, each at most once, in the order of the workflow. *)
Theorem C154_count : forall sh0 ops s tr i, sysrun C glob cx wf sh0 ops s tr ->
  length (started_for i tr) <= length (given_by i tr) /\
  (given_by i tr <> [] -> exists key j sts0 sts, nth_error (started (flow_of C tr)) i = Some key /\ In (key, j) (wf_jobs wf) /\
     subsequence sts0 (jb_steps j) /\ Forall2 hooked sts0 sts /\ given_by i tr = map (given cx) sts).
Proof.
  intros sh0 ops s tr i Hr. destruct (C154_once _ _ _ _ _ _ _ _ _ _ _ Hr) as [l P]. split; [assert (K := permits_count _ _ _ _ _ i P); lia|].
  intros Hc. destruct (given_by i tr) as [|rc l'] eqn:E; [destruct (Hc eq_refl)|]. rewrite <- E. eapply run_given; [exact Hr|]. rewrite E. left. reflexivity.
Qed.

(** ** C155. Whatever a runner does on its machine during the run, it does for a call made before, for a step of a job of the workflow, that the scheduler sent to it; and the
    effects are those of the built-in runner with that runner's plugins and configuration. *)
Theorem C155_effects : forall sh0 ops s tr, sysrun C glob cx wf sh0 ops s tr ->
  forall pre w e post, tr = pre ++ (w, inr (KEff e)) :: post ->
  exists i key j st0 st srv, w = Some i /\ nth_error (started (flow_of C tr)) i = Some key /\ In (key, j) (wf_jobs wf) /\ In st0 (jb_steps j) /\ hooked st0 st /\
    In (Some i, inr (KObs (ORun (given cx st)))) pre /\ asked ops i srv /\
    exists ins x effs, xrun (conf srv (rhooks srv (given cx st))) ins x effs /\ In e effs.
Proof.
  intros sh0 ops s tr Hr pre w e post E. destruct (call_run cx cl sv rhooks conf glob wf _ _ _ _ Hr) as [_ _ V].
  destruct (V _ _ _ _ E) as (i & -> & rc & srv & ins & x & effs & Hc & Ha & X & He).
  assert (Hg : In rc (given_by i tr)) by (apply given_listed; rewrite E; apply in_or_app; left; exact Hc).
  destruct (run_given _ _ _ _ _ _ Hr Hg) as (key & j & sts0 & sts & H1 & H2 & H3 & H4 & H5). rewrite H5 in Hg. apply in_map_iff in Hg as (st & <- & Hst).
  assert (Hk : exists st0, In st0 sts0 /\ hooked st0 st).
  { clear - H4 Hst. induction H4 as [|a b l l' Hab H4 IH]; [destruct Hst|]. destruct Hst as [->|Hst]; [exists a; split; [left; reflexivity|exact Hab]|]. destruct (IH Hst) as (a' & A & B). exists a'. split; [right; exact A|exact B]. }
  destruct Hk as (st0 & K1 & K2). exists i, key, j, st0, st, srv. split; [reflexivity|]. split; [exact H1|]. split; [exact H2|]. split; [eapply subseq_In; eassumption|].
  split; [exact K2|]. split; [exact Hc|]. split; [exact Ha|]. eauto.
Qed.
End Calls.
Print Assumptions C154_count.
Print Assumptions C155_effects.

(** With the built-in runner's configuration, each runner under a base directory of its own, what is created, written and removed lies in the directories of steps that were sent
    to that runner, and the containers killed bear those steps' names. *)
Theorem C155_places : forall cx cl sv rhooks show_f64 os arch base glob wf, NoDup (keys (wf_jobs wf)) ->
  (forall srv rc, cmd_id (rx_command (rhooks srv rc)) = cmd_id (rx_command rc) /\ rx_event (rhooks srv rc) = rx_event rc) ->
  let conf := fun srv : runner_meta => runner_conf show_f64 (os srv) (arch srv) (base srv) in
  forall sh0 ops s tr, sysrun (chained cx cl sv rhooks conf) glob cx wf sh0 ops s tr ->
  forall pre w e post, tr = pre ++ (w, inr (KEff e)) :: post ->
  exists i key j st0 st srv, w = Some i /\ nth_error (started (flow_of (chained cx cl sv rhooks conf) tr)) i = Some key /\ In (key, j) (wf_jobs wf) /\
    In st0 (jb_steps j) /\ hooked st0 st /\ In (Some i, inr (KObs (ORun (given cx st)))) pre /\ asked ops i srv /\
    let repo := match cm_event (cx_matcher cx) with Some ev => [te_repo_owner ev; te_repo_name ev] | None => [] end in
    let beneath names p := components p = (fst (components (base srv)), snd (components (base srv)) ++ repo ++ sid_0 (st_id st) :: sid_1 (st_id st) :: names) in
    let own p := beneath [show_usize (sid_2 (st_id st))] p \/ beneath ["data"] p in
    (ordinary_repo (event_repo (cm_event (cx_matcher cx))) -> ordinary_id (st_id st) ->
      match e with
      | EfMkdir p | EfRmdir p => own p
      | EfWrite p text => beneath [show_usize (sid_2 (st_id st)); "entrypoint"] p
      | EfKill name => name = sid_0 (st_id st) +++ "-" +++ sid_1 (st_id st) +++ "-" +++ show_usize (sid_2 (st_id st))
      | _ => True
      end).
Proof.
  intros cx cl sv rhooks show os arch base glob wf Hnd Hk conf sh0 ops s tr Hr pre w e post E.
  destruct (C155_effects _ _ _ _ _ _ _ Hnd _ _ _ _ Hr _ _ _ _ E) as (i & key & j & st0 & st & srv & Hw & H1 & H2 & H3 & H4 & H5 & Ha & ins & x & effs & X & Hin).
  exists i, key, j, st0, st, srv. repeat (split; [assumption|]). intros repo beneath own Or Oi.
  destruct (Hk srv (given cx st)) as [K1 K2]. assert (P := own_places _ _ _ _ _ X Hin).
  set (rc := rhooks srv (given cx st)) in *. assert (M : xc_meta (conf srv rc) = step_metadata (base srv) (cm_event (cx_matcher cx)) (st_id st)).
  { unfold conf, runner_conf. rewrite K1, K2. cbn [given rx_command rx_event command_of_step cmd_id]. destruct (uses_host _ _ _); reflexivity. }
  destruct (C44_places (base srv) (cm_event (cx_matcher cx)) (st_id st) Or Oi) as (A1 & A2 & A3 & _ & A5 & _). fold repo in A1, A2, A3. cbn [app] in A1, A2, A3.
  assert (D : own (xc_dir (conf srv rc))).
  { unfold xc_dir. rewrite M. destruct (xc_host _); [right; exact A3|left; exact A1]. }
  destruct e; try exact Logic.I; rewrite ?M in P.
  - subst p. exact D.
  - destruct P as [-> _]. exact A2.
  - subst name. exact A5.
  - subst p. exact D.
Qed.
Print Assumptions C155_places.

(** Non-vacuity of both: two jobs on a remote runner. *)
Notation chr := (chained c26_cx (fun t => t + 100) (fun t => t + 200) (fun _ c => c) (fun _ => runner_conf (fun _ => "") "linux" "x86_64" "/b")).
Example C154_nonvacuous : exists s tr, sysrun chr (fun _ => None) c26_cx sys_wf sys_sh (ch_ops 3) s tr /\
  NoDup (keys (wf_jobs sys_wf)) /\ started_for 0 tr = ["make"] /\ started_for 1 tr = ["make"] /\ map (fun rc => cmd_id (rx_command rc)) (given_by 0 tr) = [StepId "w" "a" 0] /\
  flat_map (fun x => match x with (Some i, inr (KEff (EfMkdir p))) => [(i, p)] | _ => [] end) tr = [(0, "/b/w/a/data"); (1, "/b/w/b/data")].
Proof.
  destruct (sysexec chr (fun _ => None) c26_cx sys_wf (System (winit sys_sh) [] []) (ch_ops 3)) as [[s tr]|] eqn:E; [|vm_compute in E; discriminate E].
  exists s, tr. split; [exact (sysexec_run _ _ _ _ _ _ _ _ _ _ _ (sysrun_init _ _ _ _ _) E)|]. vm_compute in E. injection E as _ <-.
  split; [repeat constructor; cbn; intuition discriminate|]. split; [reflexivity|]. split; [reflexivity|]. split; reflexivity.
Qed.

(** Unlike on the machine of a local run (C152), the process may start when its step and its job have long been reported as over: here the connection breaks while the server
    prepares the step, which then is over, failed, and so is its job; the server starts the process afterwards, all the same. *)
Definition late_ops (err : string) : list (sysop (iop := kop)) :=
  repeat (YFlow WMain) 7 ++ repeat (YFlow (WTaskOp 0 JNext)) 6 ++
  map (YStep 0) (map KFlow [DEngine (OpBefore c26_hooks); DEngine OpNext; DEngine OpNext; DEngine OpNext; DEngine OpNext; DEngine OpNext; DPick [("r", far_runner)] (Some far_runner)] ++
    [KArrive; KExec XIGo] ++ map KFlow [DEngine (OpAnswer true); DRemote (RiAnswer (Some err)); DSender; DSender; DSender; DEngine OpNext; DEngine OpNext; DEngine OpStream;
     DEngine OpNext; DEngine OpNext; DEngine OpNext; DEngine OpStream; DEngine OpNext; DEngine OpNext; DEngine OpNext; DEngine OpNext]) ++
  repeat (YFlow (WTaskOp 0 JNext)) 5 ++ [YPast 0 (KExec (XIFs true)); YPast 0 (KExec (XICmd (CISpawn true)))].
Theorem C154_may_start_late : forall err, exists s tr pre post sr jr, sysrun ch (fun _ => None) c26_cx sys_wf sys_sh (late_ops err) s tr /\
  tr = pre ++ (Some 0, inr (KEff (EfSpawn "make"))) :: post /\
  In (Some 0, inr (KObs (OHook (HStepCompleted sr)))) pre /\ sr_state sr = Failed /\ In (Some 0, inl (OHook (HJobCompleted jr))) pre /\ jr_state jr = Failed.
Proof.
  intros err. destruct (sysexec ch (fun _ => None) c26_cx sys_wf (System (winit sys_sh) [] []) (late_ops err)) as [[s tr]|] eqn:E; [|vm_compute in E; discriminate E].
  exists s, tr. assert (R : sysrun ch (fun _ => None) c26_cx sys_wf sys_sh (late_ops err) s tr) by exact (sysexec_run _ _ _ _ _ _ _ _ _ _ _ (sysrun_init _ _ _ _ _) E).
  assert (L : exists pre, tr = pre ++ [(Some 0, inr (KEff (EfSpawn "make")))] /\
    (exists sr, In (Some 0, inr (KObs (OHook (HStepCompleted sr)))) pre /\ sr_state sr = Failed) /\ exists jr, In (Some 0, inl (OHook (HJobCompleted jr))) pre /\ jr_state jr = Failed).
  { clear R. vm_compute in E. injection E as _ <-. match goal with |- exists p, ?t = p ++ _ /\ _ => exists (removelast t) end. split; [vm_compute; reflexivity|]. cbn [removelast].
    split; (eexists; split; [cbn [In]; repeat (first [left; reflexivity|right]); fail|reflexivity]). }
  destruct L as (pre & -> & (sr & A1 & A2) & (jr & B1 & B2)). exists pre, [], sr, jr. auto 10.
Qed.
Print Assumptions C154_may_start_late.
