(** Theorems about commands (C47, C48), runs of the built-in runner (C50, C51, C52) and its plugins (C69). *)
From Verif Require Import Base Types Ids_model Ids_spec Stream_model Paths_model Docker_model Runner_model Runner_spec Runner_proof.

(** C48. The exit status decides the result. *)
Theorem C48_exit_result : forall code,
  (exit_result code = RSucceeded <-> code = Some 0%Z) /\
  (forall c, code = Some c -> c <> 0%Z -> exit_result code = RFailed c) /\
  (code = None -> exit_result code = RFailed 1).
Proof.
  intros code. unfold exit_result. split; [|split].
  - destruct code as [c|]; [|split; discriminate]. destruct (Z.eqb_spec c 0) as [->|N]; split; intros H; try reflexivity; try discriminate; congruence.
  - intros c -> N. destruct (Z.eqb_spec c 0); [contradiction|reflexivity].
  - intros ->. reflexivity.
Qed.
(** A finished run: what was sent is an outcome of the child for the exit code that was seen, and every outcome can occur. *)
Theorem C48_outcomes_sound : forall ch ins tr, cmd_run ins (CDone true) tr -> of_child ch ins ->
  exists code, In (CIExit code) ins /\ outcome ch code tr.
Proof. exact cmd_outcome. Qed.
Theorem C48_outcomes_complete : forall ch code tr, outcome ch code tr -> exists ins, cmd_run ins (CDone true) tr /\ of_child ch ins.
Proof. exact outcome_possible. Qed.
Print Assumptions C48_exit_result.
Print Assumptions C48_outcomes_sound.
Print Assumptions C48_outcomes_complete.

Definition two_pipes : child := Child ["a"; "b"] PEof ["oops"] PEof.
Lemma cmd_snoc ins p tr i p' o t : cmd_run ins p tr -> cmd_step p i = Some (p', o) -> t = tr ++ o -> cmd_run (ins ++ [i]) p' t.
Proof. intros R E ->. econstructor; eassumption. Qed.
Example C48_nonvacuous : cmd_run [CISpawn true; CIOut (RdLine "a"); CIErr (RdLine "oops"); CIOut (RdLine "b"); CIOut RdEof; CIExit (Some 2%Z)] (CDone true)
  [SeLog (log_log "a"); SeLog (log_error "oops"); SeLog (log_log "b"); SeEnd (RFailed 2)] /\
  of_child two_pipes [CISpawn true; CIOut (RdLine "a"); CIErr (RdLine "oops"); CIOut (RdLine "b"); CIOut RdEof; CIExit (Some 2%Z)].
Proof.
  split; [|split; [exists []|exists [RdEof]]; reflexivity].
  apply (cmd_snoc [CISpawn true; CIOut (RdLine "a"); CIErr (RdLine "oops"); CIOut (RdLine "b"); CIOut RdEof] CWait [SeLog (log_log "a"); SeLog (log_error "oops"); SeLog (log_log "b")] _ _ [SeEnd (RFailed 2)]); [|reflexivity..].
  apply (cmd_snoc [CISpawn true; CIOut (RdLine "a"); CIErr (RdLine "oops"); CIOut (RdLine "b")] CRead [SeLog (log_log "a"); SeLog (log_error "oops"); SeLog (log_log "b")] _ _ []); [|reflexivity..].
  apply (cmd_snoc [CISpawn true; CIOut (RdLine "a"); CIErr (RdLine "oops")] CRead [SeLog (log_log "a"); SeLog (log_error "oops")] _ _ [SeLog (log_log "b")]); [|reflexivity..].
  apply (cmd_snoc [CISpawn true; CIOut (RdLine "a")] CRead [SeLog (log_log "a")] _ _ [SeLog (log_error "oops")]); [|reflexivity..].
  apply (cmd_snoc [CISpawn true] CRead [] _ _ [SeLog (log_log "a")]); [|reflexivity..].
  apply (cmd_snoc [] CSpawn [] _ _ []); [constructor|reflexivity..].
Qed.

(** C47. Not all output is logged: a child whose error pipe ends first may lose everything it printed... *)
Theorem C47_output_lost_refuted : forall lines, exists ins tr,
  cmd_run ins (CDone true) tr /\ of_child (Child lines PEof [] PEof) ins /\ logged tr = [] /\ tr = [SeEnd RSucceeded].
Proof.
  intros lines. assert (O : outcome (Child lines PEof [] PEof) (Some 0%Z) [SeEnd RSucceeded]).
  { exists [], [], [], []. split; [reflexivity|]. split; [constructor|]. split; [exists lines; reflexivity|]. split; [exists []; reflexivity|]. right. auto. }
  apply outcome_possible in O as (ins & R & C). exists ins, [SeEnd RSucceeded]. auto.
Qed.
(** ... but what is logged are, per pipe and in order, the first lines printed there, each once and under the right type, and one of the two
    pipes (the one that ended first) is logged completely. *)
Theorem C47_per_stream_order_partial : forall outs errs ins tr,
  cmd_run ins (CDone true) tr -> of_child (Child outs PEof errs PEof) ins ->
  exists lo le, merge (map log_log lo) (map log_error le) (logged tr) /\ prefix_of lo outs /\ prefix_of le errs /\ (lo = outs \/ le = errs).
Proof.
  intros outs errs ins tr R C. destruct (cmd_outcome _ _ _ R C) as (code & _ & lo & le & ls & cut & -> & M & Po & Pe & H). exists lo, le.
  assert (cut = []) as -> by (destruct H as [[_ ->]|[_ ->]]; reflexivity). rewrite app_nil_r.
  assert (L : logged (map SeLog ls ++ [SeEnd (exit_result code)]) = ls) by (unfold logged; rewrite flat_map_app; cbn; rewrite app_nil_r; clear; induction ls; cbn; [reflexivity|f_equal; assumption]).
  rewrite L. split; [exact M|]. split; [exact Po|]. split; [exact Pe|]. destruct H as [[H _]|[H _]]; auto.
Qed.
Print Assumptions C47_output_lost_refuted.
Print Assumptions C47_per_stream_order_partial.

(** C50. Once nothing more can happen without a signal, the log stream has been ended exactly once... *)
Theorem C50_stream_ended_once_partial : forall c ins x tr, xrun c ins x tr -> settled c x -> exists r, ends tr = [r].
Proof.
  intros c ins x tr R S. assert (E := x_ends _ _ _ _ R). assert (P := x_result_phase _ _ _ _ R). apply settled_iff in S.
  rewrite E. destruct S as [S|(ok & S & _)]; rewrite S in P.
  - destruct (xs_result x) as [r|]; [exists r; reflexivity|contradiction].
  - destruct ok; [|contradiction]. destruct (xs_result x) as [r|]; [exists r; reflexivity|contradiction].
Qed.
(** ... and never twice in any run; apart from printed lines and signals a run is at most eleven steps long, so it does settle. *)
Theorem C50_never_ended_twice_partial : forall c ins x tr, xrun c ins x tr -> length (ends tr) <= 1.
Proof. intros c ins x tr R. rewrite (x_ends _ _ _ _ R). destruct (xs_result x); cbn; lia. Qed.
Theorem C50_bounded_partial : forall c ins x tr, xrun c ins x tr -> length (filter (fun i => negb (is_signal i) && negb (is_line i)) ins) <= 11.
Proof. intros c ins x tr R. apply x_bounded in R. lia. Qed.
(** When the command could not be started or waited for, or a signal was raised: the run ends with exactly one on_after_run, its last action, and with
    no directory left behind unless the file system failed. *)
Theorem C50_cleanup_partial : forall c ins x tr, xrun c ins x tr -> settled c x -> raised ins <> [] \/ ~ command_exited ins ->
  (exists t, tr = t ++ [EfAfterRun] /\ ~ In EfAfterRun t) /\ (~ fs_failed ins -> forall p, ~ left_behind p tr).
Proof.
  intros c ins x tr R S H. assert (St : xs_phase x = XStop).
  { assert (S' := S). apply settled_iff in S as [S|(ok & S & N)]; [exact S|]. exfalso. rewrite (x_first_signal _ _ _ _ R) in N. destruct H as [H|H].
    - destruct (raised ins); [contradiction|discriminate].
    - apply H. eapply x_exited; eassumption. }
  split.
  - apply x_stop_trace in R as (t & r & -> & N & _); [exists t; auto|exact St].
  - intros NF. eapply x_clean; eassumption.
Qed.
(** Only the step's own directory is ever created or removed. *)
Theorem C50_only_own_directory_partial : forall c ins x tr, xrun c ins x tr -> forall p, In (EfMkdir p) tr \/ In (EfRmdir p) tr -> p = xc_dir c.
Proof. exact x_dirs. Qed.
(** A command that exits by itself leaves the task waiting for a signal: no clean-up, no on_after_run. *)
Definition quiet_success : list xinput := [XIGo; XIFs true; XIFs true; XICmd (CISpawn true); XICmd (CIOut RdEof); XICmd (CIExit (Some 0%Z))].
Lemma x_snoc c ins x tr i x' o t : xrun c ins x tr -> xstep c x i = Some (x', o) -> t = tr ++ o -> xrun c (ins ++ [i]) x' t.
Proof. intros R E ->. econstructor; eassumption. Qed.
Fixpoint xexec (c : xconf) (ins : list xinput) (x : xstate) (tr : list xeff) : option (xstate * list xeff) :=
  match ins with [] => Some (x, tr) | i :: r => match xstep c x i with Some (x', o) => xexec c r x' (tr ++ o) | None => None end end.
Lemma xexec_run c : forall ins pre x tr x' tr', xrun c pre x tr -> xexec c ins x tr = Some (x', tr') -> xrun c (pre ++ ins) x' tr'.
Proof.
  induction ins as [|i ins IH]; intros pre x tr x' tr' R E; cbn in E; [injection E as <- <-; rewrite app_nil_r; exact R|].
  destruct (xstep c x i) as [[x1 o]|] eqn:Ei; [|discriminate]. change (i :: ins) with ([i] ++ ins). rewrite app_assoc. eapply IH; [|exact E]. econstructor; eassumption.
Qed.
Theorem C50_no_cleanup_after_exit_refuted : forall m script cmd, exists x tr,
  xrun (XConf false m script cmd) quiet_success x tr /\ settled (XConf false m script cmd) x /\
  ends tr = [RSucceeded] /\ left_behind (md_step_dir m) tr /\ ~ In EfAfterRun tr.
Proof.
  intros m script cmd. set (c := XConf false m script cmd).
  exists (XState (XSelect (CDone true)) None (Some RSucceeded)), [EfMkdir (md_step_dir m); EfWrite (md_entrypoint m) (entrypoint_content script); EfSpawn cmd; EfEnd RSucceeded].
  split; [apply (xexec_run c quiet_success [] xinit []); [constructor|reflexivity]|]. split; [apply settled_iff; right; exists true; auto|]. split; [reflexivity|].
  split; [exists [], [EfWrite (md_entrypoint m) (entrypoint_content script); EfSpawn cmd; EfEnd RSucceeded]; split; [reflexivity|]|]; cbn; intuition discriminate.
Qed.
Print Assumptions C50_stream_ended_once_partial.
Print Assumptions C50_never_ended_twice_partial.
Print Assumptions C50_bounded_partial.
Print Assumptions C50_cleanup_partial.
Print Assumptions C50_only_own_directory_partial.
Print Assumptions C50_no_cleanup_after_exit_refuted.

(** C51. A signal raised while the task is under way (after its check at the start), the command not finishing by itself: that signal's result is reported. *)
Theorem C51_signal_reported_partial : forall c a s b x tr,
  xrun c (a ++ XISignal s :: b) x tr -> undisturbed (a ++ XISignal s :: b) -> In XIGo a -> raised a = [] -> settled c x ->
  ends tr = [signal_result s].
Proof.
  intros c a s b x tr R U G Ra S. rewrite (x_ends _ _ _ _ R). assert (Fs := x_first_signal _ _ _ _ R). rewrite raised_app, Ra in Fs. cbn in Fs.
  destruct (x_signalled _ _ _ _ R U) as [[Hp Hg]|[(a' & b' & E & Ha & Hr)|H]].
  - exfalso. apply Hg. apply in_or_app. auto.
  - exfalso. apply app_eq_app in E as (l & [[-> E]|[-> E]]).
    + apply Hr. rewrite raised_app in Ra. apply app_eq_nil in Ra as [Ra _]. exact Ra.
    + destruct l as [|e l]; [discriminate|]. apply Ha. apply in_or_app. auto.
  - apply settled_iff in S as [S|(ok & S & N)]; [|congruence]. rewrite S in H. destruct H as (s' & H1 & ->). assert (s' = s) as -> by congruence. reflexivity.
Qed.
Theorem C51_results : signal_result SigCancel = RCancelled /\ signal_result SigTimeout = RFailed 123.
Proof. split; reflexivity. Qed.
(** Whatever happens afterwards, the reported result does not change. *)
Theorem C51_result_final_partial : forall c ins x tr i x' o r, xrun c ins x tr -> xstep c x i = Some (x', o) -> xs_result x = Some r -> xs_result x' = Some r.
Proof. intros. eapply x_result_kept; eassumption. Qed.
(** A signal raised before the task looks for it is reported as Failed 1, not as Cancelled. *)
Theorem C51_cancelled_before_start_refuted : forall c s, exists x tr,
  xrun c [XISignal s; XIGo; XIGo; XIGo] x tr /\ settled c x /\ tr = [EfEnd (RFailed 1); EfAfterRun] /\ RFailed 1 <> signal_result s.
Proof.
  intros c s. exists (XState XStop (Some s) (Some (RFailed 1))), [EfEnd (RFailed 1); EfAfterRun].
  split; [apply (xexec_run c [XISignal s; XIGo; XIGo; XIGo] [] xinit []); [constructor|reflexivity]|]. split; [apply settled_iff; auto|]. split; [reflexivity|]. destruct s; discriminate.
Qed.
Print Assumptions C51_signal_reported_partial.
Print Assumptions C51_results.
Print Assumptions C51_result_final_partial.
Print Assumptions C51_cancelled_before_start_refuted.

Definition meta0 : metadata := step_metadata "/w" None (StepId "wf" "build" 2).
Example C51_nonvacuous : exists x tr,
  let ins := [XIGo; XIFs true; XIFs true; XICmd (CISpawn true); XICmd (CIOut (RdLine "hi"))] in
  let rest := [XITake; XIGo; XIFs true; XIGo; XIGo] in
  let c := XConf false meta0 "sleep 9" "docker run x" in
  xrun c (ins ++ XISignal SigTimeout :: rest) x tr /\ undisturbed (ins ++ XISignal SigTimeout :: rest) /\ settled c x /\
  tr = [EfMkdir "/w/wf/build/2"; EfWrite "/w/wf/build/2/entrypoint" ("#!/bin/sh" +++ newline +++ "sleep 9"); EfSpawn "docker run x"; EfLog (log_log "hi"); EfKill "wf-build-2"; EfEnd (RFailed 123);
        EfRmdir "/w/wf/build/2"; EfAfterRun].
Proof.
  eexists _, _. cbv zeta. split; [apply (xexec_run (XConf false meta0 "sleep 9" "docker run x") _ [] xinit []); [constructor|vm_compute; reflexivity]|].
  split; [unfold undisturbed, fs_failed, command_exited, command_broke; cbn; repeat split; [intuition discriminate|intros [code H]; intuition discriminate|intuition discriminate]|]. split; [apply settled_iff; left; reflexivity|]. reflexivity.
Qed.

(** C52. When the docker command is started, the entrypoint file it mounts has just been written, with the step's script. *)
Theorem C52_entrypoint_written_first : forall c ins x tr a s b, xc_host c = false -> xrun c ins x tr -> tr = a ++ EfSpawn s :: b ->
  s = xc_spawned c /\ a = [EfMkdir (md_step_dir (xc_meta c)); EfWrite (md_entrypoint (xc_meta c)) (entrypoint_content (xc_script c))] /\ ~ In (EfSpawn s) b.
Proof.
  intros c ins x tr a s b Hh R E. destruct (x_spawn _ _ _ _ R a s b E) as [H1 H2]. unfold entry_write, xc_dir in H2. rewrite Hh in H2. split; [exact H1|]. split; [exact H2|].
  intros C. apply in_split in C as (b1 & b2 & ->). destruct (x_spawn _ _ _ _ R (a ++ EfSpawn s :: b1) s b2) as [_ H3]; [rewrite E, <- app_assoc; reflexivity|].
  unfold entry_write, xc_dir in H3. rewrite Hh in H3. rewrite H2 in H3. destruct b1; discriminate H3.
Qed.
Print Assumptions C52_entrypoint_written_first.

(** C69. Runner plugins: on_before_run sees what the plugins before it made of the context, a failing one changes nothing; on_after_run is called once for each, in order,
    with the final context. *)
Theorem C69_before_run : forall Ctx (ps : list (rplugin Ctx)) p qs ctx,
  before_run Ctx (ps ++ p :: qs) ctx =
  before_run Ctx qs (match rp_before Ctx p (before_run Ctx ps ctx) with Ok c => c | Err _ => before_run Ctx ps ctx end).
Proof. intros. rewrite before_run_app. reflexivity. Qed.
Theorem C69_no_plugins : forall Ctx (ctx : Ctx), before_run Ctx [] ctx = ctx.
Proof. reflexivity. Qed.
Theorem C69_failing_plugin_is_skipped : forall Ctx (ps qs : list (rplugin Ctx)) p ctx,
  (forall c, exists e, rp_before Ctx p c = Err e) -> before_run Ctx (ps ++ p :: qs) ctx = before_run Ctx (ps ++ qs) ctx.
Proof. intros Ctx ps qs p ctx H. rewrite C69_before_run, before_run_app. destruct (H (before_run Ctx ps ctx)) as [e ->]. reflexivity. Qed.
Theorem C69_after_run : forall Ctx (ps : list (rplugin Ctx)) ctx,
  map fst (after_run_calls Ctx ps ctx) = ps /\ Forall (fun call => snd call = ctx) (after_run_calls Ctx ps ctx).
Proof. intros Ctx ps ctx. unfold after_run_calls. split; [rewrite map_map; apply map_id|]. apply Forall_forall. intros x H. apply in_map_iff in H as (p & <- & _). reflexivity. Qed.
Print Assumptions C69_before_run.
Print Assumptions C69_failing_plugin_is_skipped.
Print Assumptions C69_after_run.
Example C69_nonvacuous : before_run nat [RPlugin nat (fun n => Ok (n + 1)) (fun _ => Ok tt); RPlugin nat (fun _ => Err (OtherError "boom")) (fun _ => Ok tt); RPlugin nat (fun n => Ok (n * 10)) (fun _ => Ok tt)] 1 = 20.
Proof. reflexivity. Qed.

(** C70. The reported result, exactly: in every run that has come to rest the one result sent is the verdict of the events of that run. *)
Theorem C70_verdict : forall c ins x tr, xrun c ins x tr -> settled c x -> exists r, verdict None false ins = Some r /\ ends tr = [r].
Proof.
  intros c ins x tr R S. destruct (C50_stream_ended_once_partial _ _ _ _ R S) as [r E]. exists r. split; [|exact E].
  rewrite (x_ends _ _ _ _ R) in E. rewrite (x_verdict _ _ _ _ R). destruct (xs_result x); [injection E as ->; reflexivity|discriminate].
Qed.
(** At any earlier point nothing was sent, or the verdict was. *)
Theorem C70_only_the_verdict : forall c ins x tr r, xrun c ins x tr -> In r (ends tr) -> verdict None false ins = Some r.
Proof.
  intros c ins x tr r R H. rewrite (x_ends _ _ _ _ R) in H. rewrite (x_verdict _ _ _ _ R). destruct (xs_result x); [|destruct H]. destruct H as [->|[]]. reflexivity.
Qed.
Print Assumptions C70_verdict.
Print Assumptions C70_only_the_verdict.
Example C70_nonvacuous :
  verdict None false quiet_success = Some RSucceeded /\ verdict None false [XISignal SigCancel; XIGo; XIGo; XIGo] = Some (RFailed 1) /\
  verdict None false [XIGo; XIFs true; XIFs true; XICmd (CISpawn true); XISignal SigCancel; XISignal SigTimeout; XITake; XIGo; XIFs true] = Some RCancelled.
Proof. repeat split. Qed.

(** C71. The two ways a run comes to rest: the task has stopped, on_after_run being its last action and called once, the step's directory removed (unless the
    file system failed); or the command exited by itself without any signal raised, and then the task waits for a signal for ever: nothing is removed and
    on_after_run is not called. *)
Theorem C71_rest : forall c ins x tr, xrun c ins x tr -> settled c x ->
  ((exists t, tr = t ++ [EfAfterRun] /\ ~ In EfAfterRun t) /\ (~ fs_failed ins -> forall p, ~ left_behind p tr)) \/
  (raised ins = [] /\ command_exited ins /\ ~ In EfAfterRun tr /\ left_behind (xc_dir c) tr).
Proof.
  intros c ins x tr R S. assert (D := S). apply settled_iff in D as [D|(ok & D & N)].
  - left. split; [apply x_stop_trace in R as (t & r & -> & N & _); [exists t; auto|exact D]|]. intros NF. eapply x_clean; eassumption.
  - right. assert (Sh := x_shape _ _ _ _ R). unfold shape in Sh. rewrite D in Sh. rewrite (x_first_signal _ _ _ _ R) in N.
    assert (Hr : raised ins = []) by (destruct (raised ins); [reflexivity|discriminate]). split; [exact Hr|].
    assert (St : xs_phase x <> XStop) by (rewrite D; discriminate).
    destruct Sh as (mid & -> & F). assert (G : Forall calm (entry_write c ++ mid)) by (apply Forall_app; split; [apply entry_write_calm|exact F]). destruct (calm_not_after _ G) as [G1 G2].
    split; [eapply x_exited; eassumption|]. split; [intros [C|C]; [discriminate|contradiction]|]. exists [], (entry_write c ++ mid). split; [reflexivity|]. intros C. apply (G2 (xc_dir c)). auto.
Qed.
Print Assumptions C71_rest.
Example C71_nonvacuous : exists x tr, xrun (XConf true meta0 "true" "true") [XIGo; XIFs true; XICmd (CISpawn false); XIFs true; XIGo; XIGo] x tr /\ settled (XConf true meta0 "true" "true") x /\
  tr = [EfMkdir "/w/wf/build/data"; EfRmdir "/w/wf/build/data"; EfEnd (RFailed 1); EfAfterRun].
Proof.
  eexists _, _. split; [apply (xexec_run (XConf true meta0 "true" "true") _ [] xinit []); [constructor|vm_compute; reflexivity]|]. split; [apply settled_iff; left; reflexivity|reflexivity].
Qed.
