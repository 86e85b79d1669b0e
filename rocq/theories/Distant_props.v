(** C102-C104: one step on a remote runner, from the engine's call to its result. *)
From Verif Require Import Base Types Signals_model Signals_proof Stream_model Stream_spec Stream_proof Cond_model Plugins_model Plugins_spec
  Exec_model Exec_spec Step_proof Timing_proof Step_props Runner_model Runner_spec Sched_model Remote_model Remote_spec Remote_proof Local_model Local_spec Local_proof
  Distant_model Distant_spec Distant_proof Distant_live.

(** Every execution has exactly one list of signals handed to the step. *)
Theorem C102_histories : forall cx me cl st0 ops s tr, drun cx me cl st0 ops s tr <-> exists gs, dhist cx me cl st0 ops s tr gs.
Proof.
  intros. split.
  - induction 1 as [sh|ops s tr op s' o R [gs IH] E]; [exists []; constructor|]. exists (gs ++ hands_on s op). eapply dhist_step; eassumption.
  - intros [gs H]. induction H as [sh|ops s tr gs op s' o R IH E]; [constructor|]. eapply drun_step; eassumption.
Qed.
Print Assumptions C102_histories.

(** When the step is done, the runner was called with the step as the hooks left it. If no runner was available the step failed with code 1 and one line of
    log. Otherwise its result is the one that arrived from the server, or failure with code 1 if none arrived; its logs are those that arrived, in order,
    followed by the line of the failure, if any; only a failure after the result may go unlogged. *)
Theorem C102_result : forall cx me cl st0 ops s tr gs r, dhist cx me cl st0 ops s tr gs -> ds_step s = SpDone r ->
  exists t st, ds_task s = Some t /\ hooked st0 st /\ In (ORun (given cx st)) tr /\
    match dt_remote t with
    | None => mirrors (RFailed 1) r /\ delivered tr = [log_error "No runner available"] /\ remote_events ops = []
    | Some rm => let ins := remote_events ops in remote_run ins rm /\ mirrors (remote_result ins) r /\ (result_of (arrived ins) = None -> r_client rm = RDone) /\
        (delivered tr = Remote_spec.logs_of (arrived ins) ++ last_line ins \/ (delivered tr = Remote_spec.logs_of (arrived ins) /\ result_of (arrived ins) <> None))
    end.
Proof. exact distant_result. Qed.
Print Assumptions C102_result.
(** If no call failed, no stream broke and the server's runner gave a result, the step has the result and exactly the logs of the server's runner. *)
Theorem C102_transparent : forall cx me cl st0 ops s tr gs r t rm, dhist cx me cl st0 ops s tr gs -> ds_step s = SpDone r -> ds_task s = Some t -> dt_remote t = Some rm ->
  clean (remote_events ops) -> exists rr, In (RiResult rr) (remote_events ops) /\ mirrors rr r /\ delivered tr = yielded (remote_events ops).
Proof. exact clean_result. Qed.
Print Assumptions C102_transparent.

Definition far_step : step := Step (StepId "w" "j" 0) None None None "make" false [] [] (Duration 60 0).
Definition far_runner : runner_meta := server_metadata "r" 5 true true "linux" "x86_64".
Definition far_start : list dop :=
  [DWorld (ESig (MRegister (JobId "w" "j"))); DEngine (OpBefore c26_hooks); DEngine OpNext; DEngine OpNext; DEngine OpNext; DEngine OpNext; DEngine OpNext;
   DPick [("r", far_runner)] (Some far_runner); DEngine (OpAnswer true); DRemote (RiAnswer None); DEngine OpNext; DRemote (RiLog (log_log "a")); DEngine OpNext; DRemote RiDeliver].
Definition far_finish : list dop := [DEngine OpStream; DEngine OpNext; DEngine OpNext; DEngine OpNext; DEngine OpStream; DEngine OpNext; DEngine OpNext; DEngine OpNext; DEngine OpNext].
Definition far_exit : list dop := far_start ++ [DSender; DRemote (RiResult (RFailed 3)); DRemote RiDeliver; DSender; DSender] ++ far_finish.
(** the stream breaks when the result has not arrived *)
Definition far_broken : list dop := far_start ++ [DSender; DRemote (RiResult (RFailed 3)); DRemote (RiBroken "reset"); DSender; DSender; DSender;
  DEngine OpStream; DEngine OpNext; DEngine OpNext; DEngine OpNext] ++ far_finish.
(** the job is cancelled, the server is told, its runner stops *)
Definition far_cancel : list dop := far_start ++ [DSender; DWorld (ESig (MCancelGet 7 (JobId "w" "j"))); DWorld (ESig (MCancelFire 7)); DEngine OpJobSignal; DEngine OpNext;
  DRemote (RiSignal SigCancel None); DRemote (RiResult RCancelled); DRemote RiDeliver; DSender; DSender; DRemote RiClosed] ++ far_finish.
Definition far_none : list dop :=
  [DWorld (ESig (MRegister (JobId "w" "j"))); DEngine (OpBefore c26_hooks); DEngine OpNext; DEngine OpNext; DEngine OpNext; DEngine OpNext; DEngine OpNext;
   DPick [] None; DSender; DSender; DSender; DEngine (OpAnswer true); DEngine OpNext; DEngine OpNext] ++ far_finish.
Lemma dexec_drun cx me cl st0 more : forall ops s tr s' o, drun cx me cl st0 ops s tr -> dexec cx me cl s more = Some (s', o) -> drun cx me cl st0 (ops ++ more) s' (tr ++ o).
Proof.
  induction more as [|op more IH]; intros ops s tr s' o R E; cbn [dexec] in E; [injection E as <- <-; rewrite !app_nil_r; exact R|].
  destruct (dstep cx me cl s op) as [[s1 o1]|] eqn:E1; [|discriminate]. destruct (dexec cx me cl s1 more) as [[s2 o2]|] eqn:E2; [|discriminate]. injection E as <- <-.
  change (op :: more) with ([op] ++ more). rewrite !app_assoc. eapply IH; [|exact E2]. eapply drun_step; eassumption.
Qed.
Ltac far := do 3 eexists; (split; [apply (dexec_drun _ _ _ _ _ [] (DState (Shared 0%N sm_init None) (SpBefore far_step) None) []); [apply (drun_init _ _ _ _ (Shared 0%N sm_init None))|vm_compute; reflexivity]|]); repeat split; reflexivity.
Example C102_nonvacuous :
  (exists s tr r, drun c26_cx 0 1 far_step far_exit s tr /\ ds_step s = SpDone r /\ sr_state r = Failed /\ sr_exit_code r = Some 3%Z /\ delivered tr = [log_log "a"]) /\
  (exists s tr r, drun c26_cx 0 1 far_step far_broken s tr /\ ds_step s = SpDone r /\ sr_state r = Failed /\ sr_exit_code r = Some 1%Z /\ delivered tr = [log_log "a"; log_error "Failed to run: reset"]) /\
  (exists s tr r, drun c26_cx 0 1 far_step far_cancel s tr /\ ds_step s = SpDone r /\ sr_state r = Cancelled) /\
  (exists s tr r, drun c26_cx 0 1 far_step far_none s tr /\ ds_step s = SpDone r /\ sr_exit_code r = Some 1%Z /\ delivered tr = [log_error "No runner available"]).
Proof. split; [far|split; [far|split; far]]. Qed.

(** C103. The client passes at most one signal of a step to the server, and it is the first the engine handed to the step. *)
Theorem C103_at_most_one : forall cx me cl st0 ops s tr gs, dhist cx me cl st0 ops s tr gs ->
  attempts (remote_events ops) = [] \/ exists g rest, gs = g :: rest /\ attempts (remote_events ops) = [g].
Proof. exact signal_once. Qed.
Print Assumptions C103_at_most_one.
(** What the server was told is what was passed on without an error. *)
Theorem C103_told : forall ins rm, remote_run ins rm -> r_sent rm = flat_map (fun i => match i with RiSignal g None => [g] | _ => [] end) ins.
Proof. exact sent_are. Qed.
Print Assumptions C103_told.
(** As long as the client is reading the response and none has been passed on, it can pass on the signal the engine handed to the step; once it has stopped
    reading (in particular after the stream broke) it never will. *)
Theorem C103_passed_on : forall cx me cl st0 ops s tr g rest sg rm err, dhist cx me cl st0 ops s tr (g :: rest) -> ds_task s = Some (DTask (Some rm) sg []) -> r_client rm = RLoop ->
  attempts (remote_events ops) = [] -> exists s', dstep cx me cl s (DRemote (RiSignal g err)) = Some (s', []).
Proof. exact signal_goes_out. Qed.
Print Assumptions C103_passed_on.
Theorem C103_not_after_the_end : forall cx me cl more s s' o t rm, ds_task s = Some t -> dt_remote t = Some rm -> r_client rm = RDone -> dexec cx me cl s more = Some (s', o) ->
  attempts (remote_events more) = [] /\ exists t' rm', ds_task s' = Some t' /\ dt_remote t' = Some rm' /\ r_client rm' = RDone /\ r_sent rm' = r_sent rm.
Proof.
  intros cx me cl more. induction more as [|op more IH]; intros s s' o t rm T Rm Rc E; cbn [dexec] in E.
  { injection E as <- <-. split; [reflexivity|]. eauto 6. }
  destruct (dstep cx me cl s op) as [[s1 o1]|] eqn:E1; [|discriminate]. destruct (dexec cx me cl s1 more) as [[s2 o2]|] eqn:E2; [|discriminate]. injection E as <- <-.
  assert (K : attempts (remote_events [op]) = [] /\ exists t1 rm1, ds_task s1 = Some t1 /\ dt_remote t1 = Some rm1 /\ r_client rm1 = RDone /\ r_sent rm1 = r_sent rm).
  { destruct op as [op|clients pick|i| |e]; cbn [remote_events flat_map app].
    - split; [reflexivity|].
      assert (D : dengine cx me s op = Some (s1, o1)).
      { destruct op as [|c'|[]| | | |x]; try discriminate E1; try exact E1. cbn [dstep] in E1. destruct (ds_task s) as [[[?|] ? [|? ?]]|]; try discriminate E1; exact E1. }
      unfold dengine in D. destruct (step_step cx me _ _ op) as [[[sh' p'] ob]|]; [|discriminate]. injection D as <- <-. rewrite T. cbn [option_map ds_task]. exists (share p' t), rm.
      unfold share. destruct (phase_signal p'); auto.
    - exfalso. cbn [dstep] in E1. rewrite T in E1. destruct (ds_step s); discriminate E1.
    - cbn [dstep] in E1. rewrite T in E1. destruct t as [r0 sg pd]. cbn in Rm. subst r0. destruct (client_side i && _); [discriminate|].
      destruct (remote_step rm i) as [rm1|] eqn:Er; [|discriminate]. destruct rm as [c sv w effs sent]. cbn in Rc. subst c.
      assert (Q : attempts [i] = [] /\ r_client rm1 = RDone /\ r_sent rm1 = sent).
      { destruct i as [err|l|r| | | |e|g err]; cbn [remote_step client_gets client_step r_client r_server r_wire r_effs r_sent] in Er; try discriminate Er; unfold client_gets in Er; cbn in Er; try discriminate Er;
          try (destruct sv; try discriminate Er; injection Er as <-; auto).
        - destruct w; discriminate Er.
        - destruct w; [|discriminate Er]. destruct sv; discriminate Er. }
      destruct Q as (Q1 & Q2 & Q3). split; [exact Q1|].
      destruct i as [err|l|r| | | |e|g err]; try discriminate Q1; injection E1 as <- <-; cbn [ds_task]; do 2 eexists; (split; [reflexivity|]); (split; [reflexivity|]); auto.
    - split; [reflexivity|]. cbn [dstep] in E1. rewrite T in E1. destruct t as [r0 sg [|ro rest]]; [discriminate|]. injection E1 as <- <-. cbn [ds_task]. do 2 eexists; (split; [reflexivity|]); (split; [exact Rm|]); auto.
    - split; [reflexivity|]. injection E1 as <- <-. cbn [ds_task]. eauto 6. }
  destruct K as (K1 & t1 & rm1 & T1 & Rm1 & Rc1 & Rs1). destruct (IH _ _ _ _ _ T1 Rm1 Rc1 E2) as (J1 & t' & rm' & J2 & J3 & J4 & J5).
  split; [change (op :: more) with ([op] ++ more); rewrite events_app, attempts_app, K1, J1; reflexivity|]. exists t', rm'. repeat split; try assumption. congruence.
Qed.
Print Assumptions C103_not_after_the_end.
(** The signals handed to the step: Timeout from the engine's timer, or the job's signal found raised. *)
Theorem C103_origin : forall cx me cl st0 ops s tr gs g, dhist cx me cl st0 ops s tr gs -> In g gs ->
  exists pre post s1 tr1 gs1 st t0 a sg str ti, dhist cx me cl st0 pre s1 tr1 gs1 /\ ds_step s1 = SpLoop st t0 a sg str ti /\
    ((ops = pre ++ DEngine OpTimer :: post /\ g = SigTimeout) \/
     (ops = pre ++ DEngine OpJobSignal :: post /\ exists cell, nth_error (sm_heap (sh_sm (ds_sh s1))) a = Some cell /\ sg_signal cell = Some g)).
Proof.
  intros cx me cl st0 ops s tr gs g H Hi. destruct (handed_from _ _ _ _ _ _ _ _ _ H Hi) as (pre & op & post & s1 & tr1 & gs1 & -> & H1 & H3).
  unfold hands_on in H3. destruct (ds_step s1) as [ | | | | | | | | |st1 t0 a sg str ti| | | | | | | |] eqn:P; try contradiction.
  destruct op as [[]| | | |]; try contradiction; exists pre, post, s1, tr1, gs1, st1, t0, a, sg, str, ti; (split; [exact H1|]); (split; [try reflexivity; exact P|]).
  - left. destruct H3 as [<-|[]]. auto.
  - right. split; [reflexivity|]. destruct (nth_error (sm_heap (sh_sm (ds_sh s1))) a) as [cell|] eqn:Q; [|contradiction]. destruct (sg_notified cell); [contradiction|].
    exists cell. split; [reflexivity|]. destruct (sg_signal cell); [destruct H3 as [<-|[]]; reflexivity|contradiction].
Qed.
Print Assumptions C103_origin.
Example C103_nonvacuous : exists s tr gs, dhist c26_cx 0 1 far_step far_cancel s tr gs /\ gs = [SigCancel] /\ attempts (remote_events far_cancel) = [SigCancel].
Proof.
  destruct C102_nonvacuous as (_ & _ & (s & tr & r & R & _) & _). apply C102_histories in R as [gs H]. exists s, tr, gs. split; [exact H|].
  assert (At : attempts (remote_events far_cancel) = [SigCancel]) by reflexivity. split; [|exact At].
  destruct (C103_at_most_one _ _ _ _ _ _ _ _ H) as [C|(g & rest & -> & C)]; rewrite At in C; [discriminate C|]. injection C as <-.
  (* only one action of the engine in this execution hands a signal on *)
  assert (K : forall ops s tr gs, dhist c26_cx 0 1 far_step ops s tr gs -> (length gs <= length (filter (fun op => match op with DEngine OpTimer | DEngine OpJobSignal => true | _ => false end) ops))%nat).
  { clear. induction 1 as [sh|ops s tr gs op s' o R IH E]; [reflexivity|]. rewrite filter_app, !app_length.
    assert (length (hands_on s op) <= length (filter (fun op => match op with DEngine OpTimer | DEngine OpJobSignal => true | _ => false end) [op]))%nat; [|lia].
    unfold hands_on. destruct (ds_step s); try (cbn; lia). destruct op as [[]| | | |]; try (cbn; lia). destruct (nth_error _ _) as [c|]; [|cbn; lia]. destruct (sg_notified c); [cbn; lia|]. destruct (sg_signal c); cbn; lia. }
  apply K in H. cbn in H. destruct rest; [reflexivity|cbn in H; lia].
Qed.

(** C104. The step ends. Once the client's part is over or the result has arrived, reading suffices. *)
Theorem C104_result_arrives : forall cx me cl st0 ops s tr gs t rm, dhist cx me cl st0 ops s tr gs -> ds_task s = Some t -> dt_remote t = Some rm ->
  (r_client rm = RDone \/ result_of (arrived (remote_events ops)) <> None) ->
  exists more s' o r, Forall plain more /\ dexec cx me cl s more = Some (s', o) /\ ds_step s' = SpDone r /\ mirrors (remote_result (remote_events ops)) r.
Proof.
  intros cx me cl st0 ops s tr gs t rm H T Rm Hd. eapply calls_complete; [exact H|exact T|reflexivity|]. rewrite T. destruct t as [r0 sg pd]. cbn in Rm. subst r0. cbn [task_effs].
  apply remote_result_eq; [|exact Hd]. apply dhist_inv in H as [_ _ _ _ Htask]. destruct (Htask _ T) as (_ & _ & _ & _ & Rr & _). exact Rr.
Qed.
Print Assumptions C104_result_arrives.
(** Once the server's runner has finished, delivering what is on the wire suffices: no waiting, signal or other job can prevent it. *)
Theorem C104_server_done : forall cx me cl st0 ops s tr gs t rm, dhist cx me cl st0 ops s tr gs -> ds_task s = Some t -> dt_remote t = Some rm -> r_client rm = RLoop -> r_server rm = SvDone ->
  exists more s' o r, Forall plain more /\ dexec cx me cl s more = Some (s', o) /\ ds_step s' = SpDone r /\
    mirrors (match result_of (server_sent (remote_events ops)) with Some rr => rr | None => RFailed 1 end) r.
Proof.
  intros cx me cl st0 ops s tr gs t rm H T Rm Rc Rs. destruct t as [r0 sg pd]. cbn in Rm. subst r0. exact (wire_arrives cx me cl st0 _ _ _ _ _ _ _ _ H T Rc Rs eq_refl).
Qed.
Print Assumptions C104_server_done.
(** The same when no runner was available. *)
Theorem C104_no_runner : forall cx me cl st0 ops s tr gs t, dhist cx me cl st0 ops s tr gs -> ds_task s = Some t -> dt_remote t = None ->
  exists more s' o r, Forall plain more /\ dexec cx me cl s more = Some (s', o) /\ ds_step s' = SpDone r /\ mirrors (RFailed 1) r.
Proof.
  intros cx me cl st0 ops s tr gs t H T Rm. eapply calls_complete; [exact H|exact T|reflexivity|]. rewrite T. destruct t as [r0 sg pd]. cbn in Rm. subst r0. reflexivity.
Qed.
Print Assumptions C104_no_runner.
Example C104_nonvacuous : exists s tr t rm, drun c26_cx 0 1 far_step (far_start ++ [DRemote (RiResult RSucceeded)]) s tr /\ ds_task s = Some t /\ dt_remote t = Some rm /\ r_client rm = RLoop /\ r_server rm = SvDone.
Proof.
  do 4 eexists. split; [apply (dexec_drun _ _ _ _ _ [] (DState (Shared 0%N sm_init None) (SpBefore far_step) None) []); [apply (drun_init _ _ _ _ (Shared 0%N sm_init None))|vm_compute; reflexivity]|].
  repeat split; reflexivity.
Qed.
