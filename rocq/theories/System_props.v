(** C105-C107: a whole workflow run on the built-in runner, and on remote runners. *)
From Verif Require Import Base Types Signals_model Signals_proof Stream_model Stream_spec Stream_proof Cond_model
  Plugins_model Plugins_spec Plugins_proof Exec_model Exec_spec Step_proof Job_proof Timing_proof Step_props Workflow_model Workflow_spec Workflow_proof Workflow_inv Workflow_term Workflow_props
  Paths_model Docker_model Runner_model Runner_spec Runner_proof Local_model Local_spec Local_proof Local_props Remote_model Remote_spec Distant_model Distant_spec Distant_proof Distant_props
  System_model System_spec System_proof System_flow System_inst.

(** The engine's part of every execution is an execution of the workflow, so everything proved about those (C20, C28-C37, C65, C66) holds here. *)
Theorem C105_engine : forall glob cx rhooks conf wf sh0 ops s tr, sysrun (builtin cx rhooks conf) glob cx wf sh0 ops s tr ->
  exists wls, wrun glob cx wf wls (sy_w s) (flow_of (builtin cx rhooks conf) tr) /\
    (forall o, In (YFlow o) ops -> In o wls) /\ (forall o, In o wls -> In (YFlow o) ops \/ exists i so, o = WTaskOp i (JStep so)).
Proof.
  intros glob cx rhooks conf wf sh0 ops s tr Hr. destruct (flow_run _ glob cx wf (builtin_faithful cx rhooks conf) _ _ _ _ Hr) as (wls & W & H1 & H2).
  exists wls. split; [exact W|]. split; [exact H1|]. intros o Ho. destruct (H2 o Ho) as [K|K]; [left; exact K|right]. destruct o as [| |i [| |so]| |]; try discriminate K. eauto.
Qed.
Print Assumptions C105_engine.

(** Every job result the workflow received was returned by a task of that job, all of whose steps were skipped (by the rules of C28, C29) or run on the
    built-in runner, each by one execution as in C99. *)
Theorem C105_results : forall glob cx rhooks conf wf sh0 ops s tr k r, NoDup (keys (wf_jobs wf)) ->
  sysrun (builtin cx rhooks conf) glob cx wf sh0 ops s tr -> let evs := flow_of (builtin cx rhooks conf) tr in In (k, r) (received evs) ->
  exists i j, nth_error (started evs) i = Some k /\ In (k, j) (wf_jobs wf) /\
    job_story_with (ran_builtin cx rhooks conf ops i) cx j (events_of (Some i) evs) r.
Proof.
  intros glob cx rhooks conf wf sh0 ops s tr k r Hnd Hr evs Hin.
  destruct (received_ran _ glob cx wf (builtin_faithful cx rhooks conf) _ _ _ _ _ _ Hnd Hr Hin) as (i & j & H1 & H2 & H3).
  exists i, j. split; [exact H1|]. split; [exact H2|]. eapply job_story_mono; [|exact H3]. intros st e x. apply ran_is_builtin.
Qed.
Print Assumptions C105_results.

Lemma steps_entries S e l evs rs : steps_story S e l evs rs -> Forall2 (fun st r => skipped_entry st r \/ exists sevs, S st sevs r) l rs.
Proof. induction 1; constructor; eauto. Qed.
Lemma story_entries S cx j evs r : job_story_with S cx j evs r ->
  (jr_state r = Skipped /\ jr_steps r = []) \/ Forall2 (fun st x => skipped_entry st x \/ exists sevs, S st sevs x) (jb_steps j) (jr_steps r).
Proof. intros [c E|chk e rs s t0 t1 H1 H2 H3 H4]; [left; auto|right]. eapply steps_entries; eauto. Qed.
Lemma story_state S cx j evs r : job_story_with S cx j evs r -> (jr_state r = Skipped /\ jr_steps r = []) \/ final_state (jr_steps r) (jr_state r).
Proof. intros [c E|chk e rs s t0 t1 H1 H2 H3 H4]; [left; auto|right; exact H3]. Qed.
Lemma received_latest recs k r : latest recs k r -> In (k, r) recs.
Proof. intros (a & b & -> & _). apply in_or_app. right. left. reflexivity. Qed.

(** In the result of a finished run: one entry per step of the job (unless the job was skipped), which is a skipped entry, or the result the built-in runner's
    task for that step came to: the command that was run is the step's (as the hooks left it), the result is that of the first decisive event, and the lines
    delivered to the plugins are those the task sent. *)
Theorem C105_final : forall glob cx rhooks conf wf sh0 ops s tr r k jr, NoDup (keys (wf_jobs wf)) ->
  sysrun (builtin cx rhooks conf) glob cx wf sh0 ops s tr -> ws_main (sy_w s) = WpDone r -> lookup k (wr_jobs r) = Some jr ->
  exists i j, nth_error (started (flow_of (builtin cx rhooks conf) tr)) i = Some k /\ In (k, j) (wf_jobs wf) /\
    ((jr_state jr = Skipped /\ jr_steps jr = []) \/
     Forall2 (fun st0 x => skipped_entry st0 x \/
       exists lops sl ltr ins t st rr, lhist cx (S i) rhooks conf st0 lops sl ltr ins /\ (forall o, In (LRunner o) lops -> In (YStep i (LRunner o)) ops) /\
         lo_step sl = SpDone x /\ lo_task sl = Some t /\ hooked st0 st /\ lt_conf t = conf (rhooks (given cx st)) /\
         xrun (lt_conf t) ins (lt_x t) (task_effects ltr) /\ verdict None false ins = Some rr /\ mirrors rr x /\ Exec_spec.delivered (engine_events ltr) = task_logs ltr)
       (jb_steps j) (jr_steps jr)).
Proof.
  intros glob cx rhooks conf wf sh0 ops s tr r k jr Hnd Hr Em Hl.
  destruct (C105_engine _ _ _ _ _ _ _ _ _ Hr) as (wls & W & _).
  destruct (C36_final_state _ _ _ _ _ _ _ Hnd W Em) as (_ & [(_ & Hj & _)|(_ & _ & Hlat)]); [rewrite Hj in Hl; discriminate Hl|].
  apply Hlat, received_latest in Hl. destruct (C105_results _ _ _ _ _ _ _ _ _ _ _ Hnd Hr Hl) as (i & j & H1 & H2 & H3).
  exists i, j. split; [exact H1|]. split; [exact H2|]. apply story_entries in H3 as [H3|H3]; [left; exact H3|right].
  induction H3 as [|st x l l' [H|[sevs H]] H3 IH]; constructor; auto. right.
  destruct H as (lops & sl & ltr & ins & Hh & Hd & He & Ho). destruct (result_of_run _ _ _ _ _ _ _ _ _ _ Hh Hd) as (t & st' & rr & K1 & K2 & K3 & K4 & K5 & _ & K6 & K7 & K8).
  exists lops, sl, ltr, ins, t, st', rr. repeat (split; [first [assumption | intros o Hin; destruct (Ho _ Hin) as [G|(e & C & _)]; [exact G|discriminate C]]|]). exact K8.
Qed.
Print Assumptions C105_final.

(** C106. In an untroubled run the exit statuses of the commands decide everything. *)
Theorem C106_results : forall glob cx rhooks conf wf sh0 ops s tr, NoDup (keys (wf_jobs wf)) ->
  sysrun (builtin cx rhooks conf) glob cx wf sh0 ops s tr -> unraised sh0 -> untroubled ops ->
  forall k r, In (k, r) (received (flow_of (builtin cx rhooks conf) tr)) ->
  jr_state r <> Cancelled /\
  exists i, nth_error (started (flow_of (builtin cx rhooks conf) tr)) i = Some k /\ forall x, In x (jr_steps r) -> sr_state x = Skipped \/ exit_of ops i x.
Proof.
  intros glob cx rhooks conf wf sh0 ops s tr Hnd Hr U (Q1 & Q2) k r Hin.
  destruct (hush cx rhooks conf glob wf _ _ _ _ Hr U Q1 (fun i => proj1 (Q2 i))) as [Hh _].
  destruct (received_ran (hushed cx rhooks conf) glob cx wf (hushed_faithful cx rhooks conf) _ _ _ _ _ _ Hnd Hh Hin) as (i & j & H1 & H2 & H3).
  assert (St : forall x, In x (jr_steps r) -> sr_state x = Skipped \/ exit_of ops i x).
  { apply story_entries in H3 as [[_ ->]|H3]; [intros x []|]. clear - H3 Q2. induction H3 as [|st x l l' H H3 IH]; [intros x []|]. intros y [<-|Hy]; [|auto].
    destruct H as [H|[sevs (iops & sh & x' & itr & K1 & K2 & K3)]]; [left; apply H|right].
    destruct (hushed_hist _ _ _ _ _ _ _ _ _ _ K1) as (ins & L1 & L2 & L3).
    assert (In' : forall o, In o ins -> In (YStep i (LRunner o)) ops) by (intros o Ho; apply (K3 _ (L3 _ Ho))).
    destruct (C99_own_result _ _ _ _ _ _ _ _ _ _ L1 eq_refl L2) as (code & M1 & M2).
    - intros C. apply In' in C. destruct (Q2 i) as (_ & C' & _). auto.
    - intros [C|C]; apply In' in C; destruct (Q2 i) as (_ & _ & C1 & C2); auto.
    - exists code. split; [apply In', M1|exact M2]. }
  split; [|exists i; split; [exact H1|exact St]].
  apply story_state in H3 as [[-> _]|F3]; [discriminate|]. intros Hcc. rewrite Hcc in F3.
  destruct F3 as [[(y & Hy & Hc) _]|[(_ & _ & C)|(_ & C)]]; try discriminate C.
  destruct (St y Hy) as [C|(code & _ & M)]; [congruence|]. unfold exit_result in M. destruct code as [z|]; [destruct (z =? 0)%Z|]; cbn in M; destruct M as [M _]; congruence.
Qed.
Print Assumptions C106_results.

(** In particular: the run fails only if some command failed; if every command that exits does so with status 0, the workflow succeeds (unless its own condition
    skips it) and so does every job that is not skipped by its condition. *)
Theorem C106_outcome : forall glob cx rhooks conf wf sh0 ops s tr r, NoDup (keys (wf_jobs wf)) ->
  sysrun (builtin cx rhooks conf) glob cx wf sh0 ops s tr -> unraised sh0 -> untroubled ops -> ws_main (sy_w s) = WpDone r ->
  (wr_state r = Failed \/ wr_state r = Succeeded \/ (wr_state r = Skipped /\ wr_jobs r = [])) /\
  (wr_state r = Failed <-> exists k x y, In (k, x) (received (flow_of (builtin cx rhooks conf) tr)) /\ In y (jr_steps x) /\ sr_state y = Failed) /\
  ((forall i code, In (YStep i (LRunner (XICmd (CIExit code)))) ops -> code = Some 0%Z) ->
     wr_state r <> Failed /\ forall k x, lookup k (wr_jobs r) = Some x -> jr_state x = Succeeded \/ jr_state x = Skipped).
Proof.
  intros glob cx rhooks conf wf sh0 ops s tr r Hnd Hr U Q Em.
  assert (J := C106_results _ _ _ _ _ _ _ _ _ Hnd Hr U Q).
  assert (JS := fun k x => C105_results glob cx rhooks conf wf sh0 ops s tr k x Hnd Hr). cbv zeta in JS.
  destruct (C105_engine _ _ _ _ _ _ _ _ _ Hr) as (wls & W & _). set (evs := flow_of (builtin cx rhooks conf) tr) in *.
  assert (JF : forall k x, In (k, x) (received evs) -> (jr_state x = Failed <-> exists y, In y (jr_steps x) /\ sr_state y = Failed) /\ (jr_state x = Failed \/ jr_state x = Succeeded \/ jr_state x = Skipped)).
  { intros k x Hin. destruct (JS k x Hin) as (i & j & _ & _ & St). destruct (J k x Hin) as (Nc & _).
    apply story_state in St as [[-> ->]|F3].
    - split; [split; [discriminate|intros (y & [] & _)]|auto].
    - destruct F3 as [[_ E]|[(_ & H & E)|(H & E)]]; rewrite E; [congruence| |].
      + split; [|auto]. split; auto.
      + split; [|auto]. split; [discriminate|]. intros (y & Hy & Hf). destruct (H y Hy). congruence. }
  assert (FF : wr_state r = Failed <-> exists k x y, In (k, x) (received evs) /\ In y (jr_steps x) /\ sr_state y = Failed).
  { destruct (C36_final_state _ _ _ _ _ _ _ Hnd W Em) as (_ & [(H1 & _ & H2 & _)|(H1 & H2 & _)]).
    - rewrite H1, H2. split; [discriminate|]. intros (k & x & y & [] & _).
    - split.
      + intros Hf. destruct H1 as [[_ C]|(b & [k x] & a & Hrec & Hbad & _ & Hs)]; [congruence|]. cbn in *.
        assert (Hin : In (k, x) (received evs)) by (rewrite Hrec; apply in_or_app; right; left; reflexivity).
        destruct (JF k x Hin) as [[G _] _]. destruct G as (y & Hy & Hyf); [congruence|]. exists k, x, y. auto.
      + intros (k & x & y & Hin & Hy & Hf). destruct H1 as [[C _]|(b & [k' x'] & a & Hrec & Hbad & _ & Hs)].
        * exfalso. apply (C (k, x) Hin). left. cbn. apply (JF k x Hin). eauto.
        * cbn in *. assert (Hin' : In (k', x') (received evs)) by (rewrite Hrec; apply in_or_app; right; left; reflexivity).
          rewrite Hs. destruct Hbad as [Hb|Hb]; [exact Hb|]. destruct (J k' x' Hin') as (Nc & _). congruence. }
  split; [|split; [exact FF|]].
  - destruct (C36_final_state _ _ _ _ _ _ _ Hnd W Em) as (_ & [(H1 & H1' & _)|(H1 & _)]); [auto|].
    destruct H1 as [[_ H1]|(b & [k x] & a & Hrec & Hbad & _ & Hs)]; [auto|]. cbn in *.
    assert (Hin : In (k, x) (received evs)) by (rewrite Hrec; apply in_or_app; right; left; reflexivity).
    destruct Hbad as [Hb|Hb]; [left; congruence|]. destruct (J k x Hin) as (Nc & _). congruence.
  - intros Z. assert (NF : forall k x y, In (k, x) (received evs) -> In y (jr_steps x) -> sr_state y <> Failed).
    { intros k x y Hin Hy Hf. destruct (J k x Hin) as (_ & i & _ & St). destruct (St y Hy) as [C|(code & Hc & M)]; [congruence|].
      apply Z in Hc as ->. cbn in M. destruct M. congruence. }
    split; [intros C; apply FF in C as (k & x & y & C1 & C2 & C3); eapply NF; eauto|].
    intros k x Hl. destruct (C36_final_state _ _ _ _ _ _ _ Hnd W Em) as (_ & [(_ & Hj & _)|(_ & _ & Hlat)]); [rewrite Hj in Hl; discriminate Hl|].
    apply Hlat, received_latest in Hl. destruct (JF k x Hl) as [[G _] [C|[C|C]]]; auto. destruct (G C) as (y & Hy & Hyf). destruct (NF k x y Hl Hy Hyf).
Qed.
Print Assumptions C106_outcome.

(** Non-vacuity: job b depends on job a; a's command exits with 0, b's with [code]. *)
Definition sys_step (j : string) : step := Step (StepId "w" j 0) None None (Some (ContainerOptions "host/linux" None None)) "make" false [] [] (Duration 60 0).
Definition sys_wf : workflow := Workflow (WorkflowId "w") None None
  [("a", Job (JobId "w" "a") None None [sys_step "a"] [] []); ("b", Job (JobId "w" "b") None None [sys_step "b"] ["a"] [])].
Definition sys_job (i : nat) (code : Z) : list (sysop (iop := lop)) :=
  repeat (YFlow (WTaskOp i JNext)) 6 ++
  map (YStep i) ([LEngine (OpBefore c26_hooks); LEngine OpNext; LEngine OpNext; LEngine OpNext; LEngine OpNext; LEngine OpNext;
   LSpawn; LRunner XIGo; LEngine (OpAnswer true); LRunner (XIFs true); LEngine OpNext; LEngine OpNext; LRunner (XICmd (CISpawn true)); LRunner (XICmd (CIOut (RdLine "hello")))] ++
  [LSender; LRunner (XICmd (CIOut RdEof)); LRunner (XICmd (CIExit (Some code))); LSender; LSender; LEngine OpStream; LEngine OpNext; LEngine OpNext; LEngine OpNext; LEngine OpStream;
   LEngine OpNext; LEngine OpNext; LEngine OpNext; LEngine OpNext]) ++
  repeat (YFlow (WTaskOp i JNext)) 5 ++ [YFlow (WSend i)].
Definition sys_ops (code : Z) : list (sysop (iop := lop)) :=
  repeat (YFlow WMain) 7 ++ sys_job 0 0 ++ repeat (YFlow WMain) 3 ++ sys_job 1 code ++ repeat (YFlow WMain) 4.
Definition sys_sh : shared := Shared 0%N sm_init None.
Lemma sysexec_run {T iop iobs} (R : rside T iop iobs) glob cx wf sh0 more : forall ops s tr s' o, sysrun R glob cx wf sh0 ops s tr -> sysexec R glob cx wf s more = Some (s', o) ->
  sysrun R glob cx wf sh0 (ops ++ more) s' (tr ++ o).
Proof.
  induction more as [|op more IH]; intros ops s tr s' o H E; cbn [sysexec] in E; [injection E as <- <-; rewrite !app_nil_r; exact H|].
  destruct (sysstep R glob cx wf s op) as [[s1 o1]|] eqn:E1; [|discriminate]. destruct (sysexec R glob cx wf s1 more) as [[s2 o2]|] eqn:E2; [|discriminate]. injection E as <- <-.
  change (op :: more) with ([op] ++ more). rewrite !app_assoc. eapply IH; [|exact E2]. eapply sysrun_step; eassumption.
Qed.
Lemma sys_untroubled code : untroubled (sys_ops code).
Proof.
  split.
  - intros e H. exfalso. cbv [sys_ops sys_job app repeat map] in H. cbn [In] in H. repeat (destruct H as [H|H]; [discriminate H|]). exact H.
  - intros i. repeat split; intros H; cbv [sys_ops sys_job app repeat map] in H; cbn [In] in H; repeat (destruct H as [H|H]; [discriminate H|]); exact H.
Qed.
Example C106_nonvacuous : unraised sys_sh /\ untroubled (sys_ops 3) /\
  (exists s tr r, sysrun (builtin c26_cx (fun c => c) loc_conf) (fun _ => None) c26_cx sys_wf sys_sh (sys_ops 3) s tr /\ ws_main (sy_w s) = WpDone r /\ wr_state r = Failed /\
     exists a b, lookup "a" (wr_jobs r) = Some a /\ jr_state a = Succeeded /\ lookup "b" (wr_jobs r) = Some b /\ jr_state b = Failed) /\
  (exists s tr r, sysrun (builtin c26_cx (fun c => c) loc_conf) (fun _ => None) c26_cx sys_wf sys_sh (sys_ops 0) s tr /\ ws_main (sy_w s) = WpDone r /\ wr_state r = Succeeded).
Proof.
  split; [intros [|a] c C; discriminate C|]. split; [apply sys_untroubled|]. split.
  - do 3 eexists. split; [eapply (sysexec_run _ _ _ _ _ (sys_ops 3) [] _ [] _ _ (sysrun_init _ _ _ _ _)); vm_compute; reflexivity|]. split; [reflexivity|]. split; [reflexivity|].
    do 2 eexists. repeat split; reflexivity.
  - do 3 eexists. split; [eapply (sysexec_run _ _ _ _ _ (sys_ops 0) [] _ [] _ _ (sysrun_init _ _ _ _ _)); vm_compute; reflexivity|]. split; reflexivity.
Qed.

(** C107. The same with remote runners. *)
Theorem C107_engine : forall glob cx cl wf sh0 ops s tr, sysrun (distant cx cl) glob cx wf sh0 ops s tr ->
  exists wls, wrun glob cx wf wls (sy_w s) (flow_of (distant cx cl) tr) /\
    (forall o, In (YFlow o) ops -> In o wls) /\ (forall o, In o wls -> In (YFlow o) ops \/ exists i so, o = WTaskOp i (JStep so)).
Proof.
  intros glob cx cl wf sh0 ops s tr Hr. destruct (flow_run _ glob cx wf (distant_faithful cx cl) _ _ _ _ Hr) as (wls & W & H1 & H2).
  exists wls. split; [exact W|]. split; [exact H1|]. intros o Ho. destruct (H2 o Ho) as [K|K]; [left; exact K|right]. destruct o as [| |i [| |so]| |]; try discriminate K. eauto.
Qed.
Print Assumptions C107_engine.
Theorem C107_results : forall glob cx cl wf sh0 ops s tr k r, NoDup (keys (wf_jobs wf)) ->
  sysrun (distant cx cl) glob cx wf sh0 ops s tr -> let evs := flow_of (distant cx cl) tr in In (k, r) (received evs) ->
  exists i j, nth_error (started evs) i = Some k /\ In (k, j) (wf_jobs wf) /\ job_story_with (ran_remotely cx cl ops i) cx j (events_of (Some i) evs) r.
Proof.
  intros glob cx cl wf sh0 ops s tr k r Hnd Hr evs Hin.
  destruct (received_ran _ glob cx wf (distant_faithful cx cl) _ _ _ _ _ _ Hnd Hr Hin) as (i & j & H1 & H2 & H3).
  exists i, j. split; [exact H1|]. split; [exact H2|]. eapply job_story_mono; [|exact H3]. intros st e x. apply ran_is_remote.
Qed.
Print Assumptions C107_results.
(** In the result of a finished run every step entry is a skipped one, a failure because no runner was available, or what the client got from the server. *)
Theorem C107_final : forall glob cx cl wf sh0 ops s tr r k jr, NoDup (keys (wf_jobs wf)) ->
  sysrun (distant cx cl) glob cx wf sh0 ops s tr -> ws_main (sy_w s) = WpDone r -> lookup k (wr_jobs r) = Some jr ->
  exists i j, nth_error (started (flow_of (distant cx cl) tr)) i = Some k /\ In (k, j) (wf_jobs wf) /\
    ((jr_state jr = Skipped /\ jr_steps jr = []) \/
     Forall2 (fun st0 x => skipped_entry st0 x \/
       exists dops sd evs gs t st, dhist cx (S i) (cl (S i)) st0 dops sd evs gs /\ (forall o, In (DRemote o) dops -> In (YStep i (DRemote o)) ops) /\
         ds_step sd = SpDone x /\ ds_task sd = Some t /\ hooked st0 st /\ In (ORun (given cx st)) evs /\
         match dt_remote t with
         | None => mirrors (RFailed 1) x /\ Exec_spec.delivered evs = [log_error "No runner available"]
         | Some rm => remote_run (remote_events dops) rm /\ mirrors (remote_result (remote_events dops)) x /\
             (clean (remote_events dops) -> exists rr, In (RiResult rr) (remote_events dops) /\ mirrors rr x /\ Exec_spec.delivered evs = yielded (remote_events dops))
         end)
       (jb_steps j) (jr_steps jr)).
Proof.
  intros glob cx cl wf sh0 ops s tr r k jr Hnd Hr Em Hl.
  destruct (C107_engine _ _ _ _ _ _ _ _ Hr) as (wls & W & _).
  destruct (C36_final_state _ _ _ _ _ _ _ Hnd W Em) as (_ & [(_ & Hj & _)|(_ & _ & Hlat)]); [rewrite Hj in Hl; discriminate Hl|].
  apply Hlat, received_latest in Hl. destruct (C107_results _ _ _ _ _ _ _ _ _ _ Hnd Hr Hl) as (i & j & H1 & H2 & H3).
  exists i, j. split; [exact H1|]. split; [exact H2|]. apply story_entries in H3 as [H3|H3]; [left; exact H3|right].
  induction H3 as [|st x l l' [H|[sevs H]] H3 IH]; constructor; auto. right.
  destruct H as (dops & sd & gs & Hh & Hd & Ho). destruct (distant_result _ _ _ _ _ _ _ _ _ Hh Hd) as (t & st' & K1 & K2 & K3 & K4).
  exists dops, sd, sevs, gs, t, st'. repeat (split; [first [assumption | intros o Hin; destruct (Ho _ Hin) as [G|(e & C & _)]; [exact G|discriminate C]]|]).
  destruct (dt_remote t) as [rm|] eqn:Rm; [|destruct K4 as (K4 & K5 & _); auto]. cbv zeta in K4. destruct K4 as (K4 & K5 & _).
  split; [exact K4|]. split; [exact K5|]. intros Hc. exact (clean_result _ _ _ _ _ _ _ _ _ _ _ Hh Hd K1 Rm Hc).
Qed.
Print Assumptions C107_final.
Definition rsys_job (i : nat) (rr : run_result) : list (sysop (iop := dop)) :=
  repeat (YFlow (WTaskOp i JNext)) 6 ++
  map (YStep i) ([DEngine (OpBefore c26_hooks); DEngine OpNext; DEngine OpNext; DEngine OpNext; DEngine OpNext; DEngine OpNext;
   DPick [("r", far_runner)] (Some far_runner); DEngine (OpAnswer true); DRemote (RiAnswer None); DEngine OpNext; DEngine OpNext; DRemote (RiLog (log_log "hello")); DRemote RiDeliver; DSender;
   DRemote (RiResult rr); DRemote RiDeliver; DSender; DSender; DEngine OpStream; DEngine OpNext; DEngine OpNext; DEngine OpNext; DEngine OpStream;
   DEngine OpNext; DEngine OpNext; DEngine OpNext; DEngine OpNext]) ++
  repeat (YFlow (WTaskOp i JNext)) 5 ++ [YFlow (WSend i)].
Definition rsys_ops (rr : run_result) : list (sysop (iop := dop)) :=
  repeat (YFlow WMain) 7 ++ rsys_job 0 RSucceeded ++ repeat (YFlow WMain) 3 ++ rsys_job 1 rr ++ repeat (YFlow WMain) 4.
Example C107_nonvacuous : exists s tr r, sysrun (distant c26_cx (fun t => t + 100)) (fun _ => None) c26_cx sys_wf sys_sh (rsys_ops (RFailed 3)) s tr /\ ws_main (sy_w s) = WpDone r /\ wr_state r = Failed /\
  exists a, lookup "a" (wr_jobs r) = Some a /\ jr_state a = Succeeded.
Proof.
  do 3 eexists. split; [eapply (sysexec_run _ _ _ _ _ (rsys_ops (RFailed 3)) [] _ [] _ _ (sysrun_init _ _ _ _ _)); vm_compute; reflexivity|]. split; [reflexivity|]. split; [reflexivity|].
  eexists. split; reflexivity.
Qed.
