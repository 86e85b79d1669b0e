From Verif Require Import Base Types Signals_model Signals_proof Stream_model Stream_spec Stream_proof Cond_model
  Plugins_model Plugins_spec Plugins_proof Exec_model Exec_spec Step_proof Job_proof Workflow_model Workflow_spec Workflow_proof Workflow_inv
  Runner_model Local_model Local_spec Local_proof Distant_model Distant_spec Distant_proof System_model System_spec System_proof.

Section Y.
Context {T iop iobs : Type}.
Variable R : rside T iop iobs.
Variable glob : glob_oracle.
Variable cx : ectx.
Variable wf : workflow.
Hypothesis F : faithful R cx.

(** The engine's part of an execution of the system is an execution of the workflow. *)
Lemma flow_run sh0 ops s tr : sysrun R glob cx wf sh0 ops s tr ->
  exists wls, wrun glob cx wf wls (sy_w s) (flow_of R tr) /\ (forall o, In (YFlow o) ops -> In o wls) /\ (forall o, In o wls -> In (YFlow o) ops \/ is_step_op o = true).
Proof.
  induction 1 as [|ops s tr op s' o Hr (wls & W & L1 & L2) E]; [exists []; split; [constructor|split; intros o []]|].
  assert (I := sys_inv R glob cx wf F _ _ _ _ Hr).
  assert (Fa : flow_of R (tr ++ o) = flow_of R tr ++ flow_of R o) by apply flow_app. rewrite Fa. clear Fa.
  assert (Mo1 : forall x, In x wls -> In (YFlow x) (ops ++ [op]) \/ is_step_op x = true) by (intros x Hx; destruct (L2 x Hx); [left; apply in_or_app; auto|auto]).
  destruct op as [wo|i io|k io]; cbn [sysstep] in E.
  - destruct (is_step_op wo) eqn:Hs; [discriminate|]. destruct (wstep glob cx wf (sy_w s) wo) as [[w' wtr]|] eqn:Ew; [|discriminate].
    exists (wls ++ [wo]). split; [|split].
    + assert (K : sy_w s' = w' /\ o = map (fun x => (fst x, inl (snd x))) wtr).
      { destruct (step_over (sy_w s) wo) as [[i p]|]; injection E as <- <-; auto. }
      destruct K as [-> ->]. rewrite flow_inl. eapply wrun_step; eassumption.
    + intros x Hx. apply in_app_iff in Hx as [Hx|[[= <-]|[]]]; apply in_or_app; [left; auto|right; left; reflexivity].
    + intros x Hx. apply in_app_iff in Hx as [Hx|[<-|[]]]; [auto|]. left. apply in_or_app; right; left; reflexivity.
  - assert (La : forall x, In (YFlow x) (ops ++ [YStep i io]) -> In (YFlow x) ops) by (intros x Hx; apply in_app_iff in Hx as [Hx|[C|[]]]; [exact Hx|discriminate C]).
    destruct (nth_error (ws_tasks (sy_w s)) i) as [t|] eqn:Et; [|discriminate]. destruct (nth_error (sy_cur s) i) as [x|] eqn:Ex; [|discriminate].
    destruct (tk_phase t) as [| | | | | | | | | |t0 js rs sp rest| | | |] eqn:Ep; try discriminate E.
    destruct (rs_step R (S i) (ws_sh (sy_w s)) sp x io) as [[[[sh' sp'] x'] out]|] eqn:Es; [|discriminate E]. injection E as <- <-. cbn [sy_w].
    rewrite flow_inr. apply F in Es as [(-> & -> & ->)|[sop Es]].
    + exists wls. split; [|split; [intros y Hy; apply L1, La, Hy|exact Mo1]]. cbn [map]. rewrite app_nil_r.
      replace (WState _ _ _ _) with (sy_w s); [exact W|]. destruct (sy_w s) as [a b ts d]. cbn in *. f_equal. symmetry. apply list_set_same. rewrite Et. destruct t; cbn in *; subst; reflexivity.
    + exists (wls ++ [WTaskOp i (JStep sop)]). split; [|split].
      * eapply wrun_step; [exact W|]. cbn [wstep]. rewrite Et, Ep. unfold job_step.
        replace (match sp with SpDone _ => _ | _ => _ end) with (Some (sh', JpStepRun t0 js rs sp' rest, step_events R out)); [reflexivity|].
        destruct sp; rewrite Es; reflexivity.
      * intros y Hy. apply in_or_app; left. apply L1, La, Hy.
      * intros y Hy. apply in_app_iff in Hy as [Hy|[<-|[]]]; [auto|right; reflexivity].
  - assert (La : forall x, In (YFlow x) (ops ++ [YPast k io]) -> In (YFlow x) ops) by (intros x Hx; apply in_app_iff in Hx as [Hx|[C|[]]]; [exact Hx|discriminate C]).
    destruct (nth_error (sy_past s) k) as [[i [[sh p] x]]|] eqn:Ek; [|discriminate].
    destruct (rs_step R (S i) sh p x io) as [[[[sh' p'] x'] out]|] eqn:Es; [|discriminate E]. injection E as <- <-. cbn [sy_w].
    destruct (si_past R cx _ _ _ I _ (nth_error_In _ _ Ek)) as (st & r & iops & os & Hp & _). cbn [fst snd] in Hp. subst p.
    destruct (done_silent R cx F _ _ _ _ _ _ _ _ _ Es) as (_ & _ & Hso). rewrite flow_inr, Hso. cbn [map]. rewrite app_nil_r.
    exists wls. split; [exact W|]. split; [intros y Hy; apply L1, La, Hy|exact Mo1].
Qed.

(** What was received was returned by a task of that job, whose steps were run by the runner. *)
Lemma received_ran sh0 ops s tr k r : NoDup (keys (wf_jobs wf)) -> sysrun R glob cx wf sh0 ops s tr -> In (k, r) (received (flow_of R tr)) ->
  exists i j, nth_error (started (flow_of R tr)) i = Some k /\ In (k, j) (wf_jobs wf) /\ job_story_with (ran R ops i) cx j (events_of (Some i) (flow_of R tr)) r.
Proof.
  intros Hnd Hr Hin. destruct (flow_run _ _ _ _ Hr) as (wls & W & _). destruct (sys_inv R glob cx wf F _ _ _ _ Hr) as [I1 _ _ I4 _].
  destruct (winv glob cx wf Hnd _ _ _ W) as [_ [T1 T2 _ (ord & _ & T4 & _)]].
  assert (K : exists i, Workflow_inv.delivered (ws_tasks (sy_w s)) i (k, r)).
  { assert (H : In (k, r) (received (flow_of R tr) ++ ws_chan (sy_w s))) by (apply in_or_app; left; exact Hin).
    clear - H T4. revert H. induction T4 as [|a b l l' H T4 IH]; [intros []|]. intros [->|H']; eauto. }
  destruct K as (i & t & Ht & Hk & Hp & Hs). exists i, (tk_job t). cbn [fst snd] in *.
  destruct (nth_error (sy_cur s) i) as [x|] eqn:Ex; [|apply nth_error_None in Ex; assert (i < length (ws_tasks (sy_w s))) by (apply nth_error_Some; congruence); lia].
  assert (G := I4 i t x Ht Ex). rewrite Hp in G. split; [|split].
  - rewrite <- T1, nth_error_map, Ht. cbn. congruence.
  - rewrite <- Hk. apply T2. eapply nth_error_In, Ht.
  - exact G.
Qed.

End Y.
