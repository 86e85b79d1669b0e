From Verif Require Import Base Types Plugins_model Plugins_spec.

Section P.
Context {W : Type}.
Variable reg unreg : job_id -> W -> W.
Implicit Types (c : exec_context W) (w : W).

Ltac drv := intros plugins; induction plugins as [|p ps IH]; intros x w; cbn; [reflexivity|];
  unfold receive at 2; cbn;
  match goal with |- match ?h with _ => _ end = _ => destruct h as [w' [[]|e]]; cbn; apply IH end.

Lemma drv_state : forall plugins x w, driver_on_state_change W plugins x w = fold_left (fun w r => receive (HState x) r w) plugins w.
Proof. drv. Qed.
Lemma drv_log : forall plugins x w, driver_on_log W plugins x w = fold_left (fun w r => receive (HLog x) r w) plugins w.
Proof. drv. Qed.
Lemma drv_rw : forall plugins x w, driver_on_run_workflow W plugins x w = fold_left (fun w r => receive (HRunWorkflow x) r w) plugins w.
Proof. drv. Qed.
Lemma drv_rj : forall plugins x w, driver_on_run_job W plugins x w = fold_left (fun w r => receive (HRunJob x) r w) plugins w.
Proof. drv. Qed.
Lemma drv_rs : forall plugins x w, driver_on_run_step W plugins x w = fold_left (fun w r => receive (HRunStep x) r w) plugins w.
Proof. drv. Qed.
Lemma drv_wc : forall plugins x w, driver_on_workflow_completed W plugins x w = fold_left (fun w r => receive (HWorkflowCompleted x) r w) plugins w.
Proof. drv. Qed.
Lemma drv_jc : forall plugins x w, driver_on_job_completed W plugins x w = fold_left (fun w r => receive (HJobCompleted x) r w) plugins w.
Proof. drv. Qed.
Lemma drv_sc : forall plugins x w, driver_on_step_completed W plugins x w = fold_left (fun w r => receive (HStepCompleted x) r w) plugins w.
Proof. drv. Qed.

Lemma drv_before : forall plugins st w st' w',
  driver_on_before_run_step W plugins st w = (w', st') <-> passes plugins st w st' w'.
Proof.
  induction plugins as [|p ps IH]; intros st w st' w'; cbn.
  - split; [intros [= <- <-]; constructor|]. intros H; inv H; reflexivity.
  - destruct (on_before_run_step p st w) as [w1 [st1|e]] eqn:E.
    + rewrite IH. split; [intros H; eapply passes_ok; eauto|]. intros H; inv H; congruence.
    + rewrite IH. split; [intros H; eapply passes_err; eauto|]. intros H; inv H; congruence.
Qed.

Lemma passes_app a b st w st' w' :
  passes (a ++ b) st w st' w' <-> exists st1 w1, passes (W := W) a st w st1 w1 /\ passes b st1 w1 st' w'.
Proof.
  revert st w; induction a as [|r a IH]; intros st w; cbn.
  - split; [intros H; exists st, w; split; [constructor|exact H]|]. intros (st1 & w1 & H1 & H2). inv H1; exact H2.
  - split.
    + intros H. inversion H as [|? ? ? ? st1 w1 ? ? E P|? ? ? ? e w1 ? ? E P]; subst;
        apply IH in P as (st2 & w2 & P1 & P2); exists st2, w2; (split; [|exact P2]);
        [eapply passes_ok|eapply passes_err]; eauto.
    + intros (st1 & w1 & H1 & H2).
      inversion H1 as [|? ? ? ? st2 w2 ? ? E P|? ? ? ? e w2 ? ? E P]; subst;
        [eapply passes_ok|eapply passes_err]; eauto; apply IH; eauto.
Qed.

Lemma before_spec c st w st' w' :
  call_on_before_run_step W c st w = (w', st') <-> passes (receivers c) st w st' w'.
Proof.
  unfold call_on_before_run_step, receivers. rewrite passes_app.
  destruct (driver_on_before_run_step W (ec_plugins c) st w) as [w1 st1] eqn:E. apply drv_before in E as Hp.
  assert (U : forall st2 w2, passes (ec_plugins c) st w st2 w2 -> st2 = st1 /\ w2 = w1).
  { intros st2 w2 H. apply drv_before in H. rewrite E in H. injection H as <- <-; auto. }
  destruct (on_before_run_step (ec_runner c) st1 w1) as [w2 [st2|e]] eqn:Er.
  - split.
    + intros [= <- <-]. exists st1, w1. split; [exact Hp|]. eapply passes_ok; [exact Er|constructor].
    + intros (st3 & w3 & H1 & H2). destruct (U _ _ H1) as [-> ->]. inversion H2 as [|? ? ? ? st4 w4 ? ? E4 P4|? ? ? ? e4 w4 ? ? E4 P4]; subst; inv P4; congruence.
  - split.
    + intros [= <- <-]. exists st1, w1. split; [exact Hp|]. eapply passes_err; [exact Er|constructor].
    + intros (st3 & w3 & H1 & H2). destruct (U _ _ H1) as [-> ->]. inversion H2 as [|? ? ? ? st4 w4 ? ? E4 P4|? ? ? ? e4 w4 ? ? E4 P4]; subst; inv P4; congruence.
Qed.
End P.

Lemma recorder_receive n a e w : receive e (recorder n a) w = w ++ [(n, e)].
Proof. destruct e; reflexivity. Qed.

Lemma recorder_fold (answers : list (nat * (hook_event -> result unit))) e w :
  fold_left (fun w r => receive e r w) (map (fun '(n, a) => recorder n a) answers) w
  = w ++ map (fun '(n, _) => (n, e)) answers.
Proof.
  revert w; induction answers as [|[n a] l IH]; intros w; cbn; [rewrite app_nil_r; reflexivity|].
  rewrite IH, recorder_receive, <- app_assoc. reflexivity.
Qed.
