From Verif Require Import Base Types Signals_model Signals_proof Stream_model Stream_spec Stream_proof Cond_model
  Plugins_model Plugins_spec Plugins_proof Exec_model Exec_spec.

Section P.
Variable cx : ectx.
Variable me : task.

Definition ev_run_step (st : step) : obs := OHook (HRunStep (RunEvent st (cm_event (cx_matcher cx)) (cx_payload cx))).
Definition opening (st : step) : list obs := [ev_run_step st; step_state_event (st_id st) Queued; runner_call cx st].
Definition body (st : step) (logs : list workflow_log) : list obs :=
  opening st ++ [step_state_event (st_id st) InProgress] ++ map (fun l => OHook (HLog l)) logs.
Definition strip (l : workflow_log) : log := Log (wl_type l) (wl_message l).
Definition logs_ok (st : step) (logs : list workflow_log) : Prop := forall l, In l logs -> wl_step_id l = st_id st.
Definition drained (ops : list stream_op) : Prop :=
  exists l1 l2, ops = l1 ++ l2 /\ ended l1 /\ got l1 = sent l1 /\ (forall o, In o l2 -> ~ is_spoll o).

Definition outcome (st0 st : step) (s : wf_state) (c : option Z) (tr : list obs) (ops : list stream_op) : Prop :=
  hooked st0 st /\
  ((s = Failed /\ c = Some 1%Z /\ tr = opening st /\ got ops = []) \/
   (exists rr logs, (s, c) = result_state rr /\ stream_output ops SResult = SOResult (Some rr) /\
      logs_ok st logs /\ got ops = map strip logs /\ drained ops /\ tr = body st logs)).

Definition sinv (st0 : step) (ls : list slabel) (sh : shared) (p : step_phase) (tr : list obs) : Prop :=
  let ops := stream_ops me ls in
  match p with
  | SpBefore st => st = st0 /\ tr = [] /\ ops = []
  | SpStarted st => hooked st0 st /\ tr = [] /\ ops = []
  | SpRunEvent st t0 => hooked st0 st /\ (t0 <= sh_now sh)%N /\ tr = [] /\ ops = []
  | SpQueue st t0 => hooked st0 st /\ (t0 <= sh_now sh)%N /\ tr = [ev_run_step st] /\ ops = []
  | SpGetSignal st t0 | SpCall st t0 _ =>
      hooked st0 st /\ (t0 <= sh_now sh)%N /\ tr = [ev_run_step st; step_state_event (st_id st) Queued] /\ ops = []
  | SpCalling st t0 a sg str | SpInProgress st t0 a sg str =>
      hooked st0 st /\ (t0 <= sh_now sh)%N /\ tr = opening st /\ str = stream_after ops /\ got ops = []
  | SpEnter st t0 a sg str =>
      hooked st0 st /\ (t0 <= sh_now sh)%N /\ str = stream_after ops /\
      exists logs, logs_ok st logs /\ got ops = map strip logs /\ tr = body st logs
  | SpLoop st t0 a sg str ti =>
      hooked st0 st /\ (t0 <= ti <= sh_now sh)%N /\ str = stream_after ops /\
      exists logs, logs_ok st logs /\ got ops = map strip logs /\ tr = body st logs
  | SpGotLog st t0 a sg str l =>
      hooked st0 st /\ (t0 <= sh_now sh)%N /\ str = stream_after ops /\
      exists logs, logs_ok st logs /\ got ops = map strip logs ++ [l] /\ tr = body st logs
  | SpDeliver st t0 a sg str wl =>
      hooked st0 st /\ (t0 <= sh_now sh)%N /\ str = stream_after ops /\ wl_step_id wl = st_id st /\
      exists logs, logs_ok st logs /\ got ops = map strip logs ++ [strip wl] /\ tr = body st logs
  | SpBroken st t0 a sg str =>
      hooked st0 st /\ (t0 <= sh_now sh)%N /\ str = stream_after ops /\ drained ops /\
      exists logs, logs_ok st logs /\ got ops = map strip logs /\ tr = body st logs
  | SpEnded st t0 s c => (t0 <= sh_now sh)%N /\ outcome st0 st s c tr ops
  | SpTerminal r =>
      exists st t0 t1, sr_id r = st_id st /\ sr_started_at r = Some t0 /\ sr_completed_at r = Some t1 /\ (t0 <= t1)%N /\
        outcome st0 st (sr_state r) (sr_exit_code r) tr ops
  | SpComplete r =>
      exists st t0 t1 tr', sr_id r = st_id st /\ sr_started_at r = Some t0 /\ sr_completed_at r = Some t1 /\ (t0 <= t1)%N /\
        tr = tr' ++ [step_state_event (sr_id r) (sr_state r)] /\ outcome st0 st (sr_state r) (sr_exit_code r) tr' ops
  | SpDone r =>
      exists st t0 t1 tr', sr_id r = st_id st /\ sr_started_at r = Some t0 /\ sr_completed_at r = Some t1 /\ (t0 <= t1)%N /\
        tr = tr' ++ [step_state_event (sr_id r) (sr_state r); OHook (HStepCompleted r)] /\
        outcome st0 st (sr_state r) (sr_exit_code r) tr' ops
  | SpPanic PMissingSignal =>
      exists st, hooked st0 st /\ tr = [ev_run_step st; step_state_event (st_id st) Queued] /\ ops = []
  | SpPanic PMissingResult => False
  end.

Lemma stream_ops_app a b : stream_ops me (a ++ b) = stream_ops me a ++ stream_ops me b.
Proof.
  induction a as [|[[| | | | | |o]|] a IH]; cbn; auto; [rewrite IH; reflexivity|].
  rewrite IH, app_assoc. reflexivity.
Qed.

Lemma runner_op_not_poll o so : runner_stream_op o = Some so -> ~ is_spoll so.
Proof. intros H [t ->]. destruct o; cbn in H; discriminate. Qed.

Lemma got_runner ops so : ~ is_spoll so -> got (ops ++ [so]) = got ops.
Proof.
  intros H. rewrite got_snoc. unfold stream_output. destruct so as [m|m|c r|c|t| |]; cbn; try (rewrite app_nil_r; reflexivity).
  - destruct (stream_end_commit c (stream_after ops)); rewrite ?app_nil_r; reflexivity.
  - exfalso; apply H; eexists; reflexivity.
Qed.

Lemma runner_step_spec o sg ls sg' str' : runner_step o sg (stream_after (stream_ops me ls)) = (sg', str') ->
  str' = stream_after (stream_ops me (ls ++ [SOwn (OpRunner o)])) /\
  got (stream_ops me (ls ++ [SOwn (OpRunner o)])) = got (stream_ops me ls).
Proof.
  rewrite stream_ops_app. cbn. rewrite app_nil_r.
  destruct (runner_stream_op o) as [so|] eqn:E.
  - intros H. assert (str' = fst (stream_step (stream_after (stream_ops me ls)) so)) as ->.
    { destruct o; cbn in E; inv E; cbn in H |- *; congruence. }
    rewrite stream_after_snoc. split; [reflexivity|]. apply got_runner. eapply runner_op_not_poll; eauto.
  - rewrite app_nil_r. destruct o; cbn in E; try discriminate. cbn. intros [= <- <-]. auto.
Qed.

Lemma drained_runner ls o : drained (stream_ops me ls) -> drained (stream_ops me (ls ++ [SOwn (OpRunner o)])).
Proof.
  intros (l1 & l2 & E & H1 & H2 & H3). rewrite stream_ops_app. cbn. rewrite app_nil_r.
  exists l1, (l2 ++ match runner_stream_op o with Some so => [so] | None => [] end).
  rewrite E, app_assoc. split; [reflexivity|]. split; [exact H1|]. split; [exact H2|].
  intros x Hx. apply in_app_iff in Hx as [Hx|Hx]; [auto|].
  destruct (runner_stream_op o) eqn:Eo; [|destruct Hx]. destruct Hx as [<-|[]]. eapply runner_op_not_poll; eauto.
Qed.

Lemma stream_ops_other ls l : (forall so, stream_ops me [l] <> [so]) -> stream_ops me (ls ++ [l]) = stream_ops me ls.
Proof.
  intros H. rewrite stream_ops_app. destruct l as [[| | | | | |o]|]; cbn in *; rewrite ?app_nil_r; try reflexivity.
  - exfalso; eapply H; reflexivity.
  - destruct (runner_stream_op o); [exfalso; eapply H; reflexivity|]. rewrite app_nil_r; reflexivity.
Qed.

Lemma got_nil : got [] = [].
Proof. reflexivity. Qed.

Lemma env_now sh e : (sh_now sh <= sh_now (env_step sh e))%N.
Proof. destruct e; cbn; lia. Qed.

Lemma sinv_env st0 ls sh p tr e : sinv st0 ls sh p tr -> sinv st0 (ls ++ [SEnv e]) (env_step sh e) p tr.
Proof.
  unfold sinv. rewrite stream_ops_other by (cbn; discriminate). assert (H := env_now sh e).
  destruct p as [| | | | | | | | | | | | | | | | |[]]; intuition; lia.
Qed.

Lemma hooked_before c st : hooked st (snd (call_on_before_run_step unit c st tt)).
Proof.
  destruct (call_on_before_run_step unit c st tt) as [[] st'] eqn:E. apply before_spec in E. exists c; exact E.
Qed.

Lemma poll_now sh sm : sh_now (set_sm sm sh) = sh_now sh.
Proof. reflexivity. Qed.

Lemma stream_output_result ops rr : ss_result (stream_after ops) = Some rr -> stream_output ops SResult = SOResult (Some rr).
Proof. intros H. unfold stream_output; cbn. congruence. Qed.

Lemma drained_ended ops : drained ops -> ended ops.
Proof.
  intros (l1 & l2 & -> & H & _). revert H. induction l2 as [|o l2 IH] using rev_ind; [rewrite app_nil_r; auto|].
  intros H. rewrite app_assoc. apply ended_mono. auto.
Qed.

Lemma drained_got ops : drained ops -> exists l1 l2, ops = l1 ++ l2 /\ ended l1 /\ (forall o, In o l2 -> ~ is_spoll o) /\ got ops = sent l1.
Proof.
  intros (l1 & l2 & -> & H1 & H2 & H3). exists l1, l2. split; [reflexivity|]. split; [exact H1|]. split; [exact H3|].
  rewrite <- H2. clear H1 H2. revert H3. induction l2 as [|o l2 IH] using rev_ind; intros H3; [rewrite app_nil_r; reflexivity|].
  rewrite app_assoc, got_runner; [|apply H3, in_or_app; right; left; reflexivity].
  apply IH. intros x Hx; apply H3, in_or_app; left; exact Hx.
Qed.

Lemma poll_cases ops (str' : stream_state) out w : stream_poll me (stream_after ops) = (str', out, w) ->
  str' = stream_after (ops ++ [SPoll me]) /\
  match out with
  | PItem l => got (ops ++ [SPoll me]) = got ops ++ [l]
  | PEnd => got (ops ++ [SPoll me]) = got ops /\ ended (ops ++ [SPoll me]) /\ got (ops ++ [SPoll me]) = sent (ops ++ [SPoll me])
  | PPending => got (ops ++ [SPoll me]) = got ops
  end.
Proof.
  intros E. assert (Es : stream_step (stream_after ops) (SPoll me) = (str', SOPolled out)) by (cbn; rewrite E; reflexivity).
  rewrite stream_after_snoc, Es. split; [reflexivity|].
  assert (Eo : stream_output ops (SPoll me) = SOPolled out) by (unfold stream_output; rewrite Es; reflexivity).
  rewrite got_snoc, Eo. destruct out; [reflexivity| |apply app_nil_r].
  rewrite app_nil_r. split; [reflexivity|].
  destruct (poll_outcome ops me) as (_ & H & _). apply H in Eo as [H1 H2].
  split; [apply ended_mono; exact H2|]. rewrite sent_app. cbn. rewrite app_nil_r. exact H1.
Qed.

Lemma sinv_step st0 ls sh p tr op sh' p' o :
  sinv st0 ls sh p tr -> step_step cx me sh p op = Some (sh', p', o) -> sinv st0 (ls ++ [SOwn op]) sh' p' (tr ++ o).
Proof.
  intros I E. unfold step_step in E.
  destruct p as [st|st|st t0|st t0|st t0|st t0 a|st t0 a sg str|st t0 a sg str|st t0 a sg str|st t0 a sg str ti|st t0 a sg str l
    |st t0 a sg str wl|st t0 a sg str|st t0 s c|r|r|r|w]; destruct op as [|c'|ok| | | |ro]; try discriminate E;
  try (unfold sinv in I |- *; rewrite stream_ops_other by (cbn; discriminate)).
  - injection E as <- <- <-. destruct I as (-> & -> & I). split; [apply hooked_before|auto].
  - injection E as <- <- <-. destruct I as (H & -> & I). repeat split; auto. lia.
  - injection E as <- <- <-. destruct I as (H & Ht & -> & I). auto.
  - injection E as <- <- <-. destruct I as (H & Ht & -> & I). auto.
  - destruct I as (H & Ht & -> & I). destruct (lookup _ _); injection E as <- <- <-; [auto|]. exists st; auto.
  - injection E as <- <- <-. destruct I as (H & Ht & -> & I). rewrite I. auto.
  - destruct I as (H & Ht & -> & Hs & Hg). destruct ok; injection E as <- <- <-; rewrite app_nil_r.
    + auto.
    + split; [exact Ht|]. split; [exact H|]. left; auto.
  - (* runner op in SpCalling *)
    destruct I as (H & Ht & -> & Hs & Hg). destruct (runner_step ro sg str) as [sg' str'] eqn:Er. rewrite Hs in Er.
    apply runner_step_spec in Er as [E1 E2]. injection E as <- <- <-. unfold sinv. rewrite E2, app_nil_r. auto.
  - injection E as <- <- <-. destruct I as (H & Ht & -> & Hs & Hg). split; [exact H|]. split; [exact Ht|]. split; [exact Hs|].
    exists []. split; [intros ? []|]. split; [exact Hg|reflexivity].
  - destruct I as (H & Ht & -> & Hs & Hg). destruct (runner_step ro sg str) as [sg' str'] eqn:Er. rewrite Hs in Er.
    apply runner_step_spec in Er as [E1 E2]. injection E as <- <- <-. unfold sinv. rewrite E2, app_nil_r. auto.
  - injection E as <- <- <-. rewrite app_nil_r. destruct I as (H & Ht & I). split; [exact H|]. split; [lia|exact I].
  - destruct I as (H & Ht & Hs & logs & Hl & Hg & Htr). destruct (runner_step ro sg str) as [sg' str'] eqn:Er. rewrite Hs in Er.
    apply runner_step_spec in Er as [E1 E2]. injection E as <- <- <-. unfold sinv. rewrite E2, app_nil_r. eauto 10.
  - destruct I as (H & Ht & I). destruct (_ <=? _)%N; [|discriminate]. injection E as <- <- <-. rewrite app_nil_r.
    split; [exact H|]. split; [lia|exact I].
  - destruct I as (H & Ht & I). destruct (sm_step _ _) as [sm' [| | |so|]]; try discriminate.
    destruct so as [| |[s|]]; try discriminate; injection E as <- <- <-; rewrite app_nil_r, ?poll_now; (split; [exact H|]).
    + split; [lia|exact I].
    + auto.
  - destruct I as (H & Ht & Hs & logs & Hl & Hg & Htr). unfold sinv. rewrite stream_ops_app. cbn [stream_ops].
    destruct (stream_poll me str) as [[str' out] w] eqn:Ep. rewrite Hs in Ep. apply poll_cases in Ep as [E1 E2].
    destruct out; injection E as <- <- <-; rewrite app_nil_r.
    + split; [exact H|]. split; [lia|]. split; [exact E1|]. exists logs. rewrite E2, Hg. auto.
    + destruct E2 as (E2 & E3 & E4). split; [exact H|]. split; [lia|]. split; [exact E1|]. split.
      * exists (stream_ops me ls ++ [SPoll me]), []. rewrite app_nil_r. repeat split; auto.
      * exists logs. rewrite E2. auto.
    + split; [exact H|]. split; [exact Ht|]. split; [exact E1|]. exists logs. rewrite E2. auto.
  - destruct I as (H & Ht & Hs & logs & Hl & Hg & Htr). destruct (runner_step ro sg str) as [sg' str'] eqn:Er. rewrite Hs in Er.
    apply runner_step_spec in Er as [E1 E2]. injection E as <- <- <-. unfold sinv. rewrite E2, app_nil_r. eauto 10.
  - injection E as <- <- <-. rewrite app_nil_r. destruct I as (H & Ht & Hs & logs & Hl & Hg & Htr).
    split; [exact H|]. split; [exact Ht|]. split; [exact Hs|]. split; [reflexivity|]. exists logs. rewrite Hg. destruct l; auto.
  - destruct I as (H & Ht & Hs & logs & Hl & Hg & Htr). destruct (runner_step ro sg str) as [sg' str'] eqn:Er. rewrite Hs in Er.
    apply runner_step_spec in Er as [E1 E2]. injection E as <- <- <-. unfold sinv. rewrite E2, app_nil_r. eauto 10.
  - injection E as <- <- <-. destruct I as (H & Ht & Hs & Hid & logs & Hl & Hg & Htr).
    split; [exact H|]. split; [exact Ht|]. split; [exact Hs|]. exists (logs ++ [wl]). split.
    + intros x Hx. apply in_app_iff in Hx as [Hx|[<-|[]]]; auto.
    + rewrite map_app. split; [exact Hg|]. rewrite Htr. unfold body. rewrite map_app, <- !app_assoc. reflexivity.
  - destruct I as (H & Ht & Hs & Hid & logs & Hl & Hg & Htr). destruct (runner_step ro sg str) as [sg' str'] eqn:Er. rewrite Hs in Er.
    apply runner_step_spec in Er as [E1 E2]. injection E as <- <- <-. unfold sinv. rewrite E2, app_nil_r. eauto 12.
  - destruct I as (H & Ht & Hs & Hd & logs & Hl & Hg & Htr). apply drained_ended in Hd as He. apply ended_iff in He.
    rewrite Hs in E. destruct (ss_result (stream_after (stream_ops me ls))) as [rr|] eqn:Err; [|congruence].
    injection E as <- <- <-. rewrite app_nil_r. split; [exact Ht|]. split; [exact H|]. right. exists rr, logs.
    split; [destruct rr; reflexivity|]. split; [apply stream_output_result; exact Err|]. auto.
  - destruct I as (H & Ht & Hs & Hd & logs & Hl & Hg & Htr). destruct (runner_step ro sg str) as [sg' str'] eqn:Er. rewrite Hs in Er.
    apply runner_step_spec in Er as [E1 E2]. injection E as <- <- <-. unfold sinv. rewrite E2, app_nil_r.
    apply (drained_runner ls ro) in Hd. eauto 12.
  - injection E as <- <- <-. rewrite app_nil_r. destruct I as (Ht & I). exists st, t0, (sh_now sh). cbn. auto.
  - injection E as <- <- <-. destruct I as (st & t0 & t1 & H1 & H2 & H3 & H4 & I). exists st, t0, t1, tr. auto 10.
  - injection E as <- <- <-. destruct I as (st & t0 & t1 & tr' & H1 & H2 & H3 & H4 & -> & I). exists st, t0, t1, tr'.
    rewrite <- app_assoc. auto 10.
Qed.

Lemma srun_inv st0 ls sh p tr : srun cx me st0 ls sh p tr -> sinv st0 ls sh p tr.
Proof.
  induction 1; [cbn; auto|eapply sinv_step; eauto|apply sinv_env; assumption].
Qed.

Lemma delivered_app a b : delivered (a ++ b) = delivered a ++ delivered b.
Proof. induction a as [|[[]| | | |] a IH]; cbn; congruence. Qed.
Lemma delivered_logs logs : delivered (map (fun l => OHook (HLog l)) logs) = map strip logs.
Proof. induction logs; cbn; [reflexivity|f_equal; assumption]. Qed.

Lemma result_mirrors rr s c r : (s, c) = result_state rr -> s = sr_state r -> c = sr_exit_code r -> mirrors rr r.
Proof. destruct rr; cbn; intros [= -> ->] <- <-; auto. Qed.

Lemma outcome_story st0 st tr ops r t0 t1 :
  outcome st0 st (sr_state r) (sr_exit_code r) tr ops ->
  sr_id r = st_id st -> sr_started_at r = Some t0 -> sr_completed_at r = Some t1 -> (t0 <= t1)%N ->
  step_story cx st0 (tr ++ [step_state_event (sr_id r) (sr_state r); OHook (HStepCompleted r)]) r.
Proof.
  intros [H O] H1 H2 H3 H4. exists st, t0, t1. rewrite H1. repeat split; auto.
  destruct O as [(O1 & O2 & -> & _)|(rr & logs & O1 & O2 & O3 & O4 & O5 & ->)].
  - left. rewrite O1, O2. auto.
  - right. exists rr, logs. split; [eapply result_mirrors; eauto|]. split; [exact O3|].
    unfold body. rewrite <- !app_assoc. reflexivity.
Qed.

(** C23: a completed step's events form a story. *)
Lemma step_done_story st0 ls sh r tr : srun cx me st0 ls sh (SpDone r) tr -> step_story cx st0 tr r.
Proof.
  intros H. apply srun_inv in H. cbn in H. destruct H as (st & t0 & t1 & tr' & H1 & H2 & H3 & H4 & -> & O).
  eapply outcome_story; eauto.
Qed.

Definition ex_result (st : step) (s : wf_state) (c : option Z) (t : time) : step_run_result :=
  StepRunResult (st_id st) s c (Some t) (Some t).

Lemma body_story st0 st logs : hooked st0 st -> logs_ok st logs ->
  exists tail r, step_story cx st0 (body st logs ++ tail) r.
Proof.
  intros H Hl. exists [step_state_event (st_id st) Succeeded; OHook (HStepCompleted (ex_result st Succeeded None 0%N))],
    (ex_result st Succeeded None 0%N).
  exists st, 0%N, 0%N. split; [exact H|]. split; [reflexivity|]. split; [reflexivity|]. split; [reflexivity|]. split; [lia|].
  right. exists RSucceeded, logs. split; [split; reflexivity|]. split; [exact Hl|]. unfold body. rewrite <- !app_assoc. reflexivity.
Qed.

Lemma opening_story st0 st : hooked st0 st -> exists tail r, step_story cx st0 (opening st ++ tail) r.
Proof.
  intros H. destruct (body_story st0 st [] H) as (tail & r & S); [intros ? []|].
  exists (step_state_event (st_id st) InProgress :: tail), r. unfold body in S. cbn in *. exact S.
Qed.

(** C23: at any time the events so far are the beginning of a story. *)
Lemma step_prefix_story st0 ls sh p tr : srun cx me st0 ls sh p tr -> exists tail r, step_story cx st0 (tr ++ tail) r.
Proof.
  assert (HH : hooked st0 st0).
  { destruct (call_on_before_run_step unit
      (ExecContext [] (Receiver (fun _ w => (w, Ok tt)) (fun _ w => (w, Ok tt)) (fun _ w => (w, Ok tt)) (fun _ w => (w, Ok tt))
         (fun _ w => (w, Ok tt)) (fun _ w => (w, Ok tt)) (fun _ w => (w, Ok tt)) (fun _ w => (w, Ok tt)) (fun st w => (w, Ok st))) None None)
      st0 tt) as [[] st'] eqn:E.
    assert (st' = st0) as -> by (cbn in E; congruence). apply before_spec in E. eexists; exact E. }
  assert (P0 : exists tail r, step_story cx st0 tail r).
  { destruct (opening_story st0 st0 HH) as (tail & r & S). eauto. }
  intros R. apply srun_inv in R as I.
  destruct p as [st|st|st t0|st t0|st t0|st t0 a|st t0 a sg str|st t0 a sg str|st t0 a sg str|st t0 a sg str ti|st t0 a sg str l
    |st t0 a sg str wl|st t0 a sg str|st t0 s c|r|r|r|[]]; cbn in I.
  - destruct I as (_ & -> & _). exact P0.
  - destruct I as (_ & -> & _). exact P0.
  - destruct I as (_ & _ & -> & _). exact P0.
  - destruct I as (H & _ & -> & _). destruct (opening_story _ _ H) as (tail & r & S). do 2 eexists; exact S.
  - destruct I as (H & _ & -> & _). destruct (opening_story _ _ H) as (tail & r & S). do 2 eexists; exact S.
  - destruct I as (H & _ & -> & _). destruct (opening_story _ _ H) as (tail & r & S). do 2 eexists; exact S.
  - destruct I as (H & _ & -> & _). apply opening_story, H.
  - destruct I as (H & _ & -> & _). apply opening_story, H.
  - destruct I as (H & _ & _ & logs & Hl & _ & ->). apply body_story; assumption.
  - destruct I as (H & _ & _ & logs & Hl & _ & ->). apply body_story; assumption.
  - destruct I as (H & _ & _ & logs & Hl & _ & ->). apply body_story; assumption.
  - destruct I as (H & _ & _ & _ & logs & Hl & _ & ->). apply body_story; assumption.
  - destruct I as (H & _ & _ & _ & logs & Hl & _ & ->). apply body_story; assumption.
  - destruct I as (Ht & O).
    exists [step_state_event (st_id st) s; OHook (HStepCompleted (ex_result st s c 0%N))], (ex_result st s c 0%N).
    change (st_id st) with (sr_id (ex_result st s c 0%N)) at 1. change s with (sr_state (ex_result st s c 0%N)) at 2.
    eapply outcome_story with (t0 := 0%N) (t1 := 0%N); try reflexivity. exact O.
  - destruct I as (st & t0 & t1 & H1 & H2 & H3 & H4 & O).
    exists [step_state_event (sr_id r) (sr_state r); OHook (HStepCompleted r)], r. eapply outcome_story; eauto.
  - destruct I as (st & t0 & t1 & tr' & H1 & H2 & H3 & H4 & -> & O).
    exists [OHook (HStepCompleted r)], r. rewrite <- app_assoc. cbn. eapply outcome_story; eauto.
  - destruct I as (st & t0 & t1 & tr' & H1 & H2 & H3 & H4 & -> & O). exists [], r. rewrite app_nil_r. eapply outcome_story; eauto.
  - destruct I as (st & H & -> & _). destruct (opening_story _ _ H) as (tail & r & S). do 2 eexists; exact S.
  - destruct I.
Qed.

(** C24, C25 *)
Lemma step_logs st0 ls sh r tr : srun cx me st0 ls sh (SpDone r) tr ->
  let ops := stream_ops me ls in
  (sr_state r = Failed /\ sr_exit_code r = Some 1%Z /\ delivered tr = [] /\ ~ In (OHook (HState (StepStateUpdated (sr_id r) InProgress))) tr) \/
  (exists rr l1 l2, ops = l1 ++ l2 /\ ended l1 /\ (forall o, In o l2 -> ~ is_spoll o) /\ delivered tr = sent l1 /\
     stream_output ops SResult = SOResult (Some rr) /\ mirrors rr r /\ In (OHook (HState (StepStateUpdated (sr_id r) InProgress))) tr).
Proof.
  intros H ops. apply srun_inv in H. cbn in H. destruct H as (st & t0 & t1 & tr' & H1 & H2 & H3 & H4 & -> & H & O).
  destruct O as [(O1 & O2 & -> & _)|(rr & logs & O1 & O2 & O3 & O4 & O5 & ->)].
  - left. split; [exact O1|]. split; [exact O2|]. split; [reflexivity|]. rewrite O1, H1. cbn.
    intros [C|[C|[C|[C|[C|[]]]]]]; discriminate C.
  - right. apply drained_got in O5 as (l1 & l2 & E1 & E2 & E3 & E4). exists rr, l1, l2. split; [exact E1|]. split; [exact E2|].
    split; [exact E3|]. split.
    + rewrite delivered_app. unfold body. rewrite !delivered_app, delivered_logs. cbn. rewrite app_nil_r. rewrite <- E4. congruence.
    + split; [exact O2|]. split; [eapply result_mirrors; eauto|]. rewrite H1. apply in_or_app; left. unfold body. cbn. auto.
Qed.

Lemma no_missing_result st0 ls sh tr : ~ srun cx me st0 ls sh (SpPanic PMissingResult) tr.
Proof. intros H. apply srun_inv in H. exact H. Qed.

End P.
