(** C23-C27: one step. Executions [srun cx me st0 ls sh p tr] range over every behaviour of the hooks, of the runner
    (logs, errors, end calls, use of the signal, refusal), of the clock, of other users of the signal registry and of
    the scheduler; [tr] is everything observable so far, [SpDone r] means that the call returned [r]. *)
From Verif Require Import Base Types Signals_model Signals_spec Signals_proof Stream_model Stream_spec Stream_proof Cond_model
  Plugins_model Plugins_spec Plugins_proof Exec_model Exec_spec Step_proof Timing_proof.

(** C23: when the call has returned, the events are exactly the story of the step. *)
Theorem C23_step_life_cycle : forall cx me st0 ls sh r tr,
  srun cx me st0 ls sh (SpDone r) tr -> step_story cx st0 tr r.
Proof. exact step_done_story. Qed.
Print Assumptions C23_step_life_cycle.

(** Nothing follows. *)
Theorem C23_nothing_follows : forall cx me sh r op, step_step cx me sh (SpDone r) op = None.
Proof. intros cx me sh r op; destruct op; reflexivity. Qed.
Print Assumptions C23_nothing_follows.

(** At every moment, crash points included, what has been emitted is the beginning of such a story. *)
Theorem C23_step_life_cycle_prefix : forall cx me st0 ls sh p tr,
  srun cx me st0 ls sh p tr -> exists tail r, step_story cx st0 (tr ++ tail) r.
Proof. exact step_prefix_story. Qed.
Print Assumptions C23_step_life_cycle_prefix.

(** C24: the delivered logs are the logs read, every log sent before the stream ended is among them, in order, and
    all carry the step's id. If the runner refused, nothing was read. *)
Theorem C24_logs : forall cx me st0 ls sh r tr, srun cx me st0 ls sh (SpDone r) tr ->
  let ops := stream_ops me ls in
  delivered tr = got ops /\
  (In (step_state_event (sr_id r) InProgress) tr ->
   forall before after, ops = before ++ after -> ~ ended before -> exists more, delivered tr = sent before ++ more) /\
  (forall l, In (OHook (HLog l)) tr -> wl_step_id l = sr_id r).
Proof.
  intros cx me st0 ls sh r tr R ops.
  assert (LI : forall l, In (OHook (HLog l)) tr -> wl_step_id l = sr_id r).
  { apply step_done_story in R. destruct R as (st & t0 & t1 & _ & Hid & _ & _ & _ & [(_ & _ & ->)|(rr & logs & _ & Hl & ->)]); intros l Hin; rewrite Hid.
    - cbn in Hin. repeat (destruct Hin as [Hin|Hin]; [discriminate Hin|]). destruct Hin.
    - cbn in Hin. repeat (destruct Hin as [Hin|Hin]; [discriminate Hin|]). apply in_app_iff in Hin as [Hin|Hin].
      + apply in_map_iff in Hin as (x & [= <-] & Hx). apply Hl, Hx.
      + cbn in Hin. repeat (destruct Hin as [Hin|Hin]; [discriminate Hin|]). destruct Hin. }
  apply srun_inv in R as Iv. cbn in Iv. destruct Iv as (st & t0 & t1 & tr' & H1 & H2 & H3 & H4 & Etr & H & O). fold ops in O.
  destruct O as [(O1 & O2 & E' & O4)|(rr & logs & O1 & O2 & O3 & O4 & O5 & E')].
  - split; [rewrite O4, Etr, E'; reflexivity|]. split; [|exact LI].
    intros Hin. exfalso. rewrite Etr, E', H1, O1 in Hin. cbn in Hin.
    repeat (destruct Hin as [Hin|Hin]; [discriminate Hin|]). destruct Hin.
  - assert (D : delivered tr = got ops).
    { rewrite Etr, delivered_app, E'. unfold body. rewrite !delivered_app, delivered_logs. cbn. rewrite app_nil_r. congruence. }
    split; [exact D|]. split; [|exact LI]. intros _ before after E Hne.
    apply drained_got in O5 as (l1 & l2 & E1 & E2 & E3 & E4). rewrite D, E4.
    rewrite E in E1. assert (P : exists x, l1 = before ++ x).
    { clear - E1 E2 Hne. revert after Hne l1 E1 E2. induction before as [|b before IH] using rev_ind; intros after Hne l1 E1 E2; [exists l1; reflexivity|].
      rewrite <- app_assoc in E1. assert (Hb : ~ ended before) by (intros C; apply Hne, ended_mono, C).
      destruct (IH _ Hb l1 E1 E2) as [x ->].
      destruct x as [|y x].
      - exfalso. apply Hne. rewrite app_nil_r in E2. apply ended_mono, E2.
      - rewrite <- app_assoc in E1. apply app_inv_head in E1. cbn in E1. injection E1 as <- _. exists x. rewrite <- app_assoc. reflexivity. }
    destruct P as [x ->]. rewrite sent_app. eauto.
Qed.
Print Assumptions C24_logs.

(** While the step runs, what has been delivered is a beginning of what was sent. *)
Theorem C24_logs_prefix : forall cx me st0 ls sh p tr, srun cx me st0 ls sh p tr ->
  exists more, sent (stream_ops me ls) = delivered tr ++ more.
Proof.
  intros cx me st0 ls sh p tr R.
  assert (G : exists more, got (stream_ops me ls) = delivered tr ++ more).
  { apply srun_inv in R.
    assert (OO : forall st s c tr0 ops, outcome cx st0 st s c tr0 ops -> got ops = delivered tr0).
    { intros st s c tr0 ops (_ & [(_ & _ & -> & ->)|(rr & logs & _ & _ & _ & -> & _ & ->)]); [reflexivity|].
      unfold body. rewrite !delivered_app, delivered_logs. reflexivity. }
    assert (BB : forall st logs, delivered (body cx st logs) = map strip logs).
    { intros st logs. unfold body. rewrite !delivered_app, delivered_logs. reflexivity. }
    destruct p as [st|st|st t0|st t0|st t0|st t0 a|st t0 a sg str|st t0 a sg str|st t0 a sg str|st t0 a sg str ti|st t0 a sg str l
      |st t0 a sg str wl|st t0 a sg str|st t0 s c|r|r|r|[]]; unfold sinv in R; cbv zeta in R.
    - destruct R as (_ & -> & ->). exists []; reflexivity.
    - destruct R as (_ & -> & ->). exists []; reflexivity.
    - destruct R as (_ & _ & -> & ->). exists []; reflexivity.
    - destruct R as (_ & _ & -> & ->). exists []; reflexivity.
    - destruct R as (_ & _ & -> & ->). exists []; reflexivity.
    - destruct R as (_ & _ & -> & ->). exists []; reflexivity.
    - destruct R as (_ & _ & -> & _ & ->). exists []; reflexivity.
    - destruct R as (_ & _ & -> & _ & ->). exists []; reflexivity.
    - destruct R as (_ & _ & _ & logs & _ & HG & ->). rewrite HG, BB. exists []. rewrite app_nil_r; reflexivity.
    - destruct R as (_ & _ & _ & logs & _ & HG & ->). rewrite HG, BB. exists []. rewrite app_nil_r; reflexivity.
    - destruct R as (_ & _ & _ & logs & _ & HG & ->). rewrite HG, BB. eauto.
    - destruct R as (_ & _ & _ & _ & logs & _ & HG & ->). rewrite HG, BB. eauto.
    - destruct R as (_ & _ & _ & _ & logs & _ & HG & ->). rewrite HG, BB. exists []. rewrite app_nil_r; reflexivity.
    - destruct R as (_ & O). rewrite (OO _ _ _ _ _ O). exists []; rewrite app_nil_r; reflexivity.
    - destruct R as (st & t0 & t1 & _ & _ & _ & _ & O). rewrite (OO _ _ _ _ _ O). exists []; rewrite app_nil_r; reflexivity.
    - destruct R as (st & t0 & t1 & tr' & _ & _ & _ & _ & -> & O). rewrite (OO _ _ _ _ _ O), delivered_app. eexists; cbn. rewrite app_nil_r. symmetry. apply app_nil_r.
    - destruct R as (st & t0 & t1 & tr' & _ & _ & _ & _ & -> & O). rewrite (OO _ _ _ _ _ O), delivered_app. eexists; cbn. rewrite app_nil_r. symmetry. apply app_nil_r.
    - destruct R as (st & _ & -> & ->). exists []; reflexivity.
    - destruct R. }
  destruct G as [m1 G]. destruct (got_prefix (stream_ops me ls)) as [m2 Hp]. rewrite G, <- app_assoc in Hp. eauto.
Qed.
Print Assumptions C24_logs_prefix.

(** C25: the result mirrors what the stream says the runner's result is; otherwise the runner refused. *)
Theorem C25_result : forall cx me st0 ls sh r tr, srun cx me st0 ls sh (SpDone r) tr ->
  (In (step_state_event (sr_id r) InProgress) tr ->
     exists rr, stream_output (stream_ops me ls) SResult = SOResult (Some rr) /\ mirrors rr r) /\
  (~ In (step_state_event (sr_id r) InProgress) tr -> sr_state r = Failed /\ sr_exit_code r = Some 1%Z /\ In (SOwn (OpAnswer false)) ls) /\
  exists t0 t1, sr_started_at r = Some t0 /\ sr_completed_at r = Some t1 /\ (t0 <= t1)%N.
Proof.
  intros cx me st0 ls sh r tr R. assert (L := step_logs _ _ _ _ _ _ _ R). cbn in L.
  assert (A : In (step_state_event (sr_id r) InProgress) tr \/ In (SOwn (OpAnswer false)) ls).
  { assert (G : forall p, srun cx me st0 ls sh p tr -> match p with
      | SpBefore _ | SpStarted _ | SpRunEvent _ _ | SpQueue _ _ | SpGetSignal _ _ | SpCall _ _ _ | SpCalling _ _ _ _ _ | SpInProgress _ _ _ _ _ => True
      | SpPanic PMissingSignal => True | SpPanic _ => True
      | SpEnter st _ _ _ _ | SpLoop st _ _ _ _ _ | SpGotLog st _ _ _ _ _ | SpDeliver st _ _ _ _ _ | SpBroken st _ _ _ _ =>
          In (step_state_event (st_id st) InProgress) tr
      | SpEnded st _ _ _ => In (step_state_event (st_id st) InProgress) tr \/ In (SOwn (OpAnswer false)) ls
      | SpTerminal r | SpComplete r | SpDone r => In (step_state_event (sr_id r) InProgress) tr \/ In (SOwn (OpAnswer false)) ls
      end).
    { clear. intros p. revert ls sh tr. induction 1 as [sh|ls sh p tr op sh' p' o R IH E|ls sh p tr e R IH]; [exact I| |].
      - unfold step_step in E.
        destruct p as [st|st|st t0|st t0|st t0|st t0 a|st t0 a sg str|st t0 a sg str|st t0 a sg str|st t0 a sg str ti|st t0 a sg str l
        |st t0 a sg str wl|st t0 a sg str|st t0 s c|r|r|r|w]; destruct op as [|c'|ok| | | |ro]; try discriminate E;
        try (injection E as <- <- <-; try exact I; try (rewrite ?in_app_iff; tauto)).
        + destruct (lookup _ _); injection E as <- <- <-; exact I.
        + destruct ok; injection E as <- <- <-; [exact I|]. right. apply in_or_app; right; left; reflexivity.
        + destruct (runner_step ro sg str); injection E as <- <- <-; exact I.
        + apply in_or_app; right; left; reflexivity.
        + destruct (runner_step ro sg str); injection E as <- <- <-; exact I.
        + destruct (runner_step ro sg str); injection E as <- <- <-; rewrite app_nil_r; exact IH.
        + destruct (_ <=? _)%N; [|discriminate]. injection E as <- <- <-. rewrite app_nil_r; exact IH.
        + destruct (sm_step _ _) as [sm' [| | |so|]]; try discriminate.
          destruct so as [| |[s|]]; try discriminate; injection E as <- <- <-; rewrite app_nil_r; exact IH.
        + destruct (stream_poll me str) as [[str' [l| |]] w]; injection E as <- <- <-; rewrite app_nil_r; exact IH.
        + destruct (runner_step ro sg str); injection E as <- <- <-; rewrite app_nil_r; exact IH.
        + destruct (runner_step ro sg str); injection E as <- <- <-; rewrite app_nil_r; exact IH.
        + destruct (runner_step ro sg str); injection E as <- <- <-; rewrite app_nil_r; exact IH.
        + destruct (ss_result str); injection E as <- <- <-; rewrite ?app_nil_r; [left; exact IH|exact I].
        + destruct (runner_step ro sg str); injection E as <- <- <-; rewrite app_nil_r; exact IH.
      - destruct p as [| | | | | | | | | | | | | | | | |[]]; auto; rewrite !in_app_iff; tauto. }
    apply (G (SpDone r) R). }
  split; [|split].
  - intros Hin. destruct L as [(_ & _ & _ & C)|(rr & l1 & l2 & _ & _ & _ & _ & L1 & L2 & _)]; [contradiction|eauto].
  - intros Hin. destruct L as [(L1 & L2 & _)|(rr & l1 & l2 & _ & _ & _ & _ & _ & _ & C)]; [|contradiction].
    destruct A as [A|A]; [contradiction|auto].
  - apply step_done_story in R. destruct R as (st & t0 & t1 & _ & _ & H1 & H2 & H3 & _). eauto.
Qed.
Print Assumptions C25_result.

Theorem C25_no_missing_result_panic : forall cx me st0 ls sh tr, ~ srun cx me st0 ls sh (SpPanic PMissingResult) tr.
Proof. exact no_missing_result. Qed.
Print Assumptions C25_no_missing_result_panic.

(** Once the runner has ended its stream, the engine can finish the step by itself, whatever is unread, and the result
    is the one the stream holds. *)
Theorem C25_finishes_once_ended : forall cx me st0 ls sh st t0 a sg str ti tr,
  srun cx me st0 ls sh (SpLoop st t0 a sg str ti) tr ->
  forall rr, stream_output (stream_ops me ls) SResult = SOResult (Some rr) ->
  exists ls' sh' r tr', (forall l, In l ls' -> l = SOwn OpStream \/ l = SOwn OpNext) /\
    srun cx me st0 (ls ++ ls') sh' (SpDone r) (tr ++ tr') /\ mirrors rr r.
Proof.
  intros cx me st0 ls sh st t0 a sg str ti tr R rr Hr.
  assert (Hs : ss_result str = Some rr).
  { apply srun_inv in R. cbn in R. destruct R as (_ & _ & -> & _). unfold stream_output in Hr. cbn in Hr. congruence. }
  clear Hr. remember (length (ss_logs str) - ss_index str) as n eqn:En.
  revert ls tr ti str R Hs En. induction n as [|n IH]; intros ls tr ti str R Hs En.
  - assert (Hn : nth_error (ss_logs str) (ss_index str) = None) by (apply nth_error_None; lia).
    pose (str' := StreamState (ss_logs str) (ss_result str) (Some me) (ss_index str) (ss_enders str)).
    pose (r := StepRunResult (st_id st) (fst (result_state rr)) (snd (result_state rr)) (Some t0) (Some (sh_now sh))).
    exists [SOwn OpStream; SOwn OpNext; SOwn OpNext; SOwn OpNext; SOwn OpNext], sh, r. eexists.
    split; [cbn; intuition|]. split.
    + eapply sexec_run; [exact R|]. cbn [sexec step_step]. unfold stream_poll. rewrite Hn, Hs. cbn. reflexivity.
    + destruct rr; cbn; auto.
  - destruct (nth_error (ss_logs str) (ss_index str)) as [l|] eqn:El; [|apply nth_error_None in El; lia].
    assert (Hlt : ss_index str < length (ss_logs str)) by (apply nth_error_Some; congruence).
    pose (str' := StreamState (ss_logs str) (ss_result str) (Some me) (S (ss_index str)) (ss_enders str)).
    pose (L := [SOwn OpStream; SOwn OpNext; SOwn OpNext; SOwn OpNext]).
    assert (E : sexec cx me sh (SpLoop st t0 a sg str ti) L =
      Some (sh, SpLoop st t0 a sg str' (sh_now sh), [OHook (HLog (WorkflowLog (st_id st) (l_type l) (l_message l) (sh_now sh)))])).
    { cbn. unfold stream_poll. rewrite El. reflexivity. }
    apply (sexec_run cx me st0 L _ _ _ _ _ _ _ R) in E.
    destruct (IH _ _ _ _ E) as (ls' & sh' & r & tr' & A & B & C); [exact Hs|cbn; lia|].
    exists (L ++ ls'), sh', r. eexists. split.
    + intros x Hx. apply in_app_iff in Hx as [Hx|Hx]; [|auto]. cbn in Hx. intuition.
    + rewrite <- !app_assoc in B. split; [exact B|exact C].
Qed.
Print Assumptions C25_finishes_once_ended.

(** ** C26 *)
(** What holds: when the engine has been waiting, without getting a log or a signal, for the configured timeout, its
    timer can fire; not before. [ls2] is the part of the execution since it began to wait. When the timer fires, the
    step's signal becomes Timeout unless it had already been raised. *)
Theorem C26_idle_timeout_partial : forall cx me st0 ls sh st t0 a sg str ti tr,
  srun cx me st0 ls sh (SpLoop st t0 a sg str ti) tr ->
  exists ls1 ls2, ls = ls1 ++ SOwn OpNext :: ls2 /\ ~ In (SOwn OpNext) ls2 /\
  ((nanoseconds (st_timeout st) <= ticks ls2)%N ->
     exists sg', step_step cx me sh (SpLoop st t0 a sg str ti) OpTimer = Some (sh, SpEnter st t0 a sg' str, []) /\
       sg_signal sg' = match sg_signal sg with None => Some SigTimeout | Some s => Some s end) /\
  ((ticks ls2 < nanoseconds (st_timeout st))%N -> step_step cx me sh (SpLoop st t0 a sg str ti) OpTimer = None).
Proof.
  intros cx me st0 ls sh st t0 a sg str ti tr R. apply tinv_run in R as (ls1 & ls2 & E & H & Hn).
  exists ls1, ls2. split; [exact E|]. split; [exact H|]. cbn [step_step]. rewrite Hn, <- nanoseconds_eq. split; intros Hle.
  - replace (ti + duration_ns (st_timeout st) <=? ti + ticks ls2)%N with true by (symmetry; apply N.leb_le; lia).
    eexists. split; [reflexivity|]. apply raise_ok_spec.
  - replace (ti + duration_ns (st_timeout st) <=? ti + ticks ls2)%N with false by (symmetry; apply N.leb_gt; lia). reflexivity.
Qed.
Print Assumptions C26_idle_timeout_partial.

(** The timer is never early: it cannot fire before the step has been running for its timeout. *)
Theorem C26_not_early : forall cx me st0 ls sh st t0 a sg str ti tr x,
  srun cx me st0 ls sh (SpLoop st t0 a sg str ti) tr ->
  step_step cx me sh (SpLoop st t0 a sg str ti) OpTimer = Some x -> (t0 + nanoseconds (st_timeout st) <= sh_now sh)%N.
Proof.
  intros cx me st0 ls sh st t0 a sg str ti tr x R E. apply srun_inv in R. cbn in R. destruct R as (_ & Ht & _).
  cbn in E. destruct (ti + _ <=? sh_now sh)%N eqn:L; [|discriminate]. apply N.leb_le in L. rewrite nanoseconds_eq in L. lia.
Qed.
Print Assumptions C26_not_early.

Definition c26_step : step := Step (StepId "w" "j" 0) None None None "sleep" false [] [] (Duration 60 0).
Definition c26_cx : ectx := ECtx (Matcher false None) None.
Definition c26_hooks : exec_context unit :=
  let h {A} (_ : A) (w : unit) := (w, Ok tt) in ExecContext [] (Receiver h h h h h h h h (fun st w => (w, Ok st))) None None.
Definition c26_start : list slabel :=
  [SEnv (ESig (MRegister (JobId "w" "j"))); SOwn (OpBefore c26_hooks); SOwn OpNext; SOwn OpNext; SOwn OpNext; SOwn OpNext;
   SOwn OpNext; SOwn (OpAnswer true); SOwn OpNext; SOwn OpNext].
Definition c26_round : list slabel :=
  [SEnv (ETick 30000000000); SOwn (OpRunner (RLog "tick")); SOwn OpStream; SOwn OpNext; SOwn OpNext; SOwn OpNext].

(** The full claim fails: a step with a 60 s timeout that logs every 30 s runs for as long as it likes: its signal is
    not raised and the engine's timer never gets to fire. *)
Theorem C26_total_timeout_refuted : forall n, exists ls sh st t0 a sg str ti tr,
  srun c26_cx 0 c26_step ls sh (SpLoop st t0 a sg str ti) tr /\ st_timeout st = Duration 60 0 /\
  (t0 + N.of_nat n * 30000000000 <= sh_now sh)%N /\ sg_signal sg = None /\
  (* at no moment of the execution could the timer fire *)
  (forall k, match sexec c26_cx 0 (Shared 0%N sm_init None) (SpBefore c26_step) (firstn k ls) with
             | Some (sh', p', _) => step_step c26_cx 0 sh' p' OpTimer = None
             | None => False
             end).
Proof.
  assert (G : forall n, exists ls,
    (exists tr str, sexec c26_cx 0 (Shared 0%N sm_init None) (SpBefore c26_step) ls =
      Some (Shared (N.of_nat n * 30000000000)%N (SigMan [(JobId "w" "j", 0)] [sig_init] []) None,
            SpLoop c26_step 0%N 0 sig_init str (N.of_nat n * 30000000000)%N, tr) /\
      ss_result str = None /\ ss_index str = length (ss_logs str)) /\
    (forall k, match sexec c26_cx 0 (Shared 0%N sm_init None) (SpBefore c26_step) (firstn k ls) with
             | Some (sh', p', _) => step_step c26_cx 0 sh' p' OpTimer = None
             | None => False
             end)).
  { induction n as [|n (ls & (tr & str & E & Hr & Hi) & Hk)].
    - exists c26_start. split.
      + do 2 eexists. split; [vm_compute; reflexivity|]. split; reflexivity.
      + intros k. do 11 (destruct k as [|k]; [vm_compute; reflexivity|]). vm_compute. reflexivity.
    - exists (ls ++ c26_round).
      assert (APP : forall l2 sh p l1, sexec c26_cx 0 sh p (l1 ++ l2) =
        match sexec c26_cx 0 sh p l1 with
        | None => None
        | Some (sh1, p1, o1) => match sexec c26_cx 0 sh1 p1 l2 with None => None | Some (sh2, p2, o2) => Some (sh2, p2, o1 ++ o2) end
        end).
      { intros l2 sh p l1. revert sh p. induction l1 as [|[op|e] l1 IH]; intros sh p; cbn.
        - destruct (sexec _ _ sh p l2) as [[[? ?] ?]|]; reflexivity.
        - destruct (step_step c26_cx 0 sh p op) as [[[sh1 p1] o1]|]; [|reflexivity]. rewrite IH.
          destruct (sexec _ _ sh1 p1 l1) as [[[sh2 p2] o2]|]; [|reflexivity].
          destruct (sexec _ _ sh2 p2 l2) as [[[sh3 p3] o3]|]; [|reflexivity]. rewrite app_assoc. reflexivity.
        - apply IH. }
      assert (Hnth : nth_error (ss_logs str ++ [log_log "tick"]) (ss_index str) = Some (log_log "tick")).
      { rewrite Hi. apply nth_error_app_last. }
      assert (T1 : (N.of_nat n * 30000000000 + 60000000000 <=? N.of_nat n * 30000000000)%N = false) by (apply N.leb_gt; lia).
      assert (T2 : (N.of_nat n * 30000000000 + 60000000000 <=? N.of_nat n * 30000000000 + 30000000000)%N = false) by (apply N.leb_gt; lia).
      assert (TS : (N.of_nat (S n) * 30000000000)%N = (N.of_nat n * 30000000000 + 30000000000)%N) by lia.
      rewrite TS. generalize dependent (N.of_nat n * 30000000000)%N. intros T E T1 T2 _.
      assert (T3 : (T + 30000000000 + 60000000000 <=? T + 30000000000)%N = false) by (apply N.leb_gt; lia).
      split.
      + rewrite APP, E. cbn. unfold stream_poll. cbn. rewrite Hnth. do 2 eexists. split; [reflexivity|].
        split; [exact Hr|]. cbn [ss_index ss_logs]. rewrite app_length, Hi. cbn [List.length]. lia.
      + intros k. destruct (Nat.le_gt_cases k (length ls)) as [Hl|Hl].
        * rewrite firstn_app. replace (k - length ls) with 0 by lia. rewrite app_nil_r. apply Hk.
        * rewrite firstn_app, firstn_all2 by lia. rewrite APP, E.
          destruct (k - length ls) as [|[|[|[|[|[|[|m]]]]]]] eqn:Ek; [exfalso; lia|..]; cbn; unfold stream_poll; cbn; rewrite ?Hnth; cbn;
            change (duration_ns (st_timeout c26_step)) with 60000000000%N in *; rewrite ?T1, ?T2, ?T3; reflexivity.
          }
  intros n. destruct (G n) as (ls & (tr & str & E & _ & _) & Hk).
  exists ls, (Shared (N.of_nat n * 30000000000)%N (SigMan [(JobId "w" "j", 0)] [sig_init] []) None), c26_step, 0%N, 0, sig_init, str,
    (N.of_nat n * 30000000000)%N, tr.
  split; [eapply sexec_init; exact E|]. split; [reflexivity|]. split; [cbn; lia|]. split; [reflexivity|exact Hk].
Qed.
Print Assumptions C26_total_timeout_refuted.

(** ** C27 *)
(** The engine waits on the signal object registered, when the step asked for it, for the step's job. *)
Theorem C27_listens_to_its_job : forall cx me sh st t0 sh' p' o,
  step_step cx me sh (SpGetSignal st t0) OpNext = Some (sh', p', o) ->
  forall a, p' = SpCall st t0 a <-> lookup (step_id_job_id (st_id st)) (sm_reg (sh_sm sh)) = Some a.
Proof.
  intros cx me sh st t0 sh' p' o E a. cbn in E. destruct (lookup _ _) as [b|]; injection E as <- <- <-; split; congruence.
Qed.
Print Assumptions C27_listens_to_its_job.

(** When the engine looks at the job's signal: if it is raised and has not been delivered before, the step's signal is
    raised the same way unless it had been raised already, and the job's signal counts as delivered; otherwise nothing
    happens to the step. *)
Theorem C27_forwarding : forall cx me sh st t0 a sg str ti c, nth_error (sm_heap (sh_sm sh)) a = Some c ->
  exists sh' p', step_step cx me sh (SpLoop st t0 a sg str ti) OpJobSignal = Some (sh', p', []) /\
  (forall s, sg_notified c = false -> sg_signal c = Some s ->
     (exists sg', p' = SpEnter st t0 a sg' str /\ sg_signal sg' = match sg_signal sg with None => Some s | Some s0 => Some s0 end) /\
     exists c', nth_error (sm_heap (sh_sm sh')) a = Some c' /\ sg_notified c' = true) /\
  (sg_notified c = true \/ sg_signal c = None -> p' = SpLoop st t0 a sg str ti).
Proof.
  intros cx me sh st t0 a sg str ti c Hc.
  destruct (job_signal_poll cx me sh st t0 a sg str ti c Hc) as (sh' & E & _ & _ & _ & _ & D). do 2 eexists. split; [exact E|]. split.
  - intros s Hn Hs. rewrite Hn, Hs in *. cbn. split; [eexists; split; [reflexivity|apply raise_ok_spec]|].
    destruct (D s eq_refl) as (c' & H1 & H2 & _). eauto.
  - intros [Hn|Hn]; rewrite Hn; [reflexivity|]. destruct (sg_notified c); reflexivity.
Qed.
Print Assumptions C27_forwarding.

(** A delivered cancellation stays delivered, whatever anybody does; so (C27_forwarding) no later step gets it. *)
Theorem C27_consumed_once : forall cx me sh p ls sh' p' o a c, nth_error (sm_heap (sh_sm sh)) a = Some c -> sg_notified c = true ->
  sexec cx me sh p ls = Some (sh', p', o) -> exists c', nth_error (sm_heap (sh_sm sh')) a = Some c' /\ sg_notified c' = true.
Proof.
  intros cx me sh p ls. revert sh p. induction ls as [|[op|e] ls IH]; cbn; intros sh p sh' p' o a c Hc N E.
  - injection E as <- <- <-. eauto.
  - destruct (step_step cx me sh p op) as [[[sh1 p1] o1]|] eqn:E1; [|discriminate].
    destruct (sexec cx me sh1 p1 ls) as [[[sh2 p2] o2]|] eqn:E2; [|discriminate]. injection E as <- <- <-.
    destruct (step_step_notified _ _ _ _ _ _ _ _ _ _ E1 Hc N) as (c' & H1 & H2). eapply IH; eauto.
  - destruct (env_step_notified sh e a c Hc N) as (c' & H1 & H2). eapply IH; eauto.
Qed.
Print Assumptions C27_consumed_once.

(** End to end: if somebody calls cancel_job for the job of the running step and the engine then looks, the step's
    signal is Cancel unless it was raised before. *)
Theorem C27_cancel_reaches_running_step : forall cx me sh st t0 a sg str ti c caller,
  lookup (step_id_job_id (st_id st)) (sm_reg (sh_sm sh)) = Some a ->
  nth_error (sm_heap (sh_sm sh)) a = Some c -> sg_signal c = None -> sg_notified c = false ->
  exists sh' sg',
    sexec cx me sh (SpLoop st t0 a sg str ti)
      [SEnv (ESig (MCancelGet caller (step_id_job_id (st_id st)))); SEnv (ESig (MCancelFire caller)); SOwn OpJobSignal]
    = Some (sh', SpEnter st t0 a sg' str, []) /\
    sg_signal sg' = match sg_signal sg with None => Some SigCancel | Some s => Some s end.
Proof.
  intros cx me sh st t0 a sg str ti c k Hr Hc Hs Hn.
  cbn [sexec env_step sm_step]. rewrite Hr. cbn [fst]. cbn. rewrite lookup_insert_eq, Hc. unfold sig_cancel. rewrite Hs. cbn.
  rewrite nth_error_list_set, Hc. destruct (Nat.eq_dec a a); [|congruence]. unfold sig_poll. cbn. rewrite Hn. cbn.
  do 2 eexists. split; [reflexivity|]. apply (raise_ok_spec SigCancel).
Qed.
Print Assumptions C27_cancel_reaches_running_step.

(** *** Non-vacuity: a complete run with logs, a cancellation and a result. *)
Definition ex_step_run : list slabel :=
  c26_start ++
  [SOwn (OpRunner (RLog "hello")); SEnv (ETick 5); SOwn OpStream; SOwn OpNext; SOwn (OpRunner (RError "oops")); SOwn OpNext; SOwn OpNext;
   SEnv (ESig (MCancelGet 7 (JobId "w" "j"))); SEnv (ESig (MCancelFire 7)); SOwn OpJobSignal; SOwn OpNext;
   SOwn (OpRunner (RSig (OPoll 3))); SOwn (OpRunner (REndCheck 1 RCancelled)); SOwn (OpRunner (REndCommit 1));
   SOwn OpStream; SOwn OpNext; SOwn OpNext; SOwn OpNext; SOwn OpStream; SOwn OpNext; SOwn OpNext; SOwn OpNext; SOwn OpNext].
Example C23_C25_nonvacuous : exists sh tr,
  srun c26_cx 0 c26_step ex_step_run sh (SpDone (StepRunResult (StepId "w" "j" 0) Cancelled None (Some 0%N) (Some 5%N))) tr /\
  length tr = 8 /\ delivered tr = [Log LLog "hello"; Log LError "oops"] /\ ticks ex_step_run = 5%N.
Proof.
  do 2 eexists. split; [eapply sexec_init with (sh := Shared 0%N sm_init None); vm_compute; reflexivity|]. repeat split; reflexivity.
Qed.
Example C26_nonvacuous : exists ls sh str tr,
  srun c26_cx 0 c26_step ls sh (SpLoop c26_step 0%N 0 sig_init str 0%N) tr /\ (nanoseconds (st_timeout c26_step) <= sh_now sh)%N.
Proof.
  exists (c26_start ++ [SEnv (ETick 61000000000)]). do 3 eexists.
  split; [eapply sexec_init with (sh := Shared 0%N sm_init None); vm_compute; reflexivity|]. vm_compute. discriminate.
Qed.
Example C27_nonvacuous : exists ls sh str tr,
  srun c26_cx 0 c26_step ls sh (SpLoop c26_step 0%N 0 sig_init str 0%N) tr /\
  lookup (step_id_job_id (st_id c26_step)) (sm_reg (sh_sm sh)) = Some 0 /\ nth_error (sm_heap (sh_sm sh)) 0 = Some sig_init.
Proof.
  exists c26_start. do 3 eexists.
  split; [eapply sexec_init with (sh := Shared 0%N sm_init None); vm_compute; reflexivity|]. split; reflexivity.
Qed.
