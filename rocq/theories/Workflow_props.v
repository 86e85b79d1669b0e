(** C20, C32-C37, C65, C66: running a workflow. *)
From Verif Require Import Base Types Signals_model Signals_proof Stream_model Cond_model Config_model Config_spec Config_props Plugins_model Exec_model Exec_spec
  Step_proof Job_proof Reg_proof Step_props Job_props Workflow_model Workflow_spec Workflow_proof Workflow_inv Workflow_term.

Section Aux.
Variable glob : glob_oracle.
Variable cx : ectx.
Variable wf : workflow.
Hypothesis Hnd : NoDup (keys (wf_jobs wf)).
Notation wrun := (wrun glob cx wf).

Lemma task_events ls s tr i o : wrun ls s tr -> In o (events_of (Some i) tr) -> exists t, nth_error (ws_tasks s) i = Some t.
Proof.
  intros R H. destruct (nth_error (ws_tasks s) i) as [t|] eqn:E; [eauto|]. apply nth_error_None in E.
  destruct (tasks_run_inv glob cx wf _ _ _ R) as [_ T]. rewrite (T i E) in H. destruct H.
Qed.

Lemma task_step_who s op s' i o : wstep glob cx wf s op = Some (s', [(Some i, o)]) -> exists jop t, op = WTaskOp i jop /\ nth_error (ws_tasks s) i = Some t.
Proof.
  intros E. destruct op as [|gh|k op|k|e]; cbn [wstep] in E.
  - exfalso. assert (W := main_who _ _ _ _ _ _ E (Some i, o) (or_introl eq_refl)). discriminate W.
  - destruct (ws_main s); try discriminate. destruct (is_match_second _ _ _ _). discriminate.
  - destruct (nth_error (ws_tasks s) k) as [t|] eqn:Et; [|discriminate]. destruct (job_step _ _ _ _ _ _ _) as [[[sh' p'] ob]|]; [|discriminate].
    injection E as <- Eo. destruct ob as [|x ob]; [discriminate|]. injection Eo as -> _ _. eauto.
  - destruct (nth_error _ _) as [[key j p sent]|]; [|discriminate]. destruct p; try discriminate. destruct sent; [discriminate|].
    destruct (ws_main s); try (destruct (Nat.ltb _ _); [|discriminate E]); discriminate E.
  - discriminate.
Qed.

Lemma deps_done ls s tr d : wrun ls s tr -> In d (map fst (received tr)) ->
  exists i' j' r, nth_error (started tr) i' = Some d /\ In (d, j') (wf_jobs wf) /\ In (d, r) (received tr) /\ job_story cx j' (events_of (Some i') tr) r.
Proof.
  intros R H. apply in_map_iff in H as ([d' r] & Ed & H). cbn in Ed. subst d'.
  destruct (received_task glob cx wf Hnd _ _ _ _ _ R H) as (i & t & Ht & Hk & Hp).
  destruct (winv glob cx wf Hnd _ _ _ R) as [_ [T1 T2 _ _]]. destruct (tasks_run_inv glob cx wf _ _ _ R) as [TR _].
  destruct (TR i t Ht) as (jls & J & _). rewrite Hp in J. exists i, (tk_job t), r. repeat split; auto.
  - rewrite <- T1, nth_error_map, Ht. cbn. congruence.
  - rewrite <- Hk. apply T2. eapply nth_error_In; eauto.
  - eapply job_done_story; eauto.
Qed.
End Aux.

(** *** C32 *)
(** When a job emits an event, every job it depends on has gone through its whole life cycle and its result has been
    received. *)
Theorem C32_dependencies_finish_first : forall glob cx wf ls s pre i o post,
  NoDup (keys (wf_jobs wf)) -> wrun glob cx wf ls s (pre ++ (Some i, o) :: post) ->
  exists k j, nth_error (started pre) i = Some k /\ In (k, j) (wf_jobs wf) /\
    forall d, In d (jb_depends_on j) ->
      exists i' j' r, nth_error (started pre) i' = Some d /\ In (d, j') (wf_jobs wf) /\ In (d, r) (received pre) /\
        job_story cx j' (events_of (Some i') pre) r.
Proof.
  intros glob cx wf ls s pre i o post Hnd R. destruct (wrun_split glob cx wf _ _ _ R _ _ _ eq_refl) as (ls1 & op & ls2 & s1 & s2 & _ & R1 & E).
  destruct (task_step_who glob cx wf _ _ _ _ _ E) as (jop & t & _ & Ht). destruct (winv glob cx wf Hnd _ _ _ R1) as [_ [T1 T2 T3 _]].
  exists (tk_key t), (tk_job t). assert (Hi := nth_error_In _ _ Ht). split; [rewrite <- T1, nth_error_map, Ht; reflexivity|]. split; [auto|].
  intros d Hd. eapply deps_done; eauto.
Qed.
Print Assumptions C32_dependencies_finish_first.

(** The same when a job is started. *)
Theorem C32_started_after_dependencies : forall glob cx wf ls s pre k post,
  NoDup (keys (wf_jobs wf)) -> wrun glob cx wf ls s (pre ++ (None, OSpawn k) :: post) ->
  exists j, In (k, j) (wf_jobs wf) /\
    forall d, In d (jb_depends_on j) ->
      exists i' j' r, nth_error (started pre) i' = Some d /\ In (d, j') (wf_jobs wf) /\ In (d, r) (received pre) /\
        job_story cx j' (events_of (Some i') pre) r.
Proof.
  intros glob cx wf ls s pre k post Hnd R. destruct (wrun_split glob cx wf _ _ _ R _ _ _ eq_refl) as (ls1 & op & ls2 & s1 & s2 & _ & R1 & E).
  assert (R2 := wrun_step glob cx wf _ _ _ _ _ _ R1 E).
  destruct (started_is_job glob cx wf Hnd _ _ _ k R2) as (j & Hj & Hd); [rewrite started_app; apply in_or_app; right; left; reflexivity|].
  exists j. split; [exact Hj|]. intros d Hdd. apply Hd in Hdd. rewrite received_app in Hdd. cbn in Hdd. rewrite app_nil_r in Hdd. eapply deps_done; eauto.
Qed.
Print Assumptions C32_started_after_dependencies.

(** *** C34 *)
(** At any moment the workflow's own events are an initial part of: the check of its condition, the two start events, one
    start of every job without dependencies, then for every result received the starts of the jobs eligible by then, then
    the two end events. *)
Theorem C34_what_is_started : forall glob cx wf ls s tr,
  NoDup (keys (wf_jobs wf)) -> wrun glob cx wf ls s tr ->
  exists tail,
    (exists c, wf_on wf = Some c /\ events_of None tr ++ tail = [OMatch c false; wf_state_event wf Skipped]) \/
    (exists check fin, lets_run (wf_on wf) check /\
       (fin = [] \/ exists r, fin = [wf_state_event wf (wr_state r); OHook (HWorkflowCompleted r)]) /\
       events_of None tr ++ tail =
         check ++ [OHook (HRunWorkflow (RunEvent wf (cm_event (cx_matcher cx)) (cx_payload cx))); wf_state_event wf InProgress]
         ++ map OSpawn (independent wf) ++ reactions wf [] (received tr) ++ fin).
Proof.
  intros glob cx wf ls s tr Hnd R. destruct (winv glob cx wf Hnd _ _ _ R) as [M _].
  assert (Go : forall chk recs m tail fin, lets_run (wf_on wf) chk -> events_of None tr = m -> m ++ tail = wmid cx wf chk recs ++ fin ->
     (fin = [] \/ exists r, fin = [wf_state_event wf (wr_state r); OHook (HWorkflowCompleted r)]) -> received tr = recs ->
     exists tail,
    (exists c, wf_on wf = Some c /\ events_of None tr ++ tail = [OMatch c false; wf_state_event wf Skipped]) \/
    (exists check fin, lets_run (wf_on wf) check /\
       (fin = [] \/ exists r, fin = [wf_state_event wf (wr_state r); OHook (HWorkflowCompleted r)]) /\
       events_of None tr ++ tail =
         check ++ [OHook (HRunWorkflow (RunEvent wf (cm_event (cx_matcher cx)) (cx_payload cx))); wf_state_event wf InProgress]
         ++ map OSpawn (independent wf) ++ reactions wf [] (received tr) ++ fin)).
  { intros chk recs m tail fin Hc Em E Hf Hr. exists tail. right. exists chk, fin. split; [exact Hc|]. split; [exact Hf|]. rewrite Em, E, Hr.
    unfold wmid, whead, ev_run_wf. rewrite <- !app_assoc. reflexivity. }
  assert (NoRec : forall chk l, lets_run (wf_on wf) chk -> received_in l = [] -> events_of None tr = chk ++ l -> received tr = []).
  { intros chk l Hc Hl E. unfold received. rewrite E, received_in_app, Hl. apply lets_run_quiet in Hc as [-> _]. reflexivity. }
  destruct (ws_main s) as [|c ev| | |t0|t0|t0 w wa rest|t0 w wa rs|t0 w wa rs todo|t0 w rs|r|r|r]; cbn [minv] in M.
  - destruct (wf_on wf) as [c|] eqn:Eo.
    + exists [OMatch c false; wf_state_event wf Skipped]. left. exists c. rewrite M. auto.
    + eapply (Go [] [] [] _ []); [reflexivity|exact M|reflexivity|auto|unfold received; rewrite M; reflexivity].
  - destruct M as [Ho Hm]. exists [OMatch c false; wf_state_event wf Skipped]. left. exists c. rewrite Hm. auto.
  - destruct M as (c & Ho & Hm). exists [wf_state_event wf Skipped]. left. exists c. rewrite Hm. auto.
  - assert (E : events_of None tr = events_of None tr ++ []) by (rewrite app_nil_r; reflexivity).
    eapply (Go _ [] _ _ []); [exact M|reflexivity|unfold wmid, whead; rewrite <- !app_assoc; reflexivity|auto|eapply NoRec; [exact M| |exact E]; reflexivity].
  - destruct M as [_ M]. assert (E : events_of None tr = events_of None tr ++ []) by (rewrite app_nil_r; reflexivity).
    eapply (Go _ [] _ _ []); [exact M|reflexivity|unfold wmid, whead; rewrite <- !app_assoc; reflexivity|auto|eapply NoRec; [exact M| |exact E]; reflexivity].
  - destruct M as [_ (chk & Hc & Hm)].
    eapply (Go _ [] _ _ []); [exact Hc|exact Hm|unfold wmid, whead; rewrite <- !app_assoc; reflexivity|auto|eapply NoRec; [exact Hc| |exact Hm]; reflexivity].
  - destruct M as (_ & chk & dn & Hc & Hj & _ & _ & Hm).
    eapply (Go chk [] _ (map OSpawn (map fst (filter (fun kj => negb (has_deps (snd kj))) rest))) []); [exact Hc|exact Hm| |auto|].
    + unfold wmid. rewrite independent_alt, Hj, filter_app', !map_app, !app_nil_r, <- !app_assoc. reflexivity.
    + eapply NoRec; [exact Hc| |rewrite Hm; unfold whead; rewrite <- app_assoc; reflexivity]. cbn. apply received_spawns.
  - destruct M as (chk & recs & (_ & Hc & _) & Hm). eapply (Go chk recs _ [] []); [exact Hc|exact Hm|reflexivity|auto|].
    unfold received. rewrite Hm. apply received_wmid, Hc.
  - destruct M as (chk & recs & k & r & dn & (_ & Hc & Hwa & Hrs & _) & Hw & Hm).
    eapply (Go chk (recs ++ [(k, r)]) _ (map OSpawn (map fst (filter (fun kj => ready rs (snd kj)) todo))) []); [exact Hc|exact Hm| |auto|].
    + rewrite wmid_snoc, eligible_waiting, <- Hwa, Hw, <- Hrs, filter_app', !map_app, app_nil_r, <- !app_assoc. reflexivity.
    + unfold received. rewrite Hm, received_in_app, received_wmid by exact Hc. change (OReceive k r :: ?x) with ([OReceive k r] ++ x).
      rewrite received_in_app, received_spawns. reflexivity.
  - destruct M as (chk & recs & _ & Hc & _ & _ & _ & _ & Hm). eapply (Go chk recs _ [] []); [exact Hc|exact Hm|reflexivity|auto|].
    unfold received. rewrite Hm. apply received_wmid, Hc.
  - destruct M as (chk & recs & (_ & _ & _ & _ & _ & Hc & _) & Hm). eapply (Go chk recs _ [] []); [exact Hc|exact Hm|reflexivity|auto|].
    unfold received. rewrite Hm. apply received_wmid, Hc.
  - destruct M as (chk & recs & (_ & _ & _ & _ & _ & Hc & _) & Hm). eapply (Go chk recs _ [OHook (HWorkflowCompleted r)] [_; _]);
      [exact Hc|exact Hm|rewrite <- app_assoc; reflexivity|eauto|].
    unfold received. rewrite Hm, received_in_app, received_wmid by exact Hc. apply app_nil_r.
  - destruct M as [(c & Ho & Hm & _)|(chk & recs & (_ & _ & _ & _ & _ & Hc & _) & Hm)].
    + exists []. left. exists c. rewrite Hm. auto.
    + eapply (Go chk recs _ [] [_; _]); [exact Hc|exact Hm|rewrite app_nil_r; reflexivity|eauto|].
      unfold received. rewrite Hm, received_in_app, received_wmid by exact Hc. apply app_nil_r.
Qed.
Print Assumptions C34_what_is_started.

Lemma filter_seq_shift (f : nat -> bool) l : length (filter f (map S l)) = length (filter (fun n => f (S n)) l).
Proof. induction l as [|a l IH]; [reflexivity|]. cbn. destruct (f (S a)); cbn; rewrite IH; reflexivity. Qed.

Lemma count_eligible wf ks k j : NoDup (keys (wf_jobs wf)) -> In (k, j) (wf_jobs wf) -> jb_depends_on j <> [] ->
  count_occ string_dec (eligible wf ks) k = if ready_after k j ks then 1 else 0.
Proof.
  intros Hnd Hj Hd. assert (ND : NoDup (eligible wf ks)) by (apply nodup_map_filter, Hnd).
  destruct (ready_after k j ks) eqn:Er; unfold ready_after in Er.
  - apply NoDup_count_occ'; [exact ND|]. apply eligible_in. exists j. apply andb_true_iff in Er as [E1 E2]. rewrite forallb_forall in E1.
    repeat split; auto; [intros d Hdd; apply memb_true, E1, Hdd|apply negb_true_iff, memb_false in E2; exact E2].
  - apply count_occ_not_In. intros C. apply eligible_in in C as (j' & Hj' & _ & H3 & H4). assert (j' = j) by (eapply (job_unique wf Hnd); eauto). subst j'.
    apply andb_false_iff in Er as [Er|Er].
    + assert (forallb (fun d => memb d ks) (jb_depends_on j) = true); [|congruence]. apply forallb_forall. intros d Hdd. apply memb_true. auto.
    + apply negb_false_iff, memb_true in Er. tauto.
Qed.

Lemma count_reactions wf k j recs : NoDup (keys (wf_jobs wf)) -> In (k, j) (wf_jobs wf) -> jb_depends_on j <> [] ->
  forall e, count_occ string_dec (started_in (reactions wf e recs)) k =
    length (filter (fun n => ready_after k j (e ++ firstn n (map fst recs))) (seq 1 (length recs))).
Proof.
  intros Hnd Hj Hd. induction recs as [|[a b] recs IH]; intros e; [reflexivity|]. cbn [reactions]. change (OReceive a b :: ?x) with ([OReceive a b] ++ x).
  rewrite !started_in_app, started_spawns. cbn [started_in flat_map app]. rewrite count_occ_app, (count_eligible _ _ _ j) by auto. fold (started_in (reactions wf (e ++ [a]) recs)). rewrite IH.
  cbn [length seq filter map fst firstn]. rewrite <- (seq_shift (length recs) 1).
  assert (E : length (filter (fun n => ready_after k j (e ++ firstn n (a :: map fst recs))) (map S (seq 1 (length recs)))) =
    length (filter (fun n => ready_after k j ((e ++ [a]) ++ firstn n (map fst recs))) (seq 1 (length recs)))).
  { rewrite filter_seq_shift. f_equal. apply filter_ext_in'. intros n _. cbn. rewrite <- app_assoc. reflexivity. }
  destruct (ready_after k j (e ++ [a])); cbn [length plus]; [f_equal|]; symmetry; exact E.
Qed.

(** The exact number of starts of every job in a completed run. *)
Theorem C34_number_of_starts : forall glob cx wf ls s tr r k j,
  NoDup (keys (wf_jobs wf)) -> wrun glob cx wf ls s tr -> ws_main s = WpDone r -> wr_started_at r <> None ->
  In (k, j) (wf_jobs wf) -> count_occ string_dec (started tr) k = start_count k j (map fst (received tr)).
Proof.
  intros glob cx wf ls s tr r k j Hnd R Em Hs Hj. destruct (winv glob cx wf Hnd _ _ _ R) as [M _]. rewrite Em in M. cbn [minv] in M.
  destruct M as [(c & _ & _ & ->)|(chk & recs & (_ & _ & _ & _ & _ & Hc & _) & Hm)]; [cbn in Hs; congruence|].
  assert (Hr : received tr = recs) by (unfold received; rewrite Hm, received_in_app, received_wmid by exact Hc; apply app_nil_r). rewrite Hr.
  assert (Hst : started tr = independent wf ++ started_in (reactions wf [] recs)).
  { unfold started. rewrite Hm. unfold wmid, whead. destruct (lets_run_quiet _ _ Hc) as [_ Hq]. rewrite !started_in_app, Hq, started_spawns. cbn. rewrite app_nil_r. reflexivity. }
  rewrite Hst, count_occ_app. unfold start_count. destruct (jb_depends_on j) as [|d ds] eqn:Ed.
  - replace (count_occ string_dec (started_in (reactions wf [] recs)) k) with 0.
    + rewrite Nat.add_0_r. apply NoDup_count_occ'; [apply nodup_map_filter, Hnd|]. apply independent_in. eauto.
    + symmetry. apply count_occ_not_In. intros C. apply started_reactions_in in C as (pre & x & post & _ & C). apply eligible_in in C as (j' & Hj' & Hn & _).
      assert (j' = j) by (eapply (job_unique wf Hnd); eauto). congruence.
  - replace (count_occ string_dec (independent wf) k) with 0.
    + rewrite (count_reactions wf k j) by (auto; rewrite Ed; discriminate). cbn [app]. rewrite map_length. reflexivity.
    + symmetry. apply count_occ_not_In. intros C. apply independent_in in C as (j' & Hj' & Hn). assert (j' = j) by (eapply (job_unique wf Hnd); eauto). congruence.
Qed.
Print Assumptions C34_number_of_starts.

(** *** C33 *)
(** A job without dependencies is never started twice; and if every job with dependencies is comparable with every other
    job, no job is. Missing for the full claim: it is false for other graphs, see the refutation below. *)
Theorem C33_comparable_jobs_start_once_partial : forall glob cx wf ls s tr,
  NoDup (keys (wf_jobs wf)) -> comparable wf -> wrun glob cx wf ls s tr -> NoDup (started tr).
Proof. intros glob cx wf ls s tr Hnd Hc R. exact (once glob cx wf Hnd ls s tr Hc R). Qed.
Print Assumptions C33_comparable_jobs_start_once_partial.

Theorem C33_every_job_of_a_finished_run_was_started : forall glob cx wf ls s tr r,
  NoDup (keys (wf_jobs wf)) -> wrun glob cx wf ls s tr -> ws_main s = WpDone r -> wr_started_at r <> None ->
  forall k, In k (keys (wf_jobs wf)) -> In k (started tr).
Proof.
  intros glob cx wf ls s tr r Hnd R Em Hs k Hk. destruct (winv glob cx wf Hnd _ _ _ R) as [M _]. rewrite Em in M. cbn [minv] in M.
  destruct M as [(c & _ & _ & ->)|(chk & recs & (_ & _ & _ & _ & _ & Hc & Ha & _) & Hm)]; [cbn in Hs; congruence|].
  assert (Hr : received tr = recs) by (unfold received; rewrite Hm, received_in_app, received_wmid by exact Hc; apply app_nil_r).
  apply (received_started glob cx wf Hnd _ _ _ _ R). rewrite Hr. apply Ha, Hk.
Qed.
Print Assumptions C33_every_job_of_a_finished_run_was_started.

(** *** C35 *)
(** Boundedly many results are received; the workflow's task makes boundedly many steps in all. *)
Theorem C35_bounded : forall glob cx wf ls s tr,
  NoDup (keys (wf_jobs wf)) -> wrun glob cx wf ls s tr ->
  let n := length (wf_jobs wf) in
  length (received tr) <= receive_bound n n n /\
  length (filter is_main ls) <= n + 8 + receive_bound n n n * (n + 2).
Proof.
  intros glob cx wf ls s tr Hnd R n.
  assert (B : length (received tr) <= receive_bound n n n).
  { assert (B := bound_inv glob cx wf Hnd _ _ _ R). unfold binv in B. cbv zeta in B. destruct (unseen wf tr); unfold goal, n_jobs in B; fold n in B; [exact B|]. lia. }
  split; [exact B|]. transitivity (n + 8 + length (received tr) * (n + 2)); [|apply Nat.add_le_mono_l, Nat.mul_le_mono_r, B].
  clear B. set (slack := fun p => match p with
    | WpCheck => n + 8 | WpFetch _ _ | WpStart => n + 7 | WpRunEvent _ => n + 6 | WpInProgress _ => n + 5
    | WpSpawn _ _ _ rest => length rest + 4 | WpLoop _ _ _ _ => 3 | WpScan _ _ _ _ todo => length todo + 4
    | WpBroken _ _ _ => 3 | WpEndState _ => 2 | WpEndDone _ | WpSkip => 1 | WpDone _ => 0 end).
  cut (length (filter is_main ls) + slack (ws_main s) <= n + 8 + length (received tr) * (n + 2)); [lia|].
  induction R as [sh|ls s tr op s' o R IH E]; [cbn; lia|]. rewrite filter_app', app_length, received_app, app_length.
  assert (Mn : 0 <= length (received o) * (n + 2)) by lia.
  destruct op as [|gh|i op|i|e]; cbn [is_main filter length].
  - cbn [wstep] in E. unfold main_step in E. destruct (winv glob cx wf Hnd _ _ _ R) as [M _].
    destruct (ws_main s) as [|c ev| | |t0|t0|t0 w wa [|[k j] rest]|t0 w wa rs|t0 w wa rs [|[k j] todo]|t0 w rs|r|r|r]; try discriminate; cbn [slack length] in IH;
      try (injection E as <- <-; cbn [set_main ws_main slack]; fold n; nia).
    + destruct (wf_on wf) as [c|]; [destruct (is_match_first _ _ _ _) as [[|]|]|]; injection E as <- <-; cbn [set_main ws_main slack]; nia.
    + destruct (has_deps j); injection E as <- <-; cbn [set_main spawn fst ws_main slack]; nia.
    + destruct (ws_chan s) as [|[k r] ch]; [discriminate|]. injection E as <- <-. cbn [ws_main]. cbn [minv] in M. destruct M as (chk & recs & (_ & _ & -> & _) & _).
      assert (Hw : length (filter (fun kj : string * job => negb (eqb (fst kj) k)) (waiting_of wf (map fst recs))) <= n).
      { unfold waiting_of, n. rewrite filter_filter. clear. induction (wf_jobs wf) as [|a l IHl]; cbn; [lia|]. destruct (_ && _); cbn; lia. }
      destruct (Nat.eqb _ _); cbn [slack]; change (length (received [(None, OReceive k r)])) with 1; nia.
    + destruct (ready rs j); injection E as <- <-; cbn [set_main spawn fst ws_main slack]; nia.
  - cbn [wstep] in E. destruct (ws_main s); try discriminate. destruct (is_match_second _ _ _ _) as [c' [|]]; injection E as <- <-; cbn [ws_main slack] in *; nia.
  - cbn [wstep] in E. destruct (nth_error _ _) as [t|]; [|discriminate]. destruct (job_step _ _ _ _ _ _ _) as [[[sh' p'] ob]|]; [|discriminate]. injection E as <- <-. cbn [ws_main]. nia.
  - cbn [wstep] in E. destruct (nth_error _ _) as [[key j p sent]|]; [|discriminate]. destruct p; try discriminate. destruct sent; [discriminate|].
    assert (ws_main s' = ws_main s) as -> by (destruct (ws_main s) eqn:Em; try (destruct (Nat.ltb _ _); [|discriminate E]); injection E as <- <-; cbn; congruence). nia.
  - cbn [wstep] in E. injection E as <- <-. cbn [ws_main]. nia.
Qed.
Print Assumptions C35_bounded.

(** With acyclic dependencies the run is never stuck: either the workflow's task can go on, or it waits for GitHub, or a
    finished job's result can be delivered, or some started job has not finished. *)
Theorem C35_never_stuck : forall glob cx wf ls s tr,
  NoDup (keys (wf_jobs wf)) -> wf_jobs wf <> [] -> acyclic wf -> wrun glob cx wf ls s tr ->
  (exists r, ws_main s = WpDone r) \/ main_step glob cx wf s <> None \/ (exists c ev, ws_main s = WpFetch c ev) \/
  (exists i, wstep glob cx wf s (WSend i) <> None) \/ (exists t, In t (ws_tasks s) /\ ~ finished t).
Proof.
  intros glob cx wf ls s tr Hnd Hne Ha R. unfold main_step.
  destruct (ws_main s) as [|c ev| | |t0|t0|t0 w wa [|[k j] rest]|t0 w wa rs|t0 w wa rs [|[k j] todo]|t0 w rs|r|r|r] eqn:Em; try (left; eexists; reflexivity);
    try (right; left; discriminate); try (right; right; left; do 2 eexists; reflexivity).
  - right; left. destruct (wf_on wf); [destruct (is_match_first _ _ _ _)|]; discriminate.
  - right; left. destruct (has_deps j); discriminate.
  - destruct (waits_for_something glob cx wf Hnd _ _ _ _ _ _ _ Ha Hne R Em) as [Hc|(i & t & Ht & Hs)].
    + right; left. destruct (ws_chan s) as [|[k r] ch]; [congruence|discriminate].
    + destruct (ws_chan s) as [|[k r] ch] eqn:Ec; [|right; left; discriminate]. right; right; right.
      destruct t as [key j p sent]. cbn in Hs. subst sent.
      assert (D : (exists r, p = JpReturned r) \/ forall r, p <> JpReturned r) by (destruct p; try (right; intros; discriminate); left; eauto).
      destruct D as [[r ->]|D].
      * left. exists i. cbn [wstep]. rewrite Ht, Em, Ec. cbn. discriminate.
      * right. eexists. split; [eapply nth_error_In; exact Ht|]. intros [r Hr]. apply (D r). exact Hr.
  - right; left. destruct (ready rs j); discriminate.
Qed.
Print Assumptions C35_never_stuck.

(** *** C20 *)
(** A set of jobs that waits for itself (or for a job that does not exist) is never started, and the run never ends. *)
Theorem C20_self_waiting_jobs_hang : forall glob cx wf S ls s tr,
  NoDup (keys (wf_jobs wf)) -> waits_for_itself wf S -> wrun glob cx wf ls s tr ->
  (forall k, S k -> ~ In k (started tr)) /\ (forall r, ws_main s = WpDone r -> wr_state r = Skipped /\ exists c, wf_on wf = Some c).
Proof.
  intros glob cx wf S ls s tr Hnd HS R. assert (St := stuck glob cx wf Hnd _ _ _ S HS R). split; [exact St|].
  intros r Em. destruct (winv glob cx wf Hnd _ _ _ R) as [M _]. rewrite Em in M. cbn [minv] in M.
  destruct M as [(c & Ho & _ & ->)|(chk & recs & (_ & _ & _ & _ & _ & Hc & Ha & _) & Hm)]; [eauto|]. exfalso.
  destruct HS as [(k & Hk & HSk) _]. apply (St k HSk).
  assert (Hr : received tr = recs) by (unfold received; rewrite Hm, received_in_app, received_wmid by exact Hc; apply app_nil_r).
  apply (received_started glob cx wf Hnd _ _ _ _ R). rewrite Hr. apply Ha, Hk.
Qed.
Print Assumptions C20_self_waiting_jobs_hang.

(** Every accepted workflow either has acyclic dependencies or contains such a set; there is no third possibility. *)
Theorem C20_acyclic_or_self_waiting : forall wf, NoDup (keys (wf_jobs wf)) -> acyclic wf \/ exists S, waits_for_itself wf S.
Proof. exact graph_cases. Qed.
Print Assumptions C20_acyclic_or_self_waiting.

(** If a workflow builds and its dependencies are acyclic, then when every started job has finished, and nothing of the
    engine can move any more (no step of the workflow's task, no delivery, no pending GitHub answer), the run has ended.
    With C35_bounded: it ends after boundedly many steps of the workflow's task. Missing for the full claim: accepted
    configs with cycles, for which it is false (below). *)
Theorem C20_acyclic_workflows_finish_partial : forall pd decode env id config uuid wf glob cx ls s tr,
  (forall t w, decode t = inl w -> NoDup (keys (uw_jobs w))) ->
  build pd decode env id config uuid = Ok wf -> acyclic wf -> wrun glob cx wf ls s tr ->
  (forall t, In t (ws_tasks s) -> finished t) ->
  main_step glob cx wf s = None -> (forall i, wstep glob cx wf s (WSend i) = None) -> (forall c ev, ws_main s <> WpFetch c ev) ->
  exists r, ws_main s = WpDone r.
Proof.
  intros pd decode env id config uuid wf glob cx ls s tr HD HB Ha R Hf Hm Hs Hg.
  destruct (C15_C16_built_workflow_shape _ _ _ _ _ _ _ HD HB) as (Hnd & Hne & _).
  destruct (C35_never_stuck glob cx wf ls s tr Hnd Hne Ha R) as [H|[H|[(c & ev & H)|[(i & H)|(t & Ht & H)]]]]; auto.
  - congruence.
  - exfalso. eapply Hg; eauto.
  - exfalso. apply H, Hs.
  - exfalso. auto.
Qed.
Print Assumptions C20_acyclic_workflows_finish_partial.

(** The full claim is false: an accepted config whose run never ends, whatever happens. *)
Definition c20_config := UserWorkflow (Some "w") None
  [("a", UserJob None None None [UCommand (ex_cmd "x")] None None);
   ("b", UserJob None None None [UCommand (ex_cmd "y")] None (Some ["b"]))].
Theorem C20_accepted_config_that_never_finishes_refuted :
  exists wf, build ex_pd (fun _ => inl c20_config) ex_env (Some "id") (Some "text") "uuid" = Ok wf /\
    forall glob cx ls s tr r, wrun glob cx wf ls s tr -> ws_main s <> WpDone r.
Proof.
  eexists. split; [reflexivity|]. intros glob cx ls s tr r R Em.
  match type of R with wrun _ _ ?w _ _ _ => set (wf := w) in * end.
  assert (Hnd : NoDup (keys (wf_jobs wf))). { apply NoDup_keys_insert, NoDup_keys_insert. constructor. }
  assert (HS : waits_for_itself wf (fun k => k = "b")).
  { split; [exists "b"; split; [right; left; reflexivity|reflexivity]|]. intros k ->. exists "b". split; [|auto].
    eexists. split; [right; left; reflexivity|left; reflexivity]. }
  destruct (C20_self_waiting_jobs_hang glob cx wf _ _ _ _ Hnd HS R) as [_ H]. destruct (H r Em) as [_ [c C]]. discriminate C.
Qed.
Print Assumptions C20_accepted_config_that_never_finishes_refuted.

(** *** C37, C36 *)
(** The workflow's own events when it has returned. *)
Theorem C37_life_cycle : forall glob cx wf ls s tr r,
  NoDup (keys (wf_jobs wf)) -> wrun glob cx wf ls s tr -> ws_main s = WpDone r -> wf_story cx wf (events_of None tr) r.
Proof.
  intros glob cx wf ls s tr r Hnd R Em. destruct (winv glob cx wf Hnd _ _ _ R) as [M _]. rewrite Em in M. cbn [minv] in M.
  destruct M as [(c & Ho & -> & ->)|(chk & recs & (t0 & t1 & w & Ht & _ & Hc & Ha & _ & Hf & ->) & ->)]; [apply ws_skipped, Ho|].
  assert (W := ws_run cx wf chk recs w t0 t1 (results_of recs) Hc Ht Hf). cbv zeta in W. cbn [wr_state] in *.
  unfold wmid, whead, ev_run_wf. rewrite <- !app_assoc. apply W.
  - intros k r. apply results_latest.
  - intros k. rewrite results_keys. apply Ha.
  - apply results_nodup.
Qed.
Print Assumptions C37_life_cycle.

(** No job event comes before on_run_workflow and state InProgress, and every participant behaves like one of the jobs. *)
Theorem C37_jobs_run_inside : forall glob cx wf ls s pre i o post,
  NoDup (keys (wf_jobs wf)) -> wrun glob cx wf ls s (pre ++ (Some i, o) :: post) ->
  (exists check rest, lets_run (wf_on wf) check /\
     events_of None pre = check ++ [OHook (HRunWorkflow (RunEvent wf (cm_event (cx_matcher cx)) (cx_payload cx))); wf_state_event wf InProgress] ++ rest) /\
  (exists k j tail r, nth_error (started pre) i = Some k /\ In (k, j) (wf_jobs wf) /\
     job_story cx j (events_of (Some i) (pre ++ (Some i, o) :: post) ++ tail) r).
Proof.
  intros glob cx wf ls s pre i o post Hnd R. destruct (wrun_split glob cx wf _ _ _ R _ _ _ eq_refl) as (ls1 & op & ls2 & s1 & s2 & _ & R1 & E).
  destruct (task_step_who glob cx wf _ _ _ _ _ E) as (jop & t & _ & Ht). destruct (winv glob cx wf Hnd _ _ _ R1) as [M1 [T1 T2 _ _]]. split.
  - assert (Hst : started pre <> []). { rewrite <- T1. destruct (ws_tasks s1); [destruct i; discriminate Ht|discriminate]. }
    unfold started in Hst.
    assert (Q : forall chk l, lets_run (wf_on wf) chk -> events_of None pre = whead cx wf chk ++ l -> exists check rest, lets_run (wf_on wf) check /\
       events_of None pre = check ++ [OHook (HRunWorkflow (RunEvent wf (cm_event (cx_matcher cx)) (cx_payload cx))); wf_state_event wf InProgress] ++ rest).
    { intros chk l Hc He. exists chk, l. split; [exact Hc|]. rewrite He. unfold whead, ev_run_wf. rewrite <- app_assoc. reflexivity. }
    assert (N : forall m, lets_run (wf_on wf) m -> started_in m = []) by (intros m Hc; apply lets_run_quiet in Hc; tauto).
    unfold wmid in M1. destruct (ws_main s1) as [|c ev| | |t0|t0|t0 w wa rest|t0 w wa rs|t0 w wa rs todo|t0 w rs|r|r|r]; cbn [minv] in M1; unfold wmid in M1.
    + exfalso. rewrite M1 in Hst. apply Hst; reflexivity.
    + exfalso. destruct M1 as [_ M1]. rewrite M1 in Hst. apply Hst; reflexivity.
    + exfalso. destruct M1 as (c & _ & M1). rewrite M1 in Hst. apply Hst; reflexivity.
    + exfalso. apply Hst, N, M1.
    + exfalso. apply Hst, N, M1.
    + exfalso. destruct M1 as (_ & chk & Hc & M1). rewrite M1, started_in_app, N in Hst by exact Hc. apply Hst. reflexivity.
    + destruct M1 as (_ & chk & dn & Hc & _ & _ & _ & M1). eapply Q; eauto.
    + destruct M1 as (chk & recs & (_ & Hc & _) & M1). eapply Q; eauto.
    + destruct M1 as (chk & recs & k & r & dn & (_ & Hc & _) & _ & M1). rewrite <- app_assoc in M1. eapply Q; eauto.
    + destruct M1 as (chk & recs & _ & Hc & _ & _ & _ & _ & M1). eapply Q; eauto.
    + destruct M1 as (chk & recs & (_ & _ & _ & _ & _ & Hc & _) & M1). eapply Q; eauto.
    + destruct M1 as (chk & recs & (_ & _ & _ & _ & _ & Hc & _) & M1). rewrite <- app_assoc in M1. eapply Q; eauto.
    + destruct M1 as [(c & _ & M1 & _)|(chk & recs & (_ & _ & _ & _ & _ & Hc & _) & M1)].
      * exfalso. rewrite M1 in Hst. apply Hst; reflexivity.
      * rewrite <- app_assoc in M1. eapply Q; eauto.
  - destruct (winv glob cx wf Hnd _ _ _ R) as [_ [T1' T2' _ _]].
    destruct (task_events glob cx wf _ _ _ i o R) as [t' Ht'].
    { rewrite events_of_app. apply in_or_app. right. unfold events_of. cbn [flat_map fst snd]. rewrite eqb_refl. left; reflexivity. }
    destruct (tasks_run_inv glob cx wf _ _ _ R) as [TR _]. destruct (TR i t' Ht') as (jls & J & _).
    destruct (job_prefix_story glob cx (S i) _ _ _ _ _ J) as (tail & r & Hst).
    exists (tk_key t'), (tk_job t'), tail, r. split; [|split; [apply T2'; eapply nth_error_In; eauto|exact Hst]].
    assert (H1 : nth_error (started pre) i = Some (tk_key t)) by (rewrite <- T1, nth_error_map, Ht; reflexivity).
    assert (H2 : nth_error (started (pre ++ (Some i, o) :: post)) i = Some (tk_key t')) by (rewrite <- T1', nth_error_map, Ht'; reflexivity).
    rewrite started_app, nth_error_app1 in H2; [exact H2|]. apply nth_error_Some. congruence.
Qed.
Print Assumptions C37_jobs_run_inside.

(** The state of the result, the job results it contains. *)
Theorem C36_final_state : forall glob cx wf ls s tr r,
  NoDup (keys (wf_jobs wf)) -> wrun glob cx wf ls s tr -> ws_main s = WpDone r ->
  wr_id r = wf_id wf /\
  ((wr_state r = Skipped /\ wr_jobs r = [] /\ received tr = [] /\ started tr = []) \/
   (wf_final_state (received tr) (wr_state r) /\
    (wr_state r = Succeeded <-> forall x, In x (received tr) -> jr_state (snd x) <> Failed /\ jr_state (snd x) <> Cancelled) /\
    (forall k x, lookup k (wr_jobs r) = Some x <-> latest (received tr) k x))).
Proof.
  intros glob cx wf ls s tr r Hnd R Em. destruct (winv glob cx wf Hnd _ _ _ R) as [M _]. rewrite Em in M. cbn [minv] in M.
  destruct M as [(c & Ho & Hm & ->)|(chk & recs & (t0 & t1 & w & Ht & _ & Hc & Ha & _ & Hf & ->) & Hm)].
  - split; [reflexivity|]. left. unfold received, started. rewrite Hm. auto.
  - split; [reflexivity|]. right. cbn [wr_state wr_jobs].
    assert (Hr : received tr = recs) by (unfold received; rewrite Hm, received_in_app, received_wmid by exact Hc; apply app_nil_r). rewrite Hr.
    split; [exact Hf|]. split; [|intros; apply results_latest]. destruct Hf as [[H1 ->]|(b & x & a & -> & Hb & H2 & ->)].
    + split; [|reflexivity]. intros _ x Hx. specialize (H1 x Hx). tauto.
    + split; intros H; [destruct Hb; congruence|]. destruct (H x) as [? ?]; [apply in_or_app; right; left; reflexivity|]. tauto.
Qed.
Print Assumptions C36_final_state.

(** *** C65: nothing happens after the run has ended *)
(** If no job was started twice, all job tasks have finished when the workflow returns, and no event of any kind follows
    the workflow's completion. Missing for the full claim: jobs started twice; see the refutation. *)
Theorem C65_all_jobs_finished_partial : forall glob cx wf ls s tr r,
  NoDup (keys (wf_jobs wf)) -> wrun glob cx wf ls s tr -> ws_main s = WpDone r -> NoDup (started tr) ->
  (forall t, In t (ws_tasks s) -> finished t) /\
  (forall op s' o, wstep glob cx wf s op = Some (s', o) -> o = []).
Proof.
  intros glob cx wf ls s tr r Hnd R Em Hst.
  assert (F : forall t, In t (ws_tasks s) -> finished t).
  { destruct (winv glob cx wf Hnd _ _ _ R) as [M [T1 _ _ (order & _ & T5 & _)]]. rewrite Em in M. cbn [minv] in M. intros t Ht.
    assert (Hk : In (tk_key t) (started tr)) by (rewrite <- T1; apply in_map, Ht).
    destruct M as [(c & _ & Hm & _)|(chk & recs & (_ & _ & _ & _ & _ & Hc & Ha & _) & Hm)]; [unfold started in Hk; rewrite Hm in Hk; destruct Hk|].
    assert (Hr : received tr = recs) by (unfold received; rewrite Hm, received_in_app, received_wmid by exact Hc; apply app_nil_r).
    destruct (started_is_job glob cx wf Hnd _ _ _ _ R Hk) as (j & Hj & _). apply (in_map fst) in Hj. apply Ha in Hj. rewrite <- Hr in Hj. cbn in Hj.
    apply in_map_iff in Hj as ([k x] & Ek & Hx). cbn in Ek. subst k. destruct (received_task glob cx wf Hnd _ _ _ _ _ R Hx) as (i & t' & Ht' & Hk' & Hp).
    apply In_nth_error in Ht as (i' & Ht). assert (i = i'); [|exists x; congruence].
    rewrite <- T1 in Hst. apply (proj1 (NoDup_nth_error _) Hst).
    - rewrite map_length. apply nth_error_Some. congruence.
    - rewrite !nth_error_map, Ht, Ht'. cbn. congruence. }
  split; [exact F|]. intros op s' o E. destruct op as [|gh|i op|i|e]; cbn [wstep] in E.
  - unfold main_step in E. rewrite Em in E. discriminate.
  - rewrite Em in E. discriminate.
  - destruct (nth_error (ws_tasks s) i) as [t|] eqn:Et; [|discriminate]. destruct (F t (nth_error_In _ _ Et)) as [x Hx]. rewrite Hx in E. destruct op; discriminate.
  - destruct (nth_error _ _) as [[key j p sent]|]; [|discriminate]. destruct p; try discriminate. destruct sent; [discriminate|]. rewrite Em in E. injection E as <- <-. reflexivity.
  - injection E as <- <-. reflexivity.
Qed.
Print Assumptions C65_all_jobs_finished_partial.

(** *** C66: jobs do not crash *)
(** If no job was started twice, the job ids differ, the steps carry their job's id, and nobody outside interferes with
    the registry, then no job task ever crashes. Missing for the full claim: jobs started twice; see the refutation. *)
Theorem C66_no_crash_partial : forall glob cx wf ls s tr,
  NoDup (keys (wf_jobs wf)) -> wrun glob cx wf ls s tr -> NoDup (started tr) -> distinct_ids wf ->
  (forall k j, In (k, j) (wf_jobs wf) -> owns_steps j) -> (forall op, In op ls -> well_behaved wf op) ->
  forall t, In t (ws_tasks s) -> ~ crashed t.
Proof.
  intros glob cx wf ls s tr Hnd R Hst Hid Hown Hwb t Ht (t0 & js & rs & why & rest & Hp).
  destruct (winv glob cx wf Hnd _ _ _ R) as [_ [T1 T2 _ _]]. destruct (tasks_run_inv glob cx wf _ _ _ R) as [TR _].
  apply In_nth_error in Ht as (i & Ht). destruct (TR i t Ht) as (jls & J & L). rewrite Hp in J.
  assert (Hj := T2 t (nth_error_In _ _ Ht)).
  assert (Q : forall l, In l jls -> quiet (tk_job t) l /\ keeps_job l).
  { intros l Hl. specialize (L l Hl). destruct l as [op|e]; cbn in L.
    - split; [exact I|]. specialize (Hwb _ L). cbn in Hwb. exact Hwb.
    - split; [|exact I]. assert (D : forall x, (e = ESig (MRegister x) \/ e = ESig (MUnregister x)) -> x <> jb_id (tk_job t)).
      { intros x Hx. destruct L as [L|L].
        - specialize (Hwb _ L). destruct Hx as [-> | ->]; cbn in Hwb; eapply Hwb; eauto.
        - destruct (L x Hx) as (k & t' & Hk & Ht' & ->). intros C. assert (Hj' := T2 t' (nth_error_In _ _ Ht')).
          assert (Ek := Hid _ _ _ _ Hj' Hj C). apply Hk. rewrite <- T1 in Hst. apply (proj1 (NoDup_nth_error _) Hst).
          + rewrite map_length. apply nth_error_Some. congruence.
          + rewrite !nth_error_map, Ht, Ht'. cbn. congruence. }
      destruct e as [d|so|c]; try exact I. destruct so; try exact I; cbn; apply D; auto. }
  destruct (C31_registration glob cx (S i) (tk_job t) jls _ _ _ (Hown _ _ Hj) J Q) as (_ & H).
  eapply H; reflexivity.
Qed.
Print Assumptions C66_no_crash_partial.

(** *** Witnesses *)
(** A config accepted by the builder: [a] and [b] are independent, [c] depends on [a]. *)
Definition c33_config := UserWorkflow (Some "w") None
  [("a", UserJob None None None [UCommand (ex_cmd "x")] None None);
   ("b", UserJob None None None [UCommand (ex_cmd "y")] None None);
   ("c", UserJob None None None [UCommand (ex_cmd "z")] None (Some ["a"]))].
Definition c33_jb (k r : string) (deps : list string) : job :=
  Job (JobId "id" k) None None [Step (StepId "id" k 0) None None None r false [] [] (Duration 3600 0)] deps [].
Definition c33_wf : workflow := Workflow (WorkflowId "id") (Some "w") None [("a", c33_jb "a" "x" []); ("b", c33_jb "b" "y" []); ("c", c33_jb "c" "z" ["a"])].
Example c33_built : build ex_pd (fun _ => inl c33_config) ex_env (Some "id") (Some "text") "uuid" = Ok c33_wf.
Proof. reflexivity. Qed.

Definition job_begin : list job_op := repeat JNext 6.
Definition job_open : list job_op :=
  JStep (OpBefore c26_hooks) :: repeat (JStep OpNext) 5 ++ [JStep (OpAnswer true); JStep OpNext; JStep OpNext].
Definition job_close (rr : run_result) : list job_op :=
  [JStep (OpRunner (REndCheck 1 rr)); JStep (OpRunner (REndCommit 1)); JStep OpStream] ++ repeat (JStep OpNext) 4 ++ repeat JNext 5.
Definition whole_job (i : nat) (rr : run_result) : list wop := map (WTaskOp i) (job_begin ++ job_open ++ job_close rr) ++ [WSend i].

Definition c33_sh : shared := Shared 0%N sm_init None.
(** [a] finishes, [c] is started; [b] finishes while [c] is running: [c] is started a second time; both run to the end. *)
Definition c33_run : list wop :=
  repeat WMain 8 ++ whole_job 0 RSucceeded ++ repeat WMain 3 ++ whole_job 1 RSucceeded ++ repeat WMain 3 ++
  whole_job 2 RSucceeded ++ whole_job 3 RSucceeded ++ repeat WMain 4.

Theorem C33_job_started_twice_refuted :
  exists ls s tr r, wrun (fun _ => None) c26_cx c33_wf ls s tr /\ ws_main s = WpDone r /\ wr_state r = Succeeded /\
    (forall op, In op ls -> well_behaved c33_wf op) /\
    started tr = ["a"; "b"; "c"; "c"] /\
    (* the runner was called twice for the same step *)
    (exists c, In (ORun c) (events_of (Some 2) tr) /\ In (ORun c) (events_of (Some 3) tr) /\ rx_id c = StepId "id" "c" 0) /\
    (* and both instances told the plugins that the job completed *)
    (exists r2 r3, In (OHook (HJobCompleted r2)) (events_of (Some 2) tr) /\ In (OHook (HJobCompleted r3)) (events_of (Some 3) tr) /\
       jr_id r2 = JobId "id" "c" /\ jr_id r3 = JobId "id" "c").
Proof.
  exists c33_run. do 3 eexists. split.
  { eapply (wexec_run (fun _ => None) c26_cx c33_wf c33_run [] (winit c33_sh) []); [constructor|vm_compute; reflexivity]. }
  split; [reflexivity|]. split; [reflexivity|]. split.
  { intros op Hop. apply Forall_forall with (P := well_behaved c33_wf) (l := c33_run); [|exact Hop]. repeat constructor. }
  split; [reflexivity|]. split.
  - eexists. split; [vm_compute; do 4 right; left; reflexivity|]. split; [vm_compute; do 4 right; left; reflexivity|]. reflexivity.
  - do 2 eexists. split; [vm_compute; repeat (first [left; reflexivity | right])|]. split; [vm_compute; repeat (first [left; reflexivity | right])|].
    split; reflexivity.
Qed.
Print Assumptions C33_job_started_twice_refuted.

(** The first [c] ends the run while the second is still running: its events follow on_workflow_completed. *)
Definition c65_run : list wop :=
  repeat WMain 8 ++ whole_job 0 RSucceeded ++ repeat WMain 3 ++ whole_job 1 RSucceeded ++ repeat WMain 3 ++
  whole_job 2 RSucceeded ++ repeat WMain 4 ++ whole_job 3 RSucceeded.
Theorem C65_events_after_completion_refuted :
  exists ls s tr pre r post, wrun (fun _ => None) c26_cx c33_wf ls s tr /\ (forall op, In op ls -> well_behaved c33_wf op) /\
    tr = pre ++ (None, OHook (HWorkflowCompleted r)) :: post /\
    (exists e, In (Some 3, OHook (HRunJob e)) post) /\ (exists c, In (Some 3, ORun c) post).
Proof.
  exists c65_run. destruct (wexec (fun _ => None) c26_cx c33_wf (winit c33_sh) c65_run) as [[s tr]|] eqn:E; [|vm_compute in E; discriminate E].
  assert (R := wexec_run (fun _ => None) c26_cx c33_wf c65_run [] (winit c33_sh) [] _ _ (wrun_init _ _ _ c33_sh) E). cbn [app] in R.
  exists s, tr, (firstn (length tr - 11) tr). vm_compute in E. injection E as <- <-. do 2 eexists. split; [exact R|]. split.
  { intros op Hop. apply Forall_forall with (P := well_behaved c33_wf) (l := c65_run); [|exact Hop]. repeat constructor. }
  split; [reflexivity|]. split; [eexists; left; reflexivity|]. eexists. do 4 right. left. reflexivity.
Qed.
Print Assumptions C65_events_after_completion_refuted.

(** The two instances of [c] overlap; the first one to finish unregisters the job's signal and the other crashes. *)
Definition c66_run : list wop :=
  repeat WMain 8 ++ whole_job 0 RSucceeded ++ repeat WMain 3 ++ whole_job 1 RSucceeded ++ repeat WMain 3 ++
  map (WTaskOp 2) job_begin ++ map (WTaskOp 3) job_begin ++ map (WTaskOp 2) (job_open ++ job_close RSucceeded) ++
  map (WTaskOp 3) (JStep (OpBefore c26_hooks) :: repeat (JStep OpNext) 4).
Theorem C66_crash_refuted :
  exists ls s tr t, wrun (fun _ => None) c26_cx c33_wf ls s tr /\ (forall op, In op ls -> well_behaved c33_wf op) /\
    In t (ws_tasks s) /\ crashed t.
Proof.
  exists c66_run. do 3 eexists. split.
  { eapply (wexec_run (fun _ => None) c26_cx c33_wf c66_run [] (winit c33_sh) []); [constructor|vm_compute; reflexivity]. }
  split.
  { intros op Hop. apply Forall_forall with (P := well_behaved c33_wf) (l := c66_run); [|exact Hop]. repeat constructor. }
  split; [do 3 right; left; reflexivity|]. do 5 eexists. reflexivity.
Qed.
Print Assumptions C66_crash_refuted.

(** *** Non-vacuity *)
(** A chain a <- c with parallel-free jobs: comparable, acyclic, distinct ids; a complete run in which [c] is skipped by a
    failure of nothing, i.e. both succeed. *)
Definition chain_wf : workflow := Workflow (WorkflowId "id") (Some "w") None [("c", c33_jb "c" "z" ["a"]); ("a", c33_jb "a" "x" [])].
Definition chain_run : list wop := repeat WMain 7 ++ whole_job 0 (RFailed 2) ++ repeat WMain 3 ++ whole_job 1 RSucceeded ++ repeat WMain 4.
Example workflow_nonvacuous :
  NoDup (keys (wf_jobs chain_wf)) /\ comparable chain_wf /\ acyclic chain_wf /\ distinct_ids chain_wf /\
  (forall k j, In (k, j) (wf_jobs chain_wf) -> owns_steps j) /\ (forall op, In op chain_run -> well_behaved chain_wf op) /\
  exists s tr r, wrun (fun _ => None) c26_cx chain_wf chain_run s tr /\ ws_main s = WpDone r /\ wr_state r = Failed /\
    started tr = ["a"; "c"] /\ map (fun x => (fst x, jr_state (snd x))) (received tr) = [("a", Failed); ("c", Succeeded)] /\
    main_step (fun _ => None) c26_cx chain_wf s = None.
Proof.
  split; [repeat constructor; cbn; intuition discriminate|]. split.
  { intros k j [E|[E|[]]]; injection E as <- <-; cbn; [|congruence]. intros _ k' [<-|[<-|[]]]; [auto|]. right; left. apply dt_one. eexists. split; [left; reflexivity|left; reflexivity]. }
  split.
  { exists (fun k => if eqb k "a" then 0 else 1). intros k d (j & [E|[E|[]]] & Hd); injection E as <- <-; cbn in Hd; [|destruct Hd]. destruct Hd as [<-|[]].
    split; [right; left; reflexivity|cbn; lia]. }
  split. { intros k k' j j' [E|[E|[]]] [E'|[E'|[]]]; injection E as <- <-; injection E' as <- <-; cbn; congruence. }
  split. { intros k j [E|[E|[]]] st; injection E as <- <-; intros [<-|[]]; reflexivity. }
  split. { intros op Hop. apply Forall_forall with (P := well_behaved chain_wf) (l := chain_run); [|exact Hop]. repeat constructor. }
  do 3 eexists. split.
  { eapply (wexec_run (fun _ => None) c26_cx chain_wf chain_run [] (winit c33_sh) []); [constructor|vm_compute; reflexivity]. }
  repeat split.
Qed.
