(** Properties C86-C94: the exact form of what holds where C03, C06, C09, C14, C42, C65, C66 fail as first stated; ids nest
    (C93); results are final (C94). *)
From Verif Require Import Base Types Ids_model Ids_spec Ids_proof Signals_model Signals_spec Signals_proof Stream_model Stream_spec Stream_proof
  Cond_model Cond_spec Cond_proof Cond_props Plugins_model Exec_model Exec_spec Step_proof Job_proof Reg_proof Step_props Job_props
  Workflow_model Workflow_spec Workflow_proof Workflow_inv Workflow_term Workflow_props Sched_model Sched_spec Exact_spec Exact_proof Exact_crash.

(** C86: two different ids print alike exactly when they cut one text at different slashes; in particular never within
    one workflow. *)
Theorem C86_job_ids_print_alike : forall j j', j <> j' ->
  (show_job_id j = show_job_id j' <->
   cut_differently (jid_0 j) (jid_1 j) (jid_0 j') (jid_1 j') \/ cut_differently (jid_0 j') (jid_1 j') (jid_0 j) (jid_1 j)).
Proof. exact job_ids_alike. Qed.
Print Assumptions C86_job_ids_print_alike.
Theorem C86_step_ids_print_alike : forall i i', i <> i' ->
  (show_step_id i = show_step_id i' <->
   sid_2 i = sid_2 i' /\ (cut_differently (sid_0 i) (sid_1 i) (sid_0 i') (sid_1 i') \/ cut_differently (sid_0 i') (sid_1 i') (sid_0 i) (sid_1 i))).
Proof. exact step_ids_alike. Qed.
Print Assumptions C86_step_ids_print_alike.
Theorem C86_distinct_within_a_workflow : (forall j j', jid_0 j = jid_0 j' -> show_job_id j = show_job_id j' -> j = j') /\
  (forall i i', sid_0 i = sid_0 i' -> show_step_id i = show_step_id i' -> i = i').
Proof.
  split.
  - intros j j' E P. destruct (eq_dec j j') as [|N]; [assumption|]. exfalso. apply (job_ids_alike _ _ N) in P as [C|C]; apply cut_ne in C; congruence.
  - intros i i' E P. destruct (eq_dec i i') as [|N]; [assumption|]. exfalso. apply (step_ids_alike _ _ N) in P as [_ [C|C]]; apply cut_ne in C; congruence.
Qed.
Print Assumptions C86_distinct_within_a_workflow.
Example C86_nonvacuous : cut_differently "a/b" "c" "a" "b/c" /\ ~ cut_differently "a" "b" "a" "c".
Proof. split; [exists "a", "b", "c"; auto|]. intros C. apply cut_ne in C. congruence. Qed.

(** C87: in the whole life of a signal at most one task is woken, and it is the one that polled last before the signal was
    first raised. *)
Theorem C87_at_most_one_task_is_woken : forall ops, length (woken ops) <= 1.
Proof. exact woken_at_most_one. Qed.
Print Assumptions C87_at_most_one_task_is_woken.
Theorem C87_which_task_is_woken : forall ops t, In t (woken ops) <->
  exists pre o post, ops = pre ++ o :: post /\ raises o <> None /\ never_raised pre /\ last_poller pre t.
Proof. exact woken_exact. Qed.
Print Assumptions C87_which_task_is_woken.
Example C87_nonvacuous : woken [OPoll 1; OPoll 2; OCancel; OPoll 1; OTimeout] = [2].
Proof. reflexivity. Qed.

(** C88: the result of a stream, under every interleaving of end calls: that of the last call that stored one, a call storing
    its result iff it found none when it looked. *)
Theorem C88_result_of_a_stream : forall ops r, stream_output ops SResult = SOResult (Some r) <-> stored_last ops r.
Proof.
  intros ops r. rewrite <- stored_last_spec. unfold stream_output. cbn. split; [congruence|]. intros ->. reflexivity.
Qed.
Print Assumptions C88_result_of_a_stream.
Theorem C88_no_result : forall ops, stream_output ops SResult = SOResult None <-> forall r, ~ stored_last ops r.
Proof.
  intros ops. assert (L := stored_last_spec ops). unfold stream_output. cbn. destruct (ss_result (stream_after ops)) as [r|].
  - split; [discriminate|]. intros H. destruct (H r). apply L. reflexivity.
  - split; [|reflexivity]. intros _ r C. apply L in C. discriminate.
Qed.
Print Assumptions C88_no_result.
Example C88_nonvacuous :
  stored_last [SEndCheck 1 RSucceeded; SEndCheck 2 RCancelled; SEndCommit 2; SEndCommit 1; SEndCheck 3 (RFailed 9); SEndCommit 3] RSucceeded /\
  ~ stored_last [SEndCheck 1 RSucceeded; SEndCheck 2 RCancelled; SEndCommit 2; SEndCommit 1; SEndCheck 3 (RFailed 9); SEndCommit 3] (RFailed 9).
Proof. split; [apply stored_last_spec; reflexivity|]. intros C. apply stored_last_spec in C. vm_compute in C. discriminate C. Qed.

(** C89: with credentials and an event, a check asks GitHub iff no fetch of the history has delivered; otherwise it decides
    at once, on the files of the last fetch that delivered. A check that asked decides on its own files, and lets the
    subject run when it got none. *)
Theorem C89_which_files_decide : forall glob m ev ops call c, cm_event m = Some ev -> cm_auth m = true ->
  (forall b, cm_output glob m ops (CmStart call c) = CmAnswer b <->
     exists files, last_fetched glob m ev ops files /\ (b = true <-> condition_holds glob c (ConditionPayload (te_event ev) (te_branch ev) files))) /\
  (cm_output glob m ops (CmStart call c) = CmFetching <-> forall files, ~ last_fetched glob m ev ops files).
Proof. intros glob m ev ops call c He Ha. apply start_answers; assumption. Qed.
Print Assumptions C89_which_files_decide.
Theorem C89_own_fetch_decides : forall glob m ops call gh c ev, lookup call (cms_inflight (cm_after glob m ops)) = Some (c, ev) ->
  exists b, cm_output glob m ops (CmFinish call gh) = CmAnswer b /\
    (b = false <-> exists files, files_fetched gh ev files /\ ~ condition_holds glob c (ConditionPayload (te_event ev) (te_branch ev) files)).
Proof.
  intros glob m ops call gh c ev El.
  assert (X : exists b, cm_output glob m ops (CmFinish call gh) = CmAnswer b).
  { unfold cm_output. cbn [cm_step snd]. rewrite El. destruct (is_match_second _ _ _ _) as [ch b]. exists b. reflexivity. }
  destruct X as [b X]. exists b. split; [exact X|]. eapply finish_answer; eassumption.
Qed.
Print Assumptions C89_own_fetch_decides.
Example C89_nonvacuous :
  let m := Matcher true (Some demo_event) in
  let ops := [CmStart 0 (CEvent ["push"]); CmStart 1 (CEvent ["push"]); CmFinish 0 (demo_gh ["a"]); CmFinish 1 (demo_gh ["b"])] in
  last_fetched demo_glob m demo_event ops ["b"] /\ ~ last_fetched demo_glob m demo_event ops ["a"].
Proof.
  cbv zeta. split.
  - destruct (proj1 (last_fetched_spec demo_glob (Matcher true (Some demo_event)) demo_event eq_refl
      [CmStart 0 (CEvent ["push"]); CmStart 1 (CEvent ["push"]); CmFinish 0 (demo_gh ["a"]); CmFinish 1 (demo_gh ["b"])] (ConditionPayload "push" "main" ["b"])) eq_refl) as (f & H & E). injection E as <-. exact H.
  - intros H. assert (E := proj2 (last_fetched_spec demo_glob (Matcher true (Some demo_event)) demo_event eq_refl _ (ConditionPayload "push" "main" ["a"])) (ex_intro _ ["a"] (conj H eq_refl))). vm_compute in E. discriminate E.
Qed.

(** C90: changing the advertised limits and versions of the runners changes nothing about scheduling. *)
Theorem C90_limits_and_versions_are_ignored : forall limit version ops m tr, sched_run ops m tr ->
  exists m', sched_run (map (relabel_op limit version) ops) m' (map (relabel_event limit version) tr).
Proof. intros limit version ops m tr R. eexists. apply run_relabel, R. Qed.
Print Assumptions C90_limits_and_versions_are_ignored.
Definition c90_runner := RunnerMeta "c" "linux" "x86" true true "1.0" 1.
Definition c90_ops := [SBegin 1 (SchedReq [c90_runner] (StepId "v" "j" 0) None); SNext 1; SNext 1].
Example C90_nonvacuous : exists m tr, sched_run c90_ops m tr /\ length tr = 3 /\
  In (EvReturned 1 (SchedReq [c90_runner] (StepId "v" "j" 0) None) (Some c90_runner)) tr /\
  In (EvReturned 1 (SchedReq [RunnerMeta "c" "linux" "x86" true true "" 0] (StepId "v" "j" 0) None) (Some (RunnerMeta "c" "linux" "x86" true true "" 0)))
    (map (relabel_event (fun _ => 0%Z) (fun _ => "")) tr).
Proof.
  do 2 eexists. split.
  - unfold c90_ops. change [SBegin 1 (SchedReq [c90_runner] (StepId "v" "j" 0) None); SNext 1; SNext 1] with ((([] ++ [SBegin 1 (SchedReq [c90_runner] (StepId "v" "j" 0) None)]) ++ [SNext 1]) ++ [SNext 1]).
    eapply sched_run_step; [eapply sched_run_step; [eapply sched_run_step; [constructor|]|]|]; vm_compute; reflexivity.
  - vm_compute. auto 6.
Qed.

(** C91: what is still going on when a workflow has returned: only further instances of jobs another instance of which has
    finished; and only they emit events from then on. *)
Theorem C91_only_extra_instances_outlive_the_run : forall glob cx wf ls s tr r,
  NoDup (keys (wf_jobs wf)) -> wrun glob cx wf ls s tr -> ws_main s = WpDone r ->
  (forall i t, nth_error (ws_tasks s) i = Some t -> ~ finished t ->
     exists i' t', i' <> i /\ nth_error (ws_tasks s) i' = Some t' /\ tk_key t' = tk_key t /\ finished t') /\
  (forall op s' o w e, wstep glob cx wf s op = Some (s', o) -> In (w, e) o ->
     exists i t, w = Some i /\ nth_error (ws_tasks s) i = Some t /\ ~ finished t).
Proof.
  intros glob cx wf ls s tr r Hnd R Em. split.
  - destruct (winv glob cx wf Hnd _ _ _ R) as [M [T1 _ _ (order & _ & T5 & _)]]. rewrite Em in M. cbn [minv] in M. intros i t Hi Hn. assert (Ht := nth_error_In _ _ Hi).
    assert (Hk : In (tk_key t) (started tr)) by (rewrite <- T1; apply in_map, Ht).
    destruct M as [(c & _ & Hm & _)|(chk & recs & (_ & _ & _ & _ & _ & Hc & Ha & _) & Hm)]; [unfold started in Hk; rewrite Hm in Hk; destruct Hk|].
    assert (Hr : received tr = recs) by (unfold received; rewrite Hm, received_in_app, received_wmid by exact Hc; apply app_nil_r).
    destruct (started_is_job glob cx wf Hnd _ _ _ _ R Hk) as (j & Hj & _). apply (in_map fst) in Hj. apply Ha in Hj. rewrite <- Hr in Hj. cbn in Hj.
    apply in_map_iff in Hj as ([k x] & Ek & Hx). cbn in Ek. subst k. destruct (received_task glob cx wf Hnd _ _ _ _ _ R Hx) as (i' & t' & Ht' & Hk' & Hp).
    exists i', t'. assert (F : finished t') by (exists x; exact Hp). split; [|auto]. intros ->. apply Hn. congruence.
  - intros op s' o w e E Hin. destruct op as [|gh|i op|i|en]; cbn [wstep] in E.
    + unfold main_step in E. rewrite Em in E. discriminate.
    + rewrite Em in E. discriminate.
    + destruct (nth_error (ws_tasks s) i) as [t|] eqn:Et; [|discriminate]. destruct (job_step _ _ _ _ _ _ _) as [[[sh' p'] ob]|] eqn:Ej; [|discriminate]. injection E as <- <-.
      apply in_map_iff in Hin as (x & Ex & _). injection Ex as <- <-. exists i, t. split; [reflexivity|]. split; [exact Et|]. intros [x' Hx]. rewrite Hx in Ej. destruct op; discriminate.
    + destruct (nth_error _ _) as [[key j p sent]|]; [|discriminate]. destruct p; try discriminate. destruct sent; [discriminate|]. rewrite Em in E. injection E as <- <-. destruct Hin.
    + injection E as <- <-. destruct Hin.
Qed.
Print Assumptions C91_only_extra_instances_outlive_the_run.

Definition c91_run : list wop :=
  repeat WMain 8 ++ whole_job 0 RSucceeded ++ repeat WMain 3 ++ whole_job 1 RSucceeded ++ repeat WMain 3 ++ whole_job 2 RSucceeded ++ repeat WMain 4.
Example C91_nonvacuous : NoDup (keys (wf_jobs c33_wf)) /\
  exists s tr r t, wrun (fun _ => None) c26_cx c33_wf c91_run s tr /\ ws_main s = WpDone r /\ nth_error (ws_tasks s) 3 = Some t /\ ~ finished t /\ tk_key t = "c".
Proof.
  split; [repeat constructor; cbn; intuition discriminate|]. do 4 eexists. split.
  { eapply (wexec_run (fun _ => None) c26_cx c33_wf c91_run [] (winit c33_sh) []); [constructor|vm_compute; reflexivity]. }
  split; [reflexivity|]. split; [reflexivity|]. split; [intros [x C]; discriminate C|reflexivity].
Qed.

(** C92: a job task crashes only if another instance of the same job, started by the same run, has unregistered the signal
    they share. *)
Theorem C92_crash_needs_a_finished_twin : forall glob cx wf ls s tr,
  NoDup (keys (wf_jobs wf)) -> wrun glob cx wf ls s tr -> distinct_ids wf ->
  (forall k j, In (k, j) (wf_jobs wf) -> owns_steps j) -> (forall op, In op ls -> well_behaved wf op) ->
  forall i t, nth_error (ws_tasks s) i = Some t -> crashed t ->
  exists i' t', i' <> i /\ nth_error (ws_tasks s) i' = Some t' /\ tk_key t' = tk_key t /\ signed_off (tk_phase t').
Proof.
  intros glob cx wf ls s tr Hnd R Hid Hown Hwb i t Hi C. apply (cinv_run glob cx wf Hnd Hid Hown ls s tr R Hwb i t Hi). exact C.
Qed.
Print Assumptions C92_crash_needs_a_finished_twin.
(** So a job that was started once never crashes, whatever happens to the others. *)
Theorem C92_started_once_never_crashes : forall glob cx wf ls s tr k,
  NoDup (keys (wf_jobs wf)) -> wrun glob cx wf ls s tr -> distinct_ids wf ->
  (forall k j, In (k, j) (wf_jobs wf) -> owns_steps j) -> (forall op, In op ls -> well_behaved wf op) ->
  (exists pre post, started tr = pre ++ k :: post /\ ~ In k pre /\ ~ In k post) ->
  forall t, In t (ws_tasks s) -> tk_key t = k -> ~ crashed t.
Proof.
  intros glob cx wf ls s tr k Hnd R Hid Hown Hwb (pre & post & Es & N1 & N2) t Ht Ek C. apply In_nth_error in Ht as (i & Hi).
  destruct (C92_crash_needs_a_finished_twin _ _ _ _ _ _ Hnd R Hid Hown Hwb i t Hi C) as (i' & t' & Hne & Hi' & Ek' & _).
  destruct (winv glob cx wf Hnd _ _ _ R) as [_ [T1 _ _ _]]. rewrite Es in T1.
  assert (P : forall n x, nth_error (ws_tasks s) n = Some x -> tk_key x = k -> n = length pre).
  { intros n x Hn Hk. assert (Q : nth_error (pre ++ k :: post) n = Some k) by (rewrite <- T1, nth_error_map, Hn; cbn; congruence).
    destruct (Nat.lt_trichotomy n (length pre)) as [L|[L|L]]; [|exact L|]; exfalso.
    - rewrite nth_error_app1 in Q by exact L. apply N1. eapply nth_error_In, Q.
    - rewrite nth_error_app2 in Q by lia. destruct (n - length pre) as [|d] eqn:Ed; [lia|]. cbn in Q. apply N2. eapply nth_error_In, Q. }
  apply Hne. rewrite (P _ _ Hi Ek), (P _ _ Hi') by congruence. reflexivity.
Qed.
Print Assumptions C92_started_once_never_crashes.
(** The run of [C66_crash_refuted] meets the hypotheses of the first, that of [workflow_nonvacuous] those of the second. *)
Example C92_nonvacuous :
  NoDup (keys (wf_jobs c33_wf)) /\ distinct_ids c33_wf /\ (forall k j, In (k, j) (wf_jobs c33_wf) -> owns_steps j) /\
  (forall op, In op c66_run -> well_behaved c33_wf op) /\
  exists s tr t, wrun (fun _ => None) c26_cx c33_wf c66_run s tr /\ nth_error (ws_tasks s) 3 = Some t /\ crashed t /\ started tr = ["a"; "b"; "c"; "c"].
Proof.
  split; [repeat constructor; cbn; intuition discriminate|]. split.
  { intros k k' j j' [E|[E|[E|[]]]] [E'|[E'|[E'|[]]]]; injection E as <- <-; injection E' as <- <-; cbn; congruence. }
  split. { intros k j [E|[E|[E|[]]]] st; injection E as <- <-; intros [<-|[]]; reflexivity. }
  split. { intros op Hop. apply Forall_forall with (P := well_behaved c33_wf) (l := c66_run); [|exact Hop]. repeat constructor. }
  do 3 eexists. split.
  { eapply (wexec_run (fun _ => None) c26_cx c33_wf c66_run [] (winit c33_sh) []); [constructor|vm_compute; reflexivity]. }
  split; [reflexivity|]. split; [do 5 eexists; reflexivity|]. reflexivity.
Qed.

(** C93: ids nest: the job id of a step id and the workflow id of either are what precedes in the printed form. *)
Theorem C93_ids_nest : 
  (forall j, show_job_id j = show_workflow_id (job_id_workflow_id j) +++ "/" +++ job_id_job_key j) /\
  (forall i, show_step_id i = show_job_id (step_id_job_id i) +++ "/" +++ show_usize (sid_2 i)) /\
  (forall i, job_id_workflow_id (step_id_job_id i) = step_id_workflow_id i) /\ (forall i, job_id_job_key (step_id_job_id i) = step_id_job_key i) /\
  (forall i, step_id_step_number i = sid_2 i) /\
  (forall i i', step_id_job_id i = step_id_job_id i' -> step_id_step_number i = step_id_step_number i' -> i = i').
Proof.
  split; [intros [a b]; reflexivity|]. split; [intros [a b n]; unfold show_step_id, show_job_id, step_id_job_id; cbn [sid_0 sid_1 sid_2 jid_0 jid_1]; rewrite !append_assoc; reflexivity|].
  split; [intros [a b n]; reflexivity|]. split; [intros [a b n]; reflexivity|]. split; [reflexivity|].
  intros [a b n] [a' b' n'] E1 E2. unfold step_id_job_id, step_id_step_number in *. cbn in *. congruence.
Qed.
Print Assumptions C93_ids_nest.
Theorem C93_projections_of_parsed_ids : forall t i, parse_step_id t = Ok i ->
  exists n, t = show_job_id (step_id_job_id i) +++ "/" +++ n /\ slash_free n /\ parse_job_id (show_job_id (step_id_job_id i)) = Ok (step_id_job_id i) /\ usize_text n (step_id_step_number i).
Proof.
  intros t i H. apply parse_step_id_ok in H as (n & -> & H1 & H2 & H3). exists n. split; [|split; [|split]].
  - destruct i as [a b k]. unfold show_job_id, step_id_job_id. cbn [sid_0 sid_1 jid_0 jid_1]. rewrite !append_assoc. reflexivity.
  - destruct H3 as [_ [D|(u & -> & D)]]; [eapply decimal_slash_free, D|]. cbn. split; [discriminate|eapply decimal_slash_free, D].
  - apply job_id_roundtrip. destruct i; cbn; auto.
  - exact H3.
Qed.
Print Assumptions C93_projections_of_parsed_ids.

Example C93_nonvacuous : parse_step_id "w/j/+7" = Ok (StepId "w" "j" 7) /\ show_job_id (step_id_job_id (StepId "w" "j" 7)) = "w/j" /\ job_id_workflow_id (JobId "w" "j") = WorkflowId "w".
Proof. repeat split. Qed.

(** C94: whatever is returned or reported as a result has a final state. *)
Theorem C94_final_states : forall s, is_terminal s = true <-> s <> Pending /\ s <> Queued /\ s <> InProgress.
Proof. destruct s; cbn; intuition congruence. Qed.
Print Assumptions C94_final_states.
Theorem C94_step_results_are_final : forall cx me st0 ls sh r tr, srun cx me st0 ls sh (SpDone r) tr -> is_terminal (sr_state r) = true.
Proof.
  intros cx me st0 ls sh r tr R. apply step_done_story in R as (st & t0 & t1 & _ & _ & _ & _ & _ & [(E & _)|(rr & lg & M & _)]); [rewrite E; reflexivity|].
  destruct rr; destruct M as [E _]; rewrite E; reflexivity.
Qed.
Print Assumptions C94_step_results_are_final.
Theorem C94_job_results_are_final : forall glob cx me j ls sh r tr, jrun glob cx me j ls sh (JpReturned r) tr ->
  is_terminal (jr_state r) = true /\ forall e, In e (jr_steps r) -> is_terminal (sr_state e) = true.
Proof.
  intros glob cx me j ls sh r tr R. destruct (C30_final_state _ _ _ _ _ _ _ _ R) as [H1 H2].
  assert (Hs : forall e, In e (jr_steps r) -> is_terminal (sr_state e) = true).
  { intros e He. destruct (eq_dec (jr_state r) Skipped) as [Es|Ns].
    - apply job_done_story in R. inversion R as [c Ho E1 E2|chk evs rs s t0 t1 G1 G2 G3 G4 r0 E1 E2]; subst; [destruct He|]. cbn in Es. subst s. destruct G3 as [[_ C]|[(_ & _ & C)|(_ & C)]]; discriminate C.
    - destruct (In_nth_error _ _ He) as (n & Hn). assert (F := C28_results _ _ _ _ _ _ _ _ R Ns). clear - F He. induction F as [|st x l l' Hx F IH]; [destruct He|]. destruct He as [<-|He]; [|auto].
      destruct Hx as [Hx|(st' & _ & _ & [E|[E|E]])]; [|rewrite E; reflexivity..]. destruct Hx as (_ & E & _). rewrite E. reflexivity. }
  split; [|exact Hs].
  apply job_done_story in R. inversion R as [c Ho E1 E2|chk evs rs s t0 t1 G1 G2 G3 G4 r0 E1 E2]; subst; [reflexivity|]. cbn. destruct G3 as [[_ ->]|[(_ & _ & ->)|(_ & ->)]]; reflexivity.
Qed.
Print Assumptions C94_job_results_are_final.
Theorem C94_workflow_results_are_final : forall glob cx wf ls s tr r, NoDup (keys (wf_jobs wf)) -> wrun glob cx wf ls s tr -> ws_main s = WpDone r ->
  is_terminal (wr_state r) = true /\ forall k x, lookup k (wr_jobs r) = Some x -> is_terminal (jr_state x) = true.
Proof.
  intros glob cx wf ls s tr r Hnd R Em. destruct (C36_final_state _ _ _ _ _ _ _ Hnd R Em) as [_ [(E & Ej & _)|(F & _ & L)]].
  - rewrite E, Ej. split; [reflexivity|discriminate].
  - split.
    + destruct F as [[_ ->]|(b & x & a & _ & [Hx|Hx] & _ & ->)]; [reflexivity| |]; rewrite Hx; reflexivity.
    + intros k x Hx. apply L in Hx as (b & a & Er & _). assert (Hin : In (k, x) (received tr)) by (rewrite Er; apply in_or_app; right; left; reflexivity).
      destruct (received_task glob cx wf Hnd _ _ _ _ _ R Hin) as (i & t & Ht & _ & Hp). destruct (tasks_run_inv glob cx wf _ _ _ R) as [TR _]. destruct (TR i t Ht) as (jls & J & _). rewrite Hp in J.
      apply (C94_job_results_are_final _ _ _ _ _ _ _ _ J).
Qed.
Print Assumptions C94_workflow_results_are_final.
Example C94_nonvacuous : exists s tr r, wrun (fun _ => None) c26_cx chain_wf chain_run s tr /\ ws_main s = WpDone r /\ wr_state r = Failed /\ exists x, lookup "c" (wr_jobs r) = Some x /\ jr_state x = Succeeded /\ jr_steps x <> [].
Proof.
  do 3 eexists. split.
  { eapply (wexec_run (fun _ => None) c26_cx chain_wf chain_run [] (winit c33_sh) []); [constructor|vm_compute; reflexivity]. }
  split; [reflexivity|]. split; [reflexivity|]. eexists. split; [reflexivity|]. split; [reflexivity|discriminate].
Qed.
