(** C127, C128: workflows running at the same time on one AstroRun. *)
From Verif Require Import Base Types Config_model Config_spec Config_props Signals_model Signals_proof Stream_model Cond_model Plugins_model Exec_model Exec_spec Step_props Workflow_model Workflow_spec Workflow_props
  Runner_model Sched_model Remote_model Local_model Local_props Distant_model Worker_model System_model System_spec System_proof System_inst System_props Finish_spec Finish_proof Finish_step Finish_props
  Workflow_proof Workflow_inv Worker_spec Worker_proof Worker_live Worker_props Chain_model Chain_spec Chain_proof Chain_props Fleet_model Fleet_spec Fleet_proof Fleet_iso Fleet_main.

(** *** C127 *)
(** To each run the rest of the program - other runs in the same or other contexts, started before or after it, and the callers of cancel_job -
    is an environment of a workflow run on its own: its part of the history is a run of its own (so that everything proved of those holds of
    it), in which time passes, cancel_job is called as in the whole history, and other runs enter and remove only their own jobs' signals. *)
Theorem C127_builtin : forall glob rhooks conf now ops f tr, fleet_run (fun cx => builtin cx rhooks conf) glob now ops f tr -> named f ->
  forall k cx wf s, run_at f k cx wf s ->
  exists sh0 ops', sysrun (builtin cx rhooks conf) glob cx wf sh0 ops' s (run_events k tr) /\ filter (fun op => negb (is_env op)) ops' = run_ops k ops /\
    forall e, In (YFlow (WEnv e)) ops' -> from_others ops f k e.
Proof.
  intros glob rhooks conf now ops f tr Hr Hn k cx wf s Hat. destruct (projection _ _ (fun cx => builtin_faithful cx rhooks conf) _ _ _ _ Hr Hn k cx wf s Hat) as (sh0 & ops' & H1 & H2 & H3 & _). eauto.
Qed.
Print Assumptions C127_builtin.
Theorem C127_distant : forall glob cl now ops f tr, fleet_run (fun cx => distant cx cl) glob now ops f tr -> named f ->
  forall k cx wf s, run_at f k cx wf s ->
  exists sh0 ops', sysrun (distant cx cl) glob cx wf sh0 ops' s (run_events k tr) /\ filter (fun op => negb (is_env op)) ops' = run_ops k ops /\
    forall e, In (YFlow (WEnv e)) ops' -> from_others ops f k e.
Proof.
  intros glob cl now ops f tr Hr Hn k cx wf s Hat. destruct (projection _ _ (fun cx => distant_faithful cx cl) _ _ _ _ Hr Hn k cx wf s Hat) as (sh0 & ops' & H1 & H2 & H3 & _). eauto.
Qed.
Print Assumptions C127_distant.
Theorem C127_chained : forall glob cl sv rhooks conf now ops f tr, fleet_run (fun cx => chained cx cl sv rhooks conf) glob now ops f tr -> named f ->
  forall k cx wf s, run_at f k cx wf s ->
  exists sh0 ops', sysrun (chained cx cl sv rhooks conf) glob cx wf sh0 ops' s (run_events k tr) /\ filter (fun op => negb (is_env op)) ops' = run_ops k ops /\
    forall e, In (YFlow (WEnv e)) ops' -> from_others ops f k e.
Proof.
  intros glob cl sv rhooks conf now ops f tr Hr Hn k cx wf s Hat. destruct (projection _ _ (fun cx => chained_faithful cx cl sv rhooks conf) _ _ _ _ Hr Hn k cx wf s Hat) as (sh0 & ops' & H1 & H2 & H3 & _). eauto.
Qed.
Print Assumptions C127_chained.

(** But they do disturb each other when they have job ids in common: a job of a run that has crashed, the only one of its workflow. *)
Definition dead {T} (s : @system T) : Prop := exists t t0 ws wa rs, ws_tasks (sy_w s) = [t] /\ crashed t /\ ws_main (sy_w s) = WpLoop t0 ws wa rs /\ ws_chan (sy_w s) = [].
Lemma dead_step {T iop iobs} (R : rside T iop iobs) glob cx wf s op s' o : faithful R cx -> dead s -> sysstep R glob cx wf s op = Some (s', o) -> dead s'.
Proof.
  intros F (t & t0 & ws & wa & rs & E1 & (u0 & js & rs0 & why & rest & Ep) & E3 & E4) E.
  assert (Keep : forall w', ws_tasks w' = ws_tasks (sy_w s) -> ws_main w' = ws_main (sy_w s) -> ws_chan w' = ws_chan (sy_w s) -> forall c p, dead (T := T) (System w' c p)).
  { intros w' H1 H2 H3 c p. exists t, t0, ws, wa, rs. cbn [sy_w]. rewrite H1, H2, H3. split; [exact E1|]. split; [|auto]. exists u0, js, rs0, why, rest. exact Ep. }
  destruct op as [wo|i io|k io]; cbn [sysstep] in E.
  - destruct (is_step_op wo) eqn:Hs; [discriminate|]. destruct (wstep glob cx wf (sy_w s) wo) as [[w' wtr]|] eqn:Ew; [|discriminate].
    assert (K : ws_tasks w' = ws_tasks (sy_w s) /\ ws_main w' = ws_main (sy_w s) /\ ws_chan w' = ws_chan (sy_w s)).
    { destruct wo as [|gh|i jo|i|e]; cbn [wstep] in Ew.
      - unfold main_step in Ew. rewrite E3, E4 in Ew. discriminate.
      - rewrite E3 in Ew. discriminate.
      - rewrite E1 in Ew. destruct i as [|i]; [|destruct i; discriminate]. cbn [nth_error] in Ew. rewrite Ep in Ew. destruct jo; discriminate.
      - rewrite E1 in Ew. destruct i as [|i]; [|destruct i; discriminate]. cbn [nth_error] in Ew. destruct t as [key j p b]. cbn in Ep. subst p. discriminate.
      - injection Ew as <- _. auto. }
    destruct K as (K1 & K2 & K3). destruct (step_over (sy_w s) wo) as [[i p]|]; injection E as <- <-; apply Keep; assumption.
  - rewrite E1 in E. destruct i as [|i]; [|destruct i; discriminate E]. cbn [nth_error] in E. destruct (sy_cur s) as [|x cur]; [discriminate|]. cbn [nth_error] in E. rewrite Ep in E.
    destruct (rs_step R 1 (ws_sh (sy_w s)) (SpPanic why) x io) as [[[[sh' sp'] x'] out]|] eqn:Es; [|discriminate E]. injection E as <- <-.
    apply F in Es as [(-> & -> & _)|[sop Es]]; [|destruct sop; discriminate Es].
    exists (set_phase t (JpStepRun u0 js rs0 (SpPanic why) rest)), t0, ws, wa, rs. cbn. split; [reflexivity|]. split; [exists u0, js, rs0, why, rest; reflexivity|auto].
  - destruct (nth_error (sy_past s) k) as [[i [[sh p] x]]|]; [|discriminate]. destruct (rs_step R (S i) sh p x io) as [[[[sh' p'] x'] out]|]; [|discriminate]. injection E as <- <-. apply Keep; reflexivity.
Qed.
Lemma dead_fleet {T iop iobs} (R : ectx -> rside T iop iobs) glob k more : (forall cx, faithful (R cx) cx) -> forall f f' o, (forall r, nth_error (fl_runs f) k = Some r -> dead (fr_sys r)) -> k < length (fl_runs f) ->
  fexec R glob f more = Some (f', o) -> forall r, nth_error (fl_runs f') k = Some r -> dead (fr_sys r).
Proof.
  intros F. induction more as [|op more IH]; intros f f' o Hd Hl E; cbn [fexec] in E; [injection E as <- <-; exact Hd|].
  destruct (fstep R glob f op) as [[f1 o1]|] eqn:E1; [|discriminate]. destruct (fexec R glob f1 more) as [[f2 o2]|] eqn:E2; [|discriminate]. injection E as <- <-. apply (IH f1 f2 o2); [| |exact E2].
  - clear IH E2. destruct op as [cx0|c wf0|k0 op0|d|c j|c]; cbn [fstep] in E1; try (injection E1 as <- <-; exact Hd).
    + destruct (nth_error (fl_ctx f) c) as [[cx0 ca0]|]; [|discriminate]. injection E1 as <- <-. cbn [fl_runs]. intros r. rewrite nth_error_app1 by exact Hl. apply Hd.
    + destruct (nth_error (fl_runs f) k0) as [r0|] eqn:Ek0; [|discriminate]. destruct (nth_error (fl_ctx f) (fr_ctx r0)) as [[cx0 ca0]|]; [|discriminate].
      destruct (is_env op0); [discriminate|]. destruct (sysstep _ _ _ _ _ _) as [[s' o']|] eqn:Es; [|discriminate]. injection E1 as <- <-. cbn [fl_runs]. intros r Hr.
      destruct (Nat.eq_dec k k0) as [->|Hne]; [|rewrite list_set_ne in Hr by exact Hne; apply Hd, Hr]. rewrite (list_set_eq _ _ _ _ Ek0) in Hr. injection Hr as <-. cbn [fr_sys].
      eapply (dead_step _ _ _ _ _ _ _ _ (F cx0)); [|exact Es]. exact (Hd r0 Ek0).
  - destruct op as [cx0|c wf0|k0 op0|d|c j|c]; cbn [fstep] in E1; try (injection E1 as <- <-; exact Hl).
    + destruct (nth_error (fl_ctx f) c) as [[cx0 ca0]|]; [|discriminate]. injection E1 as <- <-. cbn [fl_runs]. rewrite app_length. lia.
    + destruct (nth_error (fl_runs f) k0) as [r0|] eqn:Ek0; [|discriminate]. destruct (nth_error (fl_ctx f) (fr_ctx r0)) as [[cx0 ca0]|]; [|discriminate].
      destruct (is_env op0); [discriminate|]. destruct (sysstep _ _ _ _ _ _) as [[s' o']|] eqn:Es; [|discriminate]. injection E1 as <- <-. cbn [fl_runs]. rewrite list_set_length. exact Hl.
Qed.

(** The same workflow, of one job, started twice: while a step of the second run is about to begin, the first run completes and takes the signal
    they share with it. The second run's job crashes, and that run never completes, whatever happens afterwards. *)
Definition one_wf (id : string) : workflow := Workflow (WorkflowId id) None None
  [("a", Job (JobId id "a") None None [Step (StepId id "a" 0) None None (Some (ContainerOptions "host/linux" None None)) "make" false [] [] (Duration 60 0)] [] [])].
Definition one_ops (code : Z) : list (sysop (iop := lop)) := repeat (YFlow WMain) 6 ++ sys_job 0 code ++ repeat (YFlow WMain) 4.
Definition twice_ops : list (fop (iop := lop)) :=
  [FContext c26_cx; FStart 0 (one_wf "w"); FStart 0 (one_wf "w")] ++ map (FRunOp 1) (firstn 12 (one_ops 0)) ++ map (FRunOp 0) (one_ops 0) ++
  map (FRunOp 1) (map (YStep 0) [LEngine (OpBefore c26_hooks); LEngine OpNext; LEngine OpNext; LEngine OpNext; LEngine OpNext]).
Lemma one_named id : NoDup (keys (wf_jobs (one_wf id))).
Proof. repeat constructor. intros []. Qed.
Theorem C127_same_workflow_twice_refuted : exists f tr s r, fleet_run (fun cx => builtin cx (fun c => c) loc_conf) (fun _ => None) 0%N twice_ops f tr /\ named f /\
  (forall c j, ~ In (FLook c j) twice_ops) /\ (forall k i code, In (FRunOp k (YStep i (LRunner (XICmd (CIExit code))))) twice_ops -> code = Some 0%Z) /\
  run_at f 0 c26_cx (one_wf "w") s /\ ws_main (sy_w s) = WpDone r /\ wr_state r = Succeeded /\
  forall more f' o cx wf s' r', fexec (fun cx => builtin cx (fun c => c) loc_conf) (fun _ => None) f more = Some (f', o) -> run_at f' 1 cx wf s' -> ws_main (sy_w s') <> WpDone r'.
Proof.
  do 4 eexists. split; [eapply (fexec_run _ _ twice_ops 0%N [] (finit 0%N) [] _ _ (fleet_init _ _ _)); vm_compute; reflexivity|]. split.
  { intros [|[|k]] r H; cbn in H; try (injection H as <-; apply one_named). destruct k; discriminate H. }
  split; [intros c j H; cbv [twice_ops one_ops sys_job app repeat map firstn] in H; cbn [In] in H; repeat (destruct H as [H|H]; [discriminate H|]); exact H|].
  split.
  { intros k i code H. cbv [twice_ops one_ops sys_job app repeat map firstn] in H. cbn [In] in H. repeat (destruct H as [H|H]; [try discriminate H; injection H; congruence|]). destruct H. }
  split; [do 2 eexists; split; [reflexivity|]; split; [reflexivity|]; split; reflexivity|]. split; [reflexivity|]. split; [reflexivity|].
  intros more f' o cx wf s' r' E (r & ca & Hk & _ & _ & ->). cbn [settle sy_w ws_main].
  assert (D : forall r0, nth_error (fl_runs f') 1 = Some r0 -> dead (fr_sys r0)).
  { eapply (dead_fleet (fun cx => builtin cx (fun c => c) loc_conf) (fun _ => None) 1 more (fun cx => builtin_faithful cx _ _)); [| |exact E].
    - intros r0 H. injection H as <-. do 5 eexists. split; [reflexivity|]. split; [do 5 eexists; reflexivity|]. split; reflexivity.
    - cbn. lia. }
  destruct (D r Hk) as (t & t0 & ws & wa & rs & _ & _ & Em & _). congruence.
Qed.
Print Assumptions C127_same_workflow_twice_refuted.
(** The hypotheses of C127 hold of that history and of its two runs (and see C128 for runs of different workflows). *)
Example C127_nonvacuous : exists f tr s, fleet_run (fun cx => builtin cx (fun c => c) loc_conf) (fun _ => None) 0%N twice_ops f tr /\ named f /\ run_at f 1 c26_cx (one_wf "w") s /\ run_events 1 tr <> [].
Proof.
  do 3 eexists. split; [eapply (fexec_run _ _ twice_ops 0%N [] (finit 0%N) [] _ _ (fleet_init _ _ _)); vm_compute; reflexivity|]. split.
  { intros [|[|k]] r H; cbn in H; try (injection H as <-; apply one_named). destruct k; discriminate H. }
  split; [do 2 eexists; split; [reflexivity|]; split; [reflexivity|]; split; reflexivity|]. discriminate.
Qed.

(** *** C129: running a workflow again. *)
(** Runs that were over when this one was started, and runs of workflows without common job ids, leave it alone. *)
Theorem C129_over_before : forall {T iop iobs} (R : ectx -> rside T iop iobs) glob now ops0 f0 tr0 c wf later f o,
  fleet_run R glob now ops0 f0 tr0 -> fexec R glob f0 (FStart c wf :: later) = Some (f, o) ->
  (forall k' r' id, nth_error (fl_runs f0) k' = Some r' -> job_of (fr_wf r') id -> job_of wf id -> over r') ->
  (forall c' wf' id, In (FStart c' wf') later -> job_of wf' id -> ~ job_of wf id) ->
  alone (ops0 ++ FStart c wf :: later) f (length (fl_runs f0)) /\ since (length (fl_runs f0)) (ops0 ++ FStart c wf :: later) = later.
Proof.
  intros T iop iobs R glob now ops0 f0 tr0 c wf later f o Hr E H1 H2. split; [eapply alone_after; eassumption|]. apply since_here. exact (starts_run R glob _ _ _ _ Hr).
Qed.
Print Assumptions C129_over_before.

Lemma goes_not_env {iop} gh (inner : iop -> Prop) more : Forall (goes_on gh inner) more -> Forall (fun op => is_env op = false) more.
Proof. apply Forall_impl. intros [[]| |]; cbn; auto. intros []. Qed.

(** Whatever the others did before it was started, and whatever runs of other workflows do, it can be completed by its own actions. *)
Theorem C129_builtin_completes : forall glob rhooks conf now ops f tr, fleet_run (fun cx => builtin cx rhooks conf) glob now ops f tr -> named f ->
  forall k cx wf s, alone ops f k -> run_at f k cx wf s -> wf_jobs wf <> [] -> acyclic wf -> distinct_ids wf -> (forall key j, In (key, j) (wf_jobs wf) -> owns_steps j) ->
  (forall op, In op (run_ops k ops) -> orderly wf tame_local op) ->
  forall gh c code, keeps_steps c ->
  exists more f' o s' r, Forall (goes_on gh (plain_local c code)) more /\ fexec (fun cx => builtin cx rhooks conf) glob f (map (FRunOp k) more) = Some (f', o) /\ run_at f' k cx wf s' /\ ws_main (sy_w s') = WpDone r.
Proof.
  intros glob rhooks conf now ops f tr Hr Hn k cx wf s Ha Hat Hne Hac Hd Ho Hop gh c code Hc.
  assert (Hnd : NoDup (keys (wf_jobs wf))) by (destruct Hat as (r & ca & Hk & _ & <- & _); exact (Hn k r Hk)).
  destruct (run_orderly (fun cx => builtin cx rhooks conf) glob tame_local (fun cx => builtin_faithful cx rhooks conf) _ _ _ _ _ _ _ _ Hr Hn Ha Hat Hop) as (sh0 & ops' & H1 & _ & _ & _ & H5).
  destruct (C108_builtin _ _ _ _ _ _ _ _ _ Hnd Hne Hac Hd Ho H1 H5 gh c code Hc) as (more & s' & o & r & M1 & M2 & M3).
  destruct (lift_exec (fun cx => builtin cx rhooks conf) glob more f k cx wf s s' o Hat M2 (goes_not_env _ _ _ M1)) as (f' & M4 & M5). exists more, f', (map (fun x => (k, x)) o), s', r. auto.
Qed.
Print Assumptions C129_builtin_completes.
Theorem C129_distant_completes : forall glob cl now ops f tr, fleet_run (fun cx => distant cx cl) glob now ops f tr -> named f ->
  forall k cx wf s, alone ops f k -> run_at f k cx wf s -> wf_jobs wf <> [] -> acyclic wf -> distinct_ids wf -> (forall key j, In (key, j) (wf_jobs wf) -> owns_steps j) ->
  (forall op, In op (run_ops k ops) -> orderly wf tame_distant op) ->
  forall gh c clients pick rr, keeps_steps c -> client_start clients pick <> None ->
  exists more f' o s' r, Forall (goes_on gh (plain_distant c clients pick rr)) more /\ fexec (fun cx => distant cx cl) glob f (map (FRunOp k) more) = Some (f', o) /\ run_at f' k cx wf s' /\ ws_main (sy_w s') = WpDone r.
Proof.
  intros glob cl now ops f tr Hr Hn k cx wf s Ha Hat Hne Hac Hd Ho Hop gh c clients pick rr Hc Hp.
  assert (Hnd : NoDup (keys (wf_jobs wf))) by (destruct Hat as (r & ca & Hk & _ & <- & _); exact (Hn k r Hk)).
  destruct (run_orderly (fun cx => distant cx cl) glob tame_distant (fun cx => distant_faithful cx cl) _ _ _ _ _ _ _ _ Hr Hn Ha Hat Hop) as (sh0 & ops' & H1 & _ & _ & _ & H5).
  destruct (C108_distant _ _ _ _ _ _ _ _ Hnd Hne Hac Hd Ho H1 H5 gh c clients pick rr Hc Hp) as (more & s' & o & r & M1 & M2 & M3).
  destruct (lift_exec (fun cx => distant cx cl) glob more f k cx wf s s' o Hat M2 (goes_not_env _ _ _ M1)) as (f' & M4 & M5). exists more, f', (map (fun x => (k, x)) o), s', r. auto.
Qed.
Print Assumptions C129_distant_completes.
Theorem C129_chained_completes : forall glob cl sv rhooks conf now ops f tr, fleet_run (fun cx => chained cx cl sv rhooks conf) glob now ops f tr -> named f ->
  forall k cx wf s, alone ops f k -> run_at f k cx wf s -> wf_jobs wf <> [] -> acyclic wf -> distinct_ids wf -> (forall key j, In (key, j) (wf_jobs wf) -> owns_steps j) ->
  (forall op, In op (run_ops k ops) -> orderly wf tame_worker op) ->
  forall gh c clients pick code, keeps_steps c -> client_start clients pick <> None ->
  exists more f' o s' r, Forall (goes_on gh (plain_worker c clients pick code)) more /\ fexec (fun cx => chained cx cl sv rhooks conf) glob f (map (FRunOp k) more) = Some (f', o) /\ run_at f' k cx wf s' /\ ws_main (sy_w s') = WpDone r.
Proof.
  intros glob cl sv rhooks conf now ops f tr Hr Hn k cx wf s Ha Hat Hne Hac Hd Ho Hop gh c clients pick code Hc Hp.
  assert (Hnd : NoDup (keys (wf_jobs wf))) by (destruct Hat as (r & ca & Hk & _ & <- & _); exact (Hn k r Hk)).
  destruct (run_orderly (fun cx => chained cx cl sv rhooks conf) glob tame_worker (fun cx => chained_faithful cx cl sv rhooks conf) _ _ _ _ _ _ _ _ Hr Hn Ha Hat Hop) as (sh0 & ops' & H1 & _ & _ & _ & H5).
  destruct (C115_completes _ _ _ _ _ _ _ _ _ _ _ Hnd Hne Hac Hd Ho H1 H5 gh c clients pick code Hc Hp) as (more & s' & o & r & M1 & M2 & M3).
  destruct (lift_exec (fun cx => chained cx cl sv rhooks conf) glob more f k cx wf s s' o Hat M2 (goes_not_env _ _ _ M1)) as (f' & M4 & M5). exists more, f', (map (fun x => (k, x)) o), s', r. auto.
Qed.
Print Assumptions C129_chained_completes.

(** Unless cancel_job is called for a job of its own since it was started, its results are decided by its own commands alone (C106, C114), whatever the other runs do. *)
Lemma same_steps {iop} (ops : list (fop (iop := iop))) ops2 k : filter (fun op : sysop (iop := iop) => negb (is_env op)) ops2 = run_ops k ops -> forall i o, In (YStep i o) ops2 <-> In (YStep i o) (run_ops k ops).
Proof. intros E i o. rewrite <- E, filter_In. cbn. tauto. Qed.
Theorem C129_builtin_outcome : forall glob rhooks conf now ops f tr, fleet_run (fun cx => builtin cx rhooks conf) glob now ops f tr -> named f ->
  forall k cx wf s, alone ops f k -> run_at f k cx wf s -> (forall key j, In (key, j) (wf_jobs wf) -> owns_steps j) -> (forall op, In op (run_ops k ops) -> orderly wf tame_local op) ->
  (forall c j, In (FLook c j) (since k ops) -> ~ job_of wf j) -> untroubled (run_ops k ops) ->
  (forall key r, In (key, r) (received (flow_of (builtin cx rhooks conf) (run_events k tr))) -> jr_state r <> Cancelled /\
     exists i, nth_error (started (flow_of (builtin cx rhooks conf) (run_events k tr))) i = Some key /\ forall x, In x (jr_steps r) -> sr_state x = Skipped \/ exit_of (run_ops k ops) i x) /\
  forall r, ws_main (sy_w s) = WpDone r ->
    (wr_state r = Failed \/ wr_state r = Succeeded \/ (wr_state r = Skipped /\ wr_jobs r = [])) /\
    (wr_state r = Failed <-> exists key x y, In (key, x) (received (flow_of (builtin cx rhooks conf) (run_events k tr))) /\ In y (jr_steps x) /\ sr_state y = Failed) /\
    ((forall i code, In (YStep i (LRunner (XICmd (CIExit code)))) (run_ops k ops) -> code = Some 0%Z) ->
       wr_state r <> Failed /\ forall key x, lookup key (wr_jobs r) = Some x -> jr_state x = Succeeded \/ jr_state x = Skipped).
Proof.
  intros glob rhooks conf now ops f tr Hr Hn k cx wf s Ha Hat Ho Hop Hl [_ U].
  assert (Hnd : NoDup (keys (wf_jobs wf))) by (destruct Hat as (r & ca & Hk & _ & <- & _); exact (Hn k r Hk)).
  destruct (unbothered (fun cx => builtin cx rhooks conf) glob tame_local (fun cx => builtin_faithful cx rhooks conf) (fun cx => builtin_tracks cx rhooks conf) (fun cx => builtin_oblivious cx rhooks conf) _ _ _ _ _ _ _ _ Hr Hn Ha Hat Ho Hop Hl)
    as (sh2 & ops2 & s2 & H1 & H2 & H3 & H4 & H5 & _).
  assert (S := same_steps ops ops2 k H4).
  assert (U2 : untroubled ops2) by (split; [exact H3|]; intros i; rewrite !S; apply U).
  split.
  - intros key r Hin. destruct (C106_results _ _ _ _ _ _ _ _ _ Hnd H1 H2 U2 key r Hin) as (Q1 & i & Q2 & Q3). split; [exact Q1|]. exists i. split; [exact Q2|].
    intros x Hx. destruct (Q3 x Hx) as [Q|(code & Q4 & Q5)]; [auto|right]. exists code. split; [apply S, Q4|exact Q5].
  - intros r Hm. rewrite <- H5 in Hm. destruct (C106_outcome _ _ _ _ _ _ _ _ _ _ Hnd H1 H2 U2 Hm) as (Q1 & Q2 & Q3). split; [exact Q1|]. split; [exact Q2|]. intros Z. apply Q3. intros i code Hc. apply (Z i code), S, Hc.
Qed.
Print Assumptions C129_builtin_outcome.
Theorem C129_chained_outcome : forall glob cl sv rhooks conf now ops f tr, fleet_run (fun cx => chained cx cl sv rhooks conf) glob now ops f tr -> named f ->
  forall k cx wf s, alone ops f k -> run_at f k cx wf s -> (forall key j, In (key, j) (wf_jobs wf) -> owns_steps j) -> (forall op, In op (run_ops k ops) -> orderly wf tame_worker op) ->
  (forall c j, In (FLook c j) (since k ops) -> ~ job_of wf j) -> smooth (run_ops k ops) ->
  (forall key r, In (key, r) (received (flow_of (chained cx cl sv rhooks conf) (run_events k tr))) -> jr_state r <> Cancelled /\
     exists i, nth_error (started (flow_of (chained cx cl sv rhooks conf) (run_events k tr))) i = Some key /\ forall x, In x (jr_steps r) -> sr_state x = Skipped \/ remote_exit (run_ops k ops) i x) /\
  forall r, ws_main (sy_w s) = WpDone r ->
    (wr_state r = Failed \/ wr_state r = Succeeded \/ (wr_state r = Skipped /\ wr_jobs r = [])) /\
    (wr_state r = Failed <-> exists key x y, In (key, x) (received (flow_of (chained cx cl sv rhooks conf) (run_events k tr))) /\ In y (jr_steps x) /\ sr_state y = Failed) /\
    ((forall i code, In (YStep i (KExec (XICmd (CIExit code)))) (run_ops k ops) -> code = Some 0%Z) ->
       wr_state r <> Failed /\ forall key x, lookup key (wr_jobs r) = Some x -> jr_state x = Succeeded \/ jr_state x = Skipped).
Proof.
  intros glob cl sv rhooks conf now ops f tr Hr Hn k cx wf s Ha Hat Ho Hop Hl [_ U].
  assert (Hnd : NoDup (keys (wf_jobs wf))) by (destruct Hat as (r & ca & Hk & _ & <- & _); exact (Hn k r Hk)).
  destruct (unbothered (fun cx => chained cx cl sv rhooks conf) glob tame_worker (fun cx => chained_faithful cx cl sv rhooks conf) (fun cx => chained_tracks cx cl sv rhooks conf) (fun cx => chained_oblivious cx cl sv rhooks conf) _ _ _ _ _ _ _ _ Hr Hn Ha Hat Ho Hop Hl)
    as (sh2 & ops2 & s2 & H1 & H2 & H3 & H4 & H5 & _).
  assert (S := same_steps ops ops2 k H4).
  assert (U2 : smooth ops2).
  { split; [exact H3|]. intros i. destruct (U i) as (U1 & U3 & U4 & U5). rewrite !S. split; [exact U1|]. split; [intros cs; rewrite S; apply U3|]. split; [intros fl Hf; rewrite S; apply U4, Hf|exact U5]. }
  split.
  - intros key r Hin. destruct (C114_results _ _ _ _ _ _ _ _ _ _ _ Hnd H1 H2 U2 key r Hin) as (Q1 & i & Q2 & Q3). split; [exact Q1|]. exists i. split; [exact Q2|].
    intros x Hx. destruct (Q3 x Hx) as [Q|(code & Q4 & Q5)]; [auto|right]. exists code. split; [apply S, Q4|exact Q5].
  - intros r Hm. rewrite <- H5 in Hm. destruct (C114_outcome _ _ _ _ _ _ _ _ _ _ _ _ Hnd H1 H2 U2 Hm) as (Q1 & Q2 & Q3). split; [exact Q1|]. split; [exact Q2|]. intros Z. apply Q3. intros i code Hc. apply (Z i code), S, Hc.
Qed.
Print Assumptions C129_chained_outcome.

(** *** C128: runs of workflows without common job ids. *)
(** Workflows built with different workflow ids have no job ids in common. *)
Theorem C128_built : forall {T} (f : @fleet T),
  (forall k r, nth_error (fl_runs f) k = Some r -> exists pd decode env id config uuid, (forall t w, decode t = inl w -> NoDup (keys (uw_jobs w))) /\ build pd decode env id config uuid = Ok (fr_wf r)) ->
  (forall k k' r r', k <> k' -> nth_error (fl_runs f) k = Some r -> nth_error (fl_runs f) k' = Some r' -> wf_id (fr_wf r) <> wf_id (fr_wf r')) ->
  named f /\ apart f.
Proof.
  intros T f HB Hd.
  assert (K : forall k r id, nth_error (fl_runs f) k = Some r -> job_of (fr_wf r) id -> wf_id (fr_wf r) = WorkflowId (jid_0 id)).
  { intros k r id Hk (key & j & Hin & <-). destruct (HB k r Hk) as (pd & decode & env & i & config & uuid & HD & B). apply (C15_C19_build _ _ _ _ _ _ _ HD) in B as (t & w & _ & _ & _ & B & _ & _ & HF).
    rewrite B. assert (Q : exists u, built_job pd env (match i with Some i => i | None => uuid end) key u j).
    { clear - HF Hin. induction HF as [|[k0 u0] [k1 j1] us js [-> Hb] _ IH]; [destruct Hin|]. destruct Hin as [[= <- <-]|H]; eauto. }
    destruct Q as (u & E & _). rewrite E. reflexivity. }
  split.
  - intros k r Hk. destruct (HB k r Hk) as (pd & decode & env & i & config & uuid & HD & B). apply (built_runs _ _ _ _ _ _ _ HD B).
  - intros k k' r r' id Hne Hk Hk' Hj Hj'. apply (Hd k k' r r' Hne Hk Hk'). rewrite (K _ _ _ Hk Hj), (K _ _ _ Hk' Hj'). reflexivity.
Qed.
Print Assumptions C128_built.

(** Whatever the others did and whatever state they are in - even crashed or waiting for ever -, a run can be completed by its own actions. *)
Theorem C128_builtin_completes : forall glob rhooks conf now ops f tr, fleet_run (fun cx => builtin cx rhooks conf) glob now ops f tr -> named f -> apart f ->
  forall k cx wf s, run_at f k cx wf s -> wf_jobs wf <> [] -> acyclic wf -> distinct_ids wf -> (forall key j, In (key, j) (wf_jobs wf) -> owns_steps j) ->
  (forall op, In op (run_ops k ops) -> orderly wf tame_local op) ->
  forall gh c code, keeps_steps c ->
  exists more f' o s' r, Forall (goes_on gh (plain_local c code)) more /\ fexec (fun cx => builtin cx rhooks conf) glob f (map (FRunOp k) more) = Some (f', o) /\ run_at f' k cx wf s' /\ ws_main (sy_w s') = WpDone r.
Proof.
  intros glob rhooks conf now ops f tr Hr Hn Ha k cx wf s Hat. exact (C129_builtin_completes glob rhooks conf now ops f tr Hr Hn k cx wf s (apart_alone ops f k Ha) Hat).
Qed.
Print Assumptions C128_builtin_completes.
Theorem C128_distant_completes : forall glob cl now ops f tr, fleet_run (fun cx => distant cx cl) glob now ops f tr -> named f -> apart f ->
  forall k cx wf s, run_at f k cx wf s -> wf_jobs wf <> [] -> acyclic wf -> distinct_ids wf -> (forall key j, In (key, j) (wf_jobs wf) -> owns_steps j) ->
  (forall op, In op (run_ops k ops) -> orderly wf tame_distant op) ->
  forall gh c clients pick rr, keeps_steps c -> client_start clients pick <> None ->
  exists more f' o s' r, Forall (goes_on gh (plain_distant c clients pick rr)) more /\ fexec (fun cx => distant cx cl) glob f (map (FRunOp k) more) = Some (f', o) /\ run_at f' k cx wf s' /\ ws_main (sy_w s') = WpDone r.
Proof.
  intros glob cl now ops f tr Hr Hn Ha k cx wf s Hat. exact (C129_distant_completes glob cl now ops f tr Hr Hn k cx wf s (apart_alone ops f k Ha) Hat).
Qed.
Print Assumptions C128_distant_completes.
Theorem C128_chained_completes : forall glob cl sv rhooks conf now ops f tr, fleet_run (fun cx => chained cx cl sv rhooks conf) glob now ops f tr -> named f -> apart f ->
  forall k cx wf s, run_at f k cx wf s -> wf_jobs wf <> [] -> acyclic wf -> distinct_ids wf -> (forall key j, In (key, j) (wf_jobs wf) -> owns_steps j) ->
  (forall op, In op (run_ops k ops) -> orderly wf tame_worker op) ->
  forall gh c clients pick code, keeps_steps c -> client_start clients pick <> None ->
  exists more f' o s' r, Forall (goes_on gh (plain_worker c clients pick code)) more /\ fexec (fun cx => chained cx cl sv rhooks conf) glob f (map (FRunOp k) more) = Some (f', o) /\ run_at f' k cx wf s' /\ ws_main (sy_w s') = WpDone r.
Proof.
  intros glob cl sv rhooks conf now ops f tr Hr Hn Ha k cx wf s Hat. exact (C129_chained_completes glob cl sv rhooks conf now ops f tr Hr Hn k cx wf s (apart_alone ops f k Ha) Hat).
Qed.
Print Assumptions C128_chained_completes.

(** Cancelling jobs of other workflows has no effect on a run: unless cancel_job is called for a job of its own, its results are decided by its
    own commands alone (C106, C114), whatever the other runs do. *)
Theorem C128_builtin_outcome : forall glob rhooks conf now ops f tr, fleet_run (fun cx => builtin cx rhooks conf) glob now ops f tr -> named f -> apart f ->
  forall k cx wf s, run_at f k cx wf s -> (forall key j, In (key, j) (wf_jobs wf) -> owns_steps j) -> (forall op, In op (run_ops k ops) -> orderly wf tame_local op) ->
  (forall c j, In (FLook c j) (since k ops) -> ~ job_of wf j) -> untroubled (run_ops k ops) ->
  (forall key r, In (key, r) (received (flow_of (builtin cx rhooks conf) (run_events k tr))) -> jr_state r <> Cancelled /\
     exists i, nth_error (started (flow_of (builtin cx rhooks conf) (run_events k tr))) i = Some key /\ forall x, In x (jr_steps r) -> sr_state x = Skipped \/ exit_of (run_ops k ops) i x) /\
  forall r, ws_main (sy_w s) = WpDone r ->
    (wr_state r = Failed \/ wr_state r = Succeeded \/ (wr_state r = Skipped /\ wr_jobs r = [])) /\
    (wr_state r = Failed <-> exists key x y, In (key, x) (received (flow_of (builtin cx rhooks conf) (run_events k tr))) /\ In y (jr_steps x) /\ sr_state y = Failed) /\
    ((forall i code, In (YStep i (LRunner (XICmd (CIExit code)))) (run_ops k ops) -> code = Some 0%Z) ->
       wr_state r <> Failed /\ forall key x, lookup key (wr_jobs r) = Some x -> jr_state x = Succeeded \/ jr_state x = Skipped).
Proof.
  intros glob rhooks conf now ops f tr Hr Hn Ha k cx wf s Hat. exact (C129_builtin_outcome glob rhooks conf now ops f tr Hr Hn k cx wf s (apart_alone ops f k Ha) Hat).
Qed.
Print Assumptions C128_builtin_outcome.
Theorem C128_chained_outcome : forall glob cl sv rhooks conf now ops f tr, fleet_run (fun cx => chained cx cl sv rhooks conf) glob now ops f tr -> named f -> apart f ->
  forall k cx wf s, run_at f k cx wf s -> (forall key j, In (key, j) (wf_jobs wf) -> owns_steps j) -> (forall op, In op (run_ops k ops) -> orderly wf tame_worker op) ->
  (forall c j, In (FLook c j) (since k ops) -> ~ job_of wf j) -> smooth (run_ops k ops) ->
  (forall key r, In (key, r) (received (flow_of (chained cx cl sv rhooks conf) (run_events k tr))) -> jr_state r <> Cancelled /\
     exists i, nth_error (started (flow_of (chained cx cl sv rhooks conf) (run_events k tr))) i = Some key /\ forall x, In x (jr_steps r) -> sr_state x = Skipped \/ remote_exit (run_ops k ops) i x) /\
  forall r, ws_main (sy_w s) = WpDone r ->
    (wr_state r = Failed \/ wr_state r = Succeeded \/ (wr_state r = Skipped /\ wr_jobs r = [])) /\
    (wr_state r = Failed <-> exists key x y, In (key, x) (received (flow_of (chained cx cl sv rhooks conf) (run_events k tr))) /\ In y (jr_steps x) /\ sr_state y = Failed) /\
    ((forall i code, In (YStep i (KExec (XICmd (CIExit code)))) (run_ops k ops) -> code = Some 0%Z) ->
       wr_state r <> Failed /\ forall key x, lookup key (wr_jobs r) = Some x -> jr_state x = Succeeded \/ jr_state x = Skipped).
Proof.
  intros glob cl sv rhooks conf now ops f tr Hr Hn Ha k cx wf s Hat. exact (C129_chained_outcome glob cl sv rhooks conf now ops f tr Hr Hn k cx wf s (apart_alone ops f k Ha) Hat).
Qed.
Print Assumptions C128_chained_outcome.

(** Non-vacuity: workflows "v" and "w"; a job of "v" is cancelled (successfully) while its step runs, and "v" never goes on; "w" completes. *)
Definition pair_ops : list (fop (iop := lop)) :=
  [FContext c26_cx; FStart 0 (one_wf "v"); FStart 0 (one_wf "w")] ++ map (FRunOp 0) (firstn 20 (one_ops 0)) ++ map (FRunOp 1) (firstn 20 (one_ops 0)) ++
  [FLook 7 (JobId "v" "a"); FTick 5; FFire 7] ++ map (FRunOp 1) (skipn 20 (one_ops 0)).
Lemma one_owns id key j : In (key, j) (wf_jobs (one_wf id)) -> owns_steps j.
Proof. intros [[= <- <-]|[]] st [<-|[]]; reflexivity. Qed.
Lemma one_runs id : wf_jobs (one_wf id) <> [] /\ acyclic (one_wf id) /\ distinct_ids (one_wf id).
Proof.
  split; [discriminate|]. split; [exists (fun _ => 0); intros k d (j & [[= <- <-]|[]] & [])|]. intros k k' j j' [[= <- <-]|[]] [[= <- <-]|[]]; cbn; congruence.
Qed.
Example C128_nonvacuous : exists f tr s r, fleet_run (fun cx => builtin cx (fun c => c) loc_conf) (fun _ => None) 0%N pair_ops f tr /\ named f /\ apart f /\
  run_at f 1 c26_cx (one_wf "w") s /\ ws_main (sy_w s) = WpDone r /\ wr_state r = Succeeded /\
  (wf_jobs (one_wf "w") <> [] /\ acyclic (one_wf "w") /\ distinct_ids (one_wf "w")) /\ (forall key j, In (key, j) (wf_jobs (one_wf "w")) -> owns_steps j) /\
  (forall op, In op (run_ops 1 pair_ops) -> orderly (one_wf "w") tame_local op) /\ (forall c j, In (FLook c j) (since 1 pair_ops) -> ~ job_of (one_wf "w") j) /\ untroubled (run_ops 1 pair_ops) /\
  nth_error (sm_heap (fl_sm f)) 0 = Some (SigState false (Some SigCancel) None).
Proof.
  do 4 eexists. split; [eapply (fexec_run _ _ pair_ops 0%N [] (finit 0%N) [] _ _ (fleet_init _ _ _)); vm_compute; reflexivity|].
  assert (Nm : forall i, NoDup (keys (wf_jobs (one_wf i)))) by exact one_named.
  split. { intros [|[|k]] r H; cbn in H; try (injection H as <-; apply one_named). destruct k; discriminate H. }
  split.
  { intros [|[|k]] [|[|k']] r r' id Hne H H' J J'; cbn in H, H'; try (destruct (Hne eq_refl)); try (destruct k; discriminate H); try (destruct k'; discriminate H'); injection H as <-; injection H' as <-;
      destruct J as (a & j & [[= <- <-]|[]] & <-), J' as (b & j' & [[= <- <-]|[]] & C); discriminate C. }
  split; [do 2 eexists; split; [reflexivity|]; split; [reflexivity|]; split; reflexivity|]. split; [reflexivity|]. split; [reflexivity|]. split; [apply one_runs|]. split; [apply one_owns|].
  split; [intros op H; vm_compute in H; repeat (destruct H as [<-|H]; [cbn; auto; try exact sys_hooks_keep; try exact Logic.I|]); destruct H|].
  split. { intros c j H (key & jb & [[= <- <-]|[]] & <-). cbv [since pair_ops one_ops sys_job app repeat map firstn skipn] in H. cbn [In] in H. repeat (destruct H as [H|H]; [discriminate H|]). exact H. }
  split; [|reflexivity]. split.
  - intros e H. exfalso. vm_compute in H. repeat (destruct H as [H|H]; [discriminate H|]). exact H.
  - intros i. repeat split; intros H; vm_compute in H; repeat (destruct H as [H|H]; [discriminate H|]); exact H.
Qed.

(** Non-vacuity of C129: "w" is run, cancelled while its step runs, ends; a second cancel_job looks its signal up before that and raises it after
    "w" has been started again; the second run succeeds. *)
Definition again_ops : list (fop (iop := lop)) :=
  [FContext c26_cx; FStart 0 (one_wf "w")] ++ map (FRunOp 0) (firstn 20 (one_ops 1)) ++ [FLook 7 (JobId "w" "a")] ++ map (FRunOp 0) (skipn 20 (one_ops 1)) ++
  [FStart 0 (one_wf "w"); FFire 7] ++ map (FRunOp 1) (one_ops 0).
Example C129_nonvacuous : exists f0 tr0 r0 f o s r, let n := length again_ops - 2 - length (one_ops 0) in
  fleet_run (fun cx => builtin cx (fun c => c) loc_conf) (fun _ => None) 0%N (firstn n again_ops) f0 tr0 /\ fl_runs f0 = [r0] /\ over r0 /\
  (exists x, ws_main (sy_w (fr_sys r0)) = WpDone x /\ wr_state x = Failed) /\ sm_pending (fl_sm f0) <> [] /\
  fexec (fun cx => builtin cx (fun c => c) loc_conf) (fun _ => None) f0 (skipn n again_ops) = Some (f, o) /\ named f /\
  run_at f 1 c26_cx (one_wf "w") s /\ ws_main (sy_w s) = WpDone r /\ wr_state r = Succeeded.
Proof.
  do 7 eexists. cbv zeta. split; [eapply (fexec_run _ _ _ 0%N [] (finit 0%N) [] _ _ (fleet_init _ _ _)); vm_compute; reflexivity|]. split; [reflexivity|].
  split; [split; [eexists; reflexivity|]; intros t [<-|[]]; eexists; reflexivity|]. split; [eexists; split; reflexivity|]. split; [discriminate|].
  split; [vm_compute; reflexivity|]. split. { intros [|[|k]] r H; cbn in H; try (injection H as <-; apply one_named). destruct k; discriminate H. }
  split; [do 2 eexists; split; [reflexivity|]; split; [reflexivity|]; split; reflexivity|]. split; reflexivity.
Qed.
