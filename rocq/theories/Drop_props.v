(** C132-C134: the caller of a workflow gives up on it (drops the future, e.g. by a timeout around it). *)
From Verif Require Import Base Types Config_model Config_spec Config_props Signals_model Signals_proof Stream_model Cond_model Plugins_model Exec_model Exec_spec Step_props Workflow_model Workflow_spec Workflow_props
  Runner_model Sched_model Remote_model Local_model Local_props Distant_model Worker_model System_model System_spec System_proof System_inst System_props Finish_spec Finish_proof Finish_step Finish_cycle Finish_props
  Workflow_proof Workflow_inv Worker_spec Worker_proof Worker_live Worker_props Chain_model Chain_spec Chain_proof Chain_props Pace_spec Pace_proof Pace_step Pace_chain Pace_props
  Fleet_model Fleet_spec Fleet_proof Fleet_iso Fleet_main Fleet_props Live_spec Live_proof Live_props Each_spec Each_proof Each_props Drop_model Drop_spec Drop_proof.

(** ** C132: nobody else notices *)
(** Take any history in which runs are given up at any time, also while their jobs are executing.  The same history without the giving up, in which
    just nobody attends to these runs any more, gives the same events, the same shared state and, for every run that has not been given up, the
    same actions and the same state; the jobs of the runs that have been given up are in the same phases. *)
Theorem C132_unnoticed : forall {T iop iobs} (R : ectx -> rside T iop iobs) glob now ops g tr, gfleet_run R glob now ops g tr ->
  exists f, fleet_run R glob now (unaware [] ops) f tr /\ stands_for f g /\
    forall k, ~ given_up ops k -> run_ops k (unaware [] ops) = run_ops k (deeds ops) /\ forall cx wf s, run_at f k cx wf s <-> run_at (gf_all g) k cx wf s.
Proof.
  intros T iop iobs R glob now ops g tr Hr. destruct (simulated R glob _ _ _ _ Hr) as [Eg (f & Hf & S)]. exists f. split; [exact Hf|]. split; [exact S|]. intros k Hk.
  assert (Hn : ~ In k (fold_left goner ops [])) by (rewrite goner_in; intros [[]|Q]; exact (Hk Q)). split; [apply deeds_same, Hn|]. intros cx wf s. apply stands_run; [exact S|]. rewrite Eg. exact Hn.
Qed.
Print Assumptions C132_unnoticed.

(** And nothing is lost by it except what would be done for the runs given up, outside their jobs: any other action that could be done without the
    giving up can be done with it, with the same events. *)
Theorem C132_nothing_lost : forall {T iop iobs} (R : ectx -> rside T iop iobs) glob now ops g tr f, gfleet_run R glob now ops g tr -> stands_for f g ->
  forall op f' o, fstep R glob f op = Some (f', o) -> (forall k o', op = FRunOp k o' -> given_up ops k -> job_side o' = true) -> exists g', gstep R glob g (GDo op) = Some (g', o) /\ stands_for f' g'.
Proof.
  intros T iop iobs R glob now ops g tr f Hr S op f' o E Hj. eapply sim_back; [exact S|exact E|]. intros k o' -> Hk. apply (Hj k o' eq_refl). destruct (simulated R glob _ _ _ _ Hr) as [Eg _]. rewrite Eg in Hk. apply goner_in in Hk as [[]|Hk]. exact Hk.
Qed.
Print Assumptions C132_nothing_lost.
(** Any run that has no result yet can be given up, once; giving up changes nothing by itself. *)
Theorem C132_at_any_time : forall {T iop iobs} (R : ectx -> rside T iop iobs) glob now ops g tr k, gfleet_run R glob now ops g tr ->
  ((exists g' o, gstep R glob g (GGiveUp k) = Some (g', o)) <-> ~ given_up ops k /\ exists r, nth_error (fl_runs (gf_all g)) k = Some r /\ forall x, ws_main (sy_w (fr_sys r)) <> WpDone x) /\
  forall g' o, gstep R glob g (GGiveUp k) = Some (g', o) -> o = [] /\ gf_all g' = gf_all g.
Proof.
  intros T iop iobs R glob now ops g tr k Hr. destruct (simulated R glob _ _ _ _ Hr) as [Eg (f & Hf & S)]. assert (Gk : In k (gf_gone g) <-> given_up ops k) by (rewrite Eg, goner_in; cbn; tauto).
  split; [split|].
  - intros (g' & o & E). cbn [gstep] in E. destruct (nth_error (fl_runs (gf_all g)) k) as [r|] eqn:Er; [|discriminate].
    assert (Q : memb k (gf_gone g) = false /\ forall x, ws_main (sy_w (fr_sys r)) <> WpDone x) by (destruct (ws_main (sy_w (fr_sys r))); try discriminate E; (destruct (memb k (gf_gone g)); [discriminate|split; [reflexivity|discriminate]])).
    destruct Q as [Q1 Q2]. split; [rewrite <- Gk; apply memb_false, Q1|]. exists r. auto.
  - intros (Hk & r & Er & Hm). cbn [gstep]. rewrite Er. assert (Em : memb k (gf_gone g) = false) by (apply memb_false; rewrite Gk; exact Hk). rewrite Em. destruct (ws_main (sy_w (fr_sys r))) eqn:E; try (eexists; eexists; reflexivity). destruct (Hm r0 eq_refl).
  - intros g' o E. cbn [gstep] in E. destruct (nth_error (fl_runs (gf_all g)) k) as [r|]; [|discriminate]. destruct (ws_main (sy_w (fr_sys r))); try discriminate E; (destruct (memb k (gf_gone g)); [discriminate|]); injection E as <- <-; auto.
Qed.
Print Assumptions C132_at_any_time.
(** A run that has not been given up comes to its end as in C130, whichever others are given up. *)
Theorem C132_builtin : forall glob rhooks conf now stg actg, gfleet_execution (fun cx => builtin cx rhooks conf) glob stg actg now -> (forall n, named (all_of stg n)) ->
  forall k n0 cx wf s0, (forall n, actg n <> Some (GGiveUp k)) -> run_at (all_of stg n0) k cx wf s0 -> runnable wf -> (forall n, alone (history (done_by actg) n) (all_of stg n) k) ->
  (forall n op, done_by actg n = Some (FRunOp k op) -> orderly wf tame_local op) ->
  forall gh c code, keeps_steps c ->
  kept_going (fun cx => builtin cx rhooks conf) glob local_kind (all_of stg) (done_by actg) (goes_on gh (plain_local c code)) k cx wf -> falls_silent local_kind (all_of stg) (done_by actg) k cx wf ->
  exists r, comes_to (all_of stg) k cx wf r.
Proof.
  intros glob rhooks conf now stg actg Hx Hn k n0 cx wf s0 Hg Hat Hr Ha Ho gh c code Hc Hk Hs.
  assert (X := C130_builtin glob rhooks conf now _ _ (without _ glob now stg actg Hx) (history_named _ glob now stg actg Hx Hn) k n0 cx wf s0 (proj2 (run_same _ glob now stg actg Hx k Hg _ _ _ _) Hat) Hr
    (history_alone _ glob now stg actg Hx k Ha) (fun n op E => Ho n op (act_done _ _ _ _ E)) gh c code Hc (kept_same _ glob now stg actg Hx _ k Hg _ _ _ Hk) (silent_same _ glob now stg actg Hx _ k Hg _ _ Hs)).
  destruct X as [r X]. exists r. exact (comes_same _ glob now stg actg Hx k Hg _ _ _ X).
Qed.
Print Assumptions C132_builtin.
Theorem C132_distant : forall glob cl now stg actg, gfleet_execution (fun cx => distant cx cl) glob stg actg now -> (forall n, named (all_of stg n)) ->
  forall k n0 cx wf s0, (forall n, actg n <> Some (GGiveUp k)) -> run_at (all_of stg n0) k cx wf s0 -> runnable wf -> (forall n, alone (history (done_by actg) n) (all_of stg n) k) ->
  (forall n op, done_by actg n = Some (FRunOp k op) -> orderly wf tame_distant op) ->
  forall gh c clients pick rr, keeps_steps c -> client_start clients pick <> None ->
  kept_going (fun cx => distant cx cl) glob distant_kind (all_of stg) (done_by actg) (goes_on gh (plain_distant c clients pick rr)) k cx wf -> falls_silent distant_kind (all_of stg) (done_by actg) k cx wf ->
  exists r, comes_to (all_of stg) k cx wf r.
Proof.
  intros glob cl now stg actg Hx Hn k n0 cx wf s0 Hg Hat Hr Ha Ho gh c clients pick rr Hc Hp Hk Hs.
  assert (X := C130_distant glob cl now _ _ (without _ glob now stg actg Hx) (history_named _ glob now stg actg Hx Hn) k n0 cx wf s0 (proj2 (run_same _ glob now stg actg Hx k Hg _ _ _ _) Hat) Hr
    (history_alone _ glob now stg actg Hx k Ha) (fun n op E => Ho n op (act_done _ _ _ _ E)) gh c clients pick rr Hc Hp (kept_same _ glob now stg actg Hx _ k Hg _ _ _ Hk) (silent_same _ glob now stg actg Hx _ k Hg _ _ Hs)).
  destruct X as [r X]. exists r. exact (comes_same _ glob now stg actg Hx k Hg _ _ _ X).
Qed.
Print Assumptions C132_distant.
Theorem C132_chained : forall glob cl sv rhooks conf now stg actg, gfleet_execution (fun cx => chained cx cl sv rhooks conf) glob stg actg now -> (forall n, named (all_of stg n)) ->
  forall k n0 cx wf s0, (forall n, actg n <> Some (GGiveUp k)) -> run_at (all_of stg n0) k cx wf s0 -> runnable wf -> (forall n, alone (history (done_by actg) n) (all_of stg n) k) ->
  (forall n op, done_by actg n = Some (FRunOp k op) -> orderly wf tame_worker op) ->
  forall gh c clients pick code, keeps_steps c -> client_start clients pick <> None ->
  kept_going (fun cx => chained cx cl sv rhooks conf) glob chained_kind (all_of stg) (done_by actg) (goes_on gh (plain_worker c clients pick code)) k cx wf -> falls_silent chained_kind (all_of stg) (done_by actg) k cx wf ->
  exists r, comes_to (all_of stg) k cx wf r.
Proof.
  intros glob cl sv rhooks conf now stg actg Hx Hn k n0 cx wf s0 Hg Hat Hr Ha Ho gh c clients pick code Hc Hp Hk Hs.
  assert (X := C130_chained glob cl sv rhooks conf now _ _ (without _ glob now stg actg Hx) (history_named _ glob now stg actg Hx Hn) k n0 cx wf s0 (proj2 (run_same _ glob now stg actg Hx k Hg _ _ _ _) Hat) Hr
    (history_alone _ glob now stg actg Hx k Ha) (fun n op E => Ho n op (act_done _ _ _ _ E)) gh c clients pick code Hc Hp (kept_same _ glob now stg actg Hx _ k Hg _ _ _ Hk) (silent_same _ glob now stg actg Hx _ k Hg _ _ Hs)).
  destruct X as [r X]. exists r. exact (comes_same _ glob now stg actg Hx k Hg _ _ _ X).
Qed.
Print Assumptions C132_chained.

(** ** C133: what becomes of the run itself *)
(** Once a run has been given up, nothing more is done on behalf of the workflow: no more jobs are started, no more results are taken from jobs, there
    is no result of the workflow, and no event of the workflow; all events of the run are events of its jobs. *)
Theorem C133_nothing_more : forall {T iop iobs} (R : ectx -> rside T iop iobs) glob now ops g tr more g' o k, gfleet_run R glob now ops g tr -> gexec R glob g more = Some (g', o) -> given_up ops k ->
  exists r r', nth_error (fl_runs (gf_all g)) k = Some r /\ nth_error (fl_runs (gf_all g')) k = Some r' /\ fr_wf r' = fr_wf r /\
    map tk_key (ws_tasks (sy_w (fr_sys r'))) = map tk_key (ws_tasks (sy_w (fr_sys r))) /\ ws_chan (sy_w (fr_sys r')) = ws_chan (sy_w (fr_sys r)) /\
    ws_main (sy_w (fr_sys r')) = ws_main (sy_w (fr_sys r)) /\ (forall x, ws_main (sy_w (fr_sys r')) <> WpDone x) /\ forall e, In e (run_events k o) -> exists i, fst e = Some i.
Proof.
  intros T iop iobs R glob now ops g tr more g' o k Hr E Hk. destruct (simulated R glob _ _ _ _ Hr) as [Eg _]. assert (Hg : In k (gf_gone g)) by (rewrite Eg, goner_in; auto).
  destruct (gone_there R glob _ _ _ _ Hr k Hg) as [r Er]. destruct (gone_keeps_exec R glob _ _ _ _ _ _ E Hg Er) as (r' & H1 & H2 & H3 & H4 & H5 & H6 & _).
  exists r, r'. repeat (split; [assumption|]). split; [|exact H6]. intros x Hx. apply (gone_not_done R glob _ _ _ _ Hr k r x Hg Er). congruence.
Qed.
Print Assumptions C133_nothing_more.
(** A job of it that has ended and has not reported its result yet can report it, once; the report reaches nobody and changes nothing else. *)
Theorem C133_report : forall {T iop iobs} (R : ectx -> rside T iop iobs) glob now ops g tr k i g' o, gfleet_run R glob now ops g tr -> given_up ops k ->
  (gstep R glob g (GDo (FRunOp k (YFlow (WSend i)))) = Some (g', o) <->
   o = [] /\ gf_gone g' = gf_gone g /\ exists r key j x, nth_error (fl_runs (gf_all g)) k = Some r /\ nth_error (ws_tasks (sy_w (fr_sys r))) i = Some (WTask key j (JpReturned x) false) /\
     gf_all g' = Fleet (fl_now (gf_all g)) (fl_sm (gf_all g)) (fl_ctx (gf_all g)) (list_set k (FRun (fr_ctx r) (fr_wf r)
       (System (WState (ws_sh (sy_w (fr_sys r))) (ws_main (sy_w (fr_sys r))) (list_set i (WTask key j (JpReturned x) true) (ws_tasks (sy_w (fr_sys r)))) (ws_chan (sy_w (fr_sys r)))) (sy_cur (fr_sys r)) (sy_past (fr_sys r)))) (fl_runs (gf_all g)))).
Proof.
  intros T iop iobs R glob now ops g tr k i g' o Hr Hk. destruct (simulated R glob _ _ _ _ Hr) as [Eg _]. assert (Hg : memb k (gf_gone g) = true) by (apply memb_true; rewrite Eg, goner_in; auto).
  cbn [gstep]. rewrite Hg. unfold lose, set_task. split.
  - intros E. destruct (nth_error (fl_runs (gf_all g)) k) as [r|] eqn:Er; [|discriminate]. destruct (nth_error (ws_tasks (sy_w (fr_sys r))) i) as [[key j [] []]|] eqn:Et; try discriminate E. injection E as <- <-. cbn [gf_all gf_gone]. split; [reflexivity|]. split; [reflexivity|]. exists r, key, j. eexists. eauto.
  - intros (-> & E1 & r & key & j & x & -> & -> & E2). destruct g' as [a b]. cbn [gf_all gf_gone] in *. subst a b. reflexivity.
Qed.
Print Assumptions C133_report.
(** Its jobs, however, go on and end by themselves, like any other job (C131), as long as nobody else runs the same jobs at the same time. *)
Theorem C133_builtin : forall glob rhooks conf now stg actg, gfleet_execution (fun cx => builtin cx rhooks conf) glob stg actg now -> (forall n, named (all_of stg n)) ->
  forall k n0 cx wf i t0, task_at (all_of stg) n0 k cx wf i t0 -> distinct_ids wf -> (forall key j, In (key, j) (wf_jobs wf) -> owns_steps j) ->
  (forall n, alone (history (done_by actg) n) (all_of stg n) k) -> (forall n op, done_by actg n = Some (FRunOp k op) -> orderly wf tame_local op) ->
  forall gh c code, keeps_steps c ->
  job_kept_going (fun cx => builtin cx rhooks conf) glob local_kind (all_of stg) (done_by actg) (goes_on gh (plain_local c code)) k cx wf i -> job_falls_silent local_kind (all_of stg) (done_by actg) k cx wf i ->
  job_ends_at_last (all_of stg) k cx wf i.
Proof.
  intros glob rhooks conf now stg actg Hx Hn k n0 cx wf i t0 Ht H1 H2 Ha Ho gh c code Hc Hk Hs. destruct (task_from _ glob now stg actg Hx _ _ _ _ _ _ Ht) as (t1 & Ht1 & _).
  exact (ends_same _ glob now stg actg Hx _ _ _ _ (C131_builtin glob rhooks conf now _ _ (without _ glob now stg actg Hx) (history_named _ glob now stg actg Hx Hn) k n0 cx wf i t1 Ht1 H1 H2
    (history_alone _ glob now stg actg Hx k Ha) (fun n op E => Ho n op (act_done _ _ _ _ E)) gh c code Hc (job_kept_same _ glob now stg actg Hx _ k cx wf i _ Hk) (job_silent_same _ glob now stg actg Hx _ k cx wf i Hs))).
Qed.
Print Assumptions C133_builtin.
Theorem C133_distant : forall glob cl now stg actg, gfleet_execution (fun cx => distant cx cl) glob stg actg now -> (forall n, named (all_of stg n)) ->
  forall k n0 cx wf i t0, task_at (all_of stg) n0 k cx wf i t0 -> distinct_ids wf -> (forall key j, In (key, j) (wf_jobs wf) -> owns_steps j) ->
  (forall n, alone (history (done_by actg) n) (all_of stg n) k) -> (forall n op, done_by actg n = Some (FRunOp k op) -> orderly wf tame_distant op) ->
  forall gh c clients pick rr, keeps_steps c -> client_start clients pick <> None ->
  job_kept_going (fun cx => distant cx cl) glob distant_kind (all_of stg) (done_by actg) (goes_on gh (plain_distant c clients pick rr)) k cx wf i -> job_falls_silent distant_kind (all_of stg) (done_by actg) k cx wf i ->
  job_ends_at_last (all_of stg) k cx wf i.
Proof.
  intros glob cl now stg actg Hx Hn k n0 cx wf i t0 Ht H1 H2 Ha Ho gh c clients pick rr Hc Hp Hk Hs. destruct (task_from _ glob now stg actg Hx _ _ _ _ _ _ Ht) as (t1 & Ht1 & _).
  exact (ends_same _ glob now stg actg Hx _ _ _ _ (C131_distant glob cl now _ _ (without _ glob now stg actg Hx) (history_named _ glob now stg actg Hx Hn) k n0 cx wf i t1 Ht1 H1 H2
    (history_alone _ glob now stg actg Hx k Ha) (fun n op E => Ho n op (act_done _ _ _ _ E)) gh c clients pick rr Hc Hp (job_kept_same _ glob now stg actg Hx _ k cx wf i _ Hk) (job_silent_same _ glob now stg actg Hx _ k cx wf i Hs))).
Qed.
Print Assumptions C133_distant.
Theorem C133_chained : forall glob cl sv rhooks conf now stg actg, gfleet_execution (fun cx => chained cx cl sv rhooks conf) glob stg actg now -> (forall n, named (all_of stg n)) ->
  forall k n0 cx wf i t0, task_at (all_of stg) n0 k cx wf i t0 -> distinct_ids wf -> (forall key j, In (key, j) (wf_jobs wf) -> owns_steps j) ->
  (forall n, alone (history (done_by actg) n) (all_of stg n) k) -> (forall n op, done_by actg n = Some (FRunOp k op) -> orderly wf tame_worker op) ->
  forall gh c clients pick code, keeps_steps c -> client_start clients pick <> None ->
  job_kept_going (fun cx => chained cx cl sv rhooks conf) glob chained_kind (all_of stg) (done_by actg) (goes_on gh (plain_worker c clients pick code)) k cx wf i -> job_falls_silent chained_kind (all_of stg) (done_by actg) k cx wf i ->
  job_ends_at_last (all_of stg) k cx wf i.
Proof.
  intros glob cl sv rhooks conf now stg actg Hx Hn k n0 cx wf i t0 Ht H1 H2 Ha Ho gh c clients pick code Hc Hp Hk Hs. destruct (task_from _ glob now stg actg Hx _ _ _ _ _ _ Ht) as (t1 & Ht1 & _).
  exact (ends_same _ glob now stg actg Hx _ _ _ _ (C131_chained glob cl sv rhooks conf now _ _ (without _ glob now stg actg Hx) (history_named _ glob now stg actg Hx Hn) k n0 cx wf i t1 Ht1 H1 H2
    (history_alone _ glob now stg actg Hx k Ha) (fun n op E => Ho n op (act_done _ _ _ _ E)) gh c clients pick code Hc Hp (job_kept_same _ glob now stg actg Hx _ k cx wf i _ Hk) (job_silent_same _ glob now stg actg Hx _ k cx wf i Hs))).
Qed.
Print Assumptions C133_chained.

(** ** C134: running it again *)
(** A workflow is started when every run that has a job id in common with it is at rest: over, or given up with all its started jobs ended; and no
    such workflow is started afterwards.  Then it is alone in the sense of C129. *)
Theorem C134_alone : forall {T iop iobs} (R : ectx -> rside T iop iobs) glob now ops0 g0 tr0 c wf later g o, gfleet_run R glob now ops0 g0 tr0 -> gexec R glob g0 (GDo (FStart c wf) :: later) = Some (g, o) ->
  (forall k' r' id, nth_error (fl_runs (gf_all g0)) k' = Some r' -> job_of (fr_wf r') id -> job_of wf id -> at_rest g0 k' r') ->
  (forall c' wf' id, In (GDo (FStart c' wf')) later -> job_of wf' id -> ~ job_of wf id) ->
  alone (deeds (ops0 ++ GDo (FStart c wf) :: later)) (gf_all g) (length (fl_runs (gf_all g0))) /\
  since (length (fl_runs (gf_all g0))) (deeds (ops0 ++ GDo (FStart c wf) :: later)) = deeds later.
Proof. intros. eapply alone_again; eassumption. Qed.
Print Assumptions C134_alone.

Lemma do_exec {T iop iobs} (R : ectx -> rside T iop iobs) glob k more : forall g f o, ~ In k (gf_gone g) -> fexec R glob (gf_all g) (map (FRunOp k) more) = Some (f, o) ->
  gexec R glob g (map (fun op => GDo (FRunOp k op)) more) = Some (GFleet f (gf_gone g), o).
Proof.
  induction more as [|op more IH]; intros g f o Hk E; cbn [map fexec gexec] in *; [injection E as <- <-; destruct g; reflexivity|].
  destruct (fstep R glob (gf_all g) (FRunOp k op)) as [[f1 o1]|] eqn:E1; [|discriminate]. destruct (fexec R glob f1 (map (FRunOp k) more)) as [[f2 o2]|] eqn:E2; [|discriminate]. injection E as <- <-.
  cbn [gstep]. destruct (memb k (gf_gone g)) eqn:Em; [apply memb_true in Em; destruct (Hk Em)|]. unfold plainly. rewrite E1. rewrite (IH (GFleet f1 (gf_gone g)) f2 o2 Hk E2). reflexivity.
Qed.
(** It can be completed by its own actions. *)
Theorem C134_builtin_completes : forall glob rhooks conf now ops g tr, gfleet_run (fun cx => builtin cx rhooks conf) glob now ops g tr -> named (gf_all g) ->
  forall k cx wf s, ~ given_up ops k -> alone (deeds ops) (gf_all g) k -> run_at (gf_all g) k cx wf s -> runnable wf -> (forall op, In op (run_ops k (deeds ops)) -> orderly wf tame_local op) ->
  forall gh c code, keeps_steps c ->
  exists more g' o s' r, Forall (goes_on gh (plain_local c code)) more /\ gexec (fun cx => builtin cx rhooks conf) glob g (map (fun op => GDo (FRunOp k op)) more) = Some (g', o) /\ run_at (gf_all g') k cx wf s' /\ ws_main (sy_w s') = WpDone r.
Proof.
  intros glob rhooks conf now ops g tr Hr Hn k cx wf s Hg Ha Hat (Hne & Hac & Hd & Ho) Hop gh c code Hc.
  destruct (C132_unnoticed _ _ _ _ _ _ Hr) as (f & Hf & S & Hk). destruct (Hk k Hg) as [Er Eat]. destruct (simulated _ _ _ _ _ _ Hr) as [Eg _]. assert (Hg' : ~ In k (gf_gone g)) by (rewrite Eg, goner_in; intros [[]|Q]; exact (Hg Q)).
  assert (Hnd : NoDup (keys (wf_jobs wf))) by (destruct Hat as (r & ca & Hq & _ & <- & _); exact (Hn k r Hq)).
  assert (Hop' : forall op, In op (run_ops k (unaware [] ops)) -> orderly wf tame_local op) by (rewrite Er; exact Hop).
  assert (Ha' : alone (unaware [] ops) f k) by (apply (stands_alone f g); [exact S|]; eapply thin_alone; [apply deeds_thin|exact Ha]).
  destruct (run_orderly (fun cx => builtin cx rhooks conf) glob tame_local (fun cx => builtin_faithful cx rhooks conf) _ _ _ _ _ _ _ _ Hf (stands_named _ _ S Hn) Ha' (proj2 (Eat _ _ _) Hat) Hop') as (sh0 & ops' & H1 & _ & _ & _ & H5).
  destruct (C108_builtin _ _ _ _ _ _ _ _ _ Hnd Hne Hac Hd Ho H1 H5 gh c code Hc) as (more & s' & o & r & M1 & M2 & M3).
  destruct (lift_exec (fun cx => builtin cx rhooks conf) glob more (gf_all g) k cx wf s s' o Hat M2 (goes_not_env _ _ _ M1)) as (f' & M4 & M5). exists more, (GFleet f' (gf_gone g)), (map (fun x => (k, x)) o), s', r.
  split; [exact M1|]. split; [apply do_exec; assumption|]. auto.
Qed.
Print Assumptions C134_builtin_completes.
Theorem C134_distant_completes : forall glob cl now ops g tr, gfleet_run (fun cx => distant cx cl) glob now ops g tr -> named (gf_all g) ->
  forall k cx wf s, ~ given_up ops k -> alone (deeds ops) (gf_all g) k -> run_at (gf_all g) k cx wf s -> runnable wf -> (forall op, In op (run_ops k (deeds ops)) -> orderly wf tame_distant op) ->
  forall gh c clients pick rr, keeps_steps c -> client_start clients pick <> None ->
  exists more g' o s' r, Forall (goes_on gh (plain_distant c clients pick rr)) more /\ gexec (fun cx => distant cx cl) glob g (map (fun op => GDo (FRunOp k op)) more) = Some (g', o) /\ run_at (gf_all g') k cx wf s' /\ ws_main (sy_w s') = WpDone r.
Proof.
  intros glob cl now ops g tr Hr Hn k cx wf s Hg Ha Hat (Hne & Hac & Hd & Ho) Hop gh c clients pick rr Hc Hp.
  destruct (C132_unnoticed _ _ _ _ _ _ Hr) as (f & Hf & S & Hk). destruct (Hk k Hg) as [Er Eat]. destruct (simulated _ _ _ _ _ _ Hr) as [Eg _]. assert (Hg' : ~ In k (gf_gone g)) by (rewrite Eg, goner_in; intros [[]|Q]; exact (Hg Q)).
  assert (Hnd : NoDup (keys (wf_jobs wf))) by (destruct Hat as (r & ca & Hq & _ & <- & _); exact (Hn k r Hq)).
  assert (Hop' : forall op, In op (run_ops k (unaware [] ops)) -> orderly wf tame_distant op) by (rewrite Er; exact Hop).
  assert (Ha' : alone (unaware [] ops) f k) by (apply (stands_alone f g); [exact S|]; eapply thin_alone; [apply deeds_thin|exact Ha]).
  destruct (run_orderly (fun cx => distant cx cl) glob tame_distant (fun cx => distant_faithful cx cl) _ _ _ _ _ _ _ _ Hf (stands_named _ _ S Hn) Ha' (proj2 (Eat _ _ _) Hat) Hop') as (sh0 & ops' & H1 & _ & _ & _ & H5).
  destruct (C108_distant _ _ _ _ _ _ _ _ Hnd Hne Hac Hd Ho H1 H5 gh c clients pick rr Hc Hp) as (more & s' & o & r & M1 & M2 & M3).
  destruct (lift_exec (fun cx => distant cx cl) glob more (gf_all g) k cx wf s s' o Hat M2 (goes_not_env _ _ _ M1)) as (f' & M4 & M5). exists more, (GFleet f' (gf_gone g)), (map (fun x => (k, x)) o), s', r.
  split; [exact M1|]. split; [apply do_exec; assumption|]. auto.
Qed.
Print Assumptions C134_distant_completes.
Theorem C134_chained_completes : forall glob cl sv rhooks conf now ops g tr, gfleet_run (fun cx => chained cx cl sv rhooks conf) glob now ops g tr -> named (gf_all g) ->
  forall k cx wf s, ~ given_up ops k -> alone (deeds ops) (gf_all g) k -> run_at (gf_all g) k cx wf s -> runnable wf -> (forall op, In op (run_ops k (deeds ops)) -> orderly wf tame_worker op) ->
  forall gh c clients pick code, keeps_steps c -> client_start clients pick <> None ->
  exists more g' o s' r, Forall (goes_on gh (plain_worker c clients pick code)) more /\ gexec (fun cx => chained cx cl sv rhooks conf) glob g (map (fun op => GDo (FRunOp k op)) more) = Some (g', o) /\ run_at (gf_all g') k cx wf s' /\ ws_main (sy_w s') = WpDone r.
Proof.
  intros glob cl sv rhooks conf now ops g tr Hr Hn k cx wf s Hg Ha Hat (Hne & Hac & Hd & Ho) Hop gh c clients pick code Hc Hp.
  destruct (C132_unnoticed _ _ _ _ _ _ Hr) as (f & Hf & S & Hk). destruct (Hk k Hg) as [Er Eat]. destruct (simulated _ _ _ _ _ _ Hr) as [Eg _]. assert (Hg' : ~ In k (gf_gone g)) by (rewrite Eg, goner_in; intros [[]|Q]; exact (Hg Q)).
  assert (Hnd : NoDup (keys (wf_jobs wf))) by (destruct Hat as (r & ca & Hq & _ & <- & _); exact (Hn k r Hq)).
  assert (Hop' : forall op, In op (run_ops k (unaware [] ops)) -> orderly wf tame_worker op) by (rewrite Er; exact Hop).
  assert (Ha' : alone (unaware [] ops) f k) by (apply (stands_alone f g); [exact S|]; eapply thin_alone; [apply deeds_thin|exact Ha]).
  destruct (run_orderly (fun cx => chained cx cl sv rhooks conf) glob tame_worker (fun cx => chained_faithful cx cl sv rhooks conf) _ _ _ _ _ _ _ _ Hf (stands_named _ _ S Hn) Ha' (proj2 (Eat _ _ _) Hat) Hop') as (sh0 & ops' & H1 & _ & _ & _ & H5).
  destruct (C115_completes _ _ _ _ _ _ _ _ _ _ _ Hnd Hne Hac Hd Ho H1 H5 gh c clients pick code Hc Hp) as (more & s' & o & r & M1 & M2 & M3).
  destruct (lift_exec (fun cx => chained cx cl sv rhooks conf) glob more (gf_all g) k cx wf s s' o Hat M2 (goes_not_env _ _ _ M1)) as (f' & M4 & M5). exists more, (GFleet f' (gf_gone g)), (map (fun x => (k, x)) o), s', r.
  split; [exact M1|]. split; [apply do_exec; assumption|]. auto.
Qed.
Print Assumptions C134_chained_completes.

(** Unless cancel_job is called for a job of its own since it was started, its results are decided by its own commands alone, whatever became of earlier runs of the same jobs. *)
Theorem C134_builtin_outcome : forall glob rhooks conf now ops g tr, gfleet_run (fun cx => builtin cx rhooks conf) glob now ops g tr -> named (gf_all g) ->
  forall k cx wf s, ~ given_up ops k -> alone (deeds ops) (gf_all g) k -> run_at (gf_all g) k cx wf s -> (forall key j, In (key, j) (wf_jobs wf) -> owns_steps j) -> (forall op, In op (run_ops k (deeds ops)) -> orderly wf tame_local op) ->
  (forall c j, In (FLook c j) (since k (deeds ops)) -> ~ job_of wf j) -> untroubled (run_ops k (deeds ops)) ->
  (forall key r, In (key, r) (received (flow_of (builtin cx rhooks conf) (run_events k tr))) -> jr_state r <> Cancelled /\
     exists i, nth_error (started (flow_of (builtin cx rhooks conf) (run_events k tr))) i = Some key /\ forall x, In x (jr_steps r) -> sr_state x = Skipped \/ exit_of (run_ops k (deeds ops)) i x) /\
  forall r, ws_main (sy_w s) = WpDone r ->
    (wr_state r = Failed \/ wr_state r = Succeeded \/ (wr_state r = Skipped /\ wr_jobs r = [])) /\
    (wr_state r = Failed <-> exists key x y, In (key, x) (received (flow_of (builtin cx rhooks conf) (run_events k tr))) /\ In y (jr_steps x) /\ sr_state y = Failed) /\
    ((forall i code, In (YStep i (LRunner (XICmd (CIExit code)))) (run_ops k (deeds ops)) -> code = Some 0%Z) ->
       wr_state r <> Failed /\ forall key x, lookup key (wr_jobs r) = Some x -> jr_state x = Succeeded \/ jr_state x = Skipped).
Proof.
  intros glob rhooks conf now ops g tr Hr Hn k cx wf s Hg Ha Hat Ho Hop Hl U. destruct (C132_unnoticed _ _ _ _ _ _ Hr) as (f & Hf & S & Hk). destruct (Hk k Hg) as [Er Eat]. rewrite <- Er in *.
  eapply C129_builtin_outcome; [exact Hf|exact (stands_named _ _ S Hn)| |exact (proj2 (Eat _ _ _) Hat)|exact Ho|exact Hop| |exact U].
  - apply (stands_alone f g); [exact S|]. eapply thin_alone; [apply deeds_thin|exact Ha].
  - intros c0 j0 Hin. apply (Hl c0 j0). eapply thin_any; [|exact Hin]. apply thin_since, deeds_thin.
Qed.
Print Assumptions C134_builtin_outcome.
Theorem C134_chained_outcome : forall glob cl sv rhooks conf now ops g tr, gfleet_run (fun cx => chained cx cl sv rhooks conf) glob now ops g tr -> named (gf_all g) ->
  forall k cx wf s, ~ given_up ops k -> alone (deeds ops) (gf_all g) k -> run_at (gf_all g) k cx wf s -> (forall key j, In (key, j) (wf_jobs wf) -> owns_steps j) -> (forall op, In op (run_ops k (deeds ops)) -> orderly wf tame_worker op) ->
  (forall c j, In (FLook c j) (since k (deeds ops)) -> ~ job_of wf j) -> smooth (run_ops k (deeds ops)) ->
  (forall key r, In (key, r) (received (flow_of (chained cx cl sv rhooks conf) (run_events k tr))) -> jr_state r <> Cancelled /\
     exists i, nth_error (started (flow_of (chained cx cl sv rhooks conf) (run_events k tr))) i = Some key /\ forall x, In x (jr_steps r) -> sr_state x = Skipped \/ remote_exit (run_ops k (deeds ops)) i x) /\
  forall r, ws_main (sy_w s) = WpDone r ->
    (wr_state r = Failed \/ wr_state r = Succeeded \/ (wr_state r = Skipped /\ wr_jobs r = [])) /\
    (wr_state r = Failed <-> exists key x y, In (key, x) (received (flow_of (chained cx cl sv rhooks conf) (run_events k tr))) /\ In y (jr_steps x) /\ sr_state y = Failed) /\
    ((forall i code, In (YStep i (KExec (XICmd (CIExit code)))) (run_ops k (deeds ops)) -> code = Some 0%Z) ->
       wr_state r <> Failed /\ forall key x, lookup key (wr_jobs r) = Some x -> jr_state x = Succeeded \/ jr_state x = Skipped).
Proof.
  intros glob cl sv rhooks conf now ops g tr Hr Hn k cx wf s Hg Ha Hat Ho Hop Hl U. destruct (C132_unnoticed _ _ _ _ _ _ Hr) as (f & Hf & S & Hk). destruct (Hk k Hg) as [Er Eat]. rewrite <- Er in *.
  eapply C129_chained_outcome; [exact Hf|exact (stands_named _ _ S Hn)| |exact (proj2 (Eat _ _ _) Hat)|exact Ho|exact Hop| |exact U].
  - apply (stands_alone f g); [exact S|]. eapply thin_alone; [apply deeds_thin|exact Ha].
  - intros c0 j0 Hin. apply (Hl c0 j0). eapply thin_any; [|exact Hin]. apply thin_since, deeds_thin.
Qed.
Print Assumptions C134_chained_outcome.

(** ** Non-vacuity *)
Lemma finite_gfleet {T iop iobs} (R : ectx -> rside T iop iobs) glob now ops g o : gexec R glob (ginit now) ops = Some (g, o) ->
  let st n := match gexec R glob (ginit now) (firstn n ops) with Some (g, _) => g | None => ginit now end in
  gfleet_execution R glob st (nth_error ops) now /\ forall n, length ops <= n -> st n = g.
Proof.
  intros E st.
  assert (Ab : forall l s0 n, match nth_error l n, gexec R glob s0 l with
     | Some op, Some _ => exists s1 o1 s2 o2, gexec R glob s0 (firstn n l) = Some (s1, o1) /\ gstep R glob s1 op = Some (s2, o2) /\ exists o3, gexec R glob s0 (firstn (S n) l) = Some (s2, o3)
     | _, _ => True end).
  { induction l as [|op l IH]; intros s0 [|n]; cbn [nth_error]; try exact Logic.I.
    - cbn [gexec firstn]. destruct (gstep R glob s0 op) as [[s1 o1]|] eqn:E1; [|exact Logic.I]. destruct (gexec R glob s1 l) as [[]|]; [|exact Logic.I]. exists s0, [], s1, o1. cbn. eauto.
    - cbn [gexec firstn]. destruct (gstep R glob s0 op) as [[s1 o1]|] eqn:E1; [|destruct (nth_error l n); exact Logic.I].
      specialize (IH s1 n). destruct (nth_error l n); [|exact Logic.I]. destruct (gexec R glob s1 l) as [[]|]; [|exact Logic.I].
      destruct IH as (a & b & c & d & H1 & H2 & o3 & H3). exists a, (o1 ++ b), c, d. rewrite H1. split; [reflexivity|]. split; [exact H2|]. cbn [firstn] in H3. rewrite H3. eauto. }
  assert (Fin : forall n, length ops <= n -> st n = g) by (intros n Hn; unfold st; rewrite firstn_all2 by exact Hn; rewrite E; reflexivity).
  split; [|exact Fin]. split; [reflexivity|]. intros n. specialize (Ab ops (ginit now) n). rewrite E in Ab. destruct (nth_error ops n) as [op|] eqn:En.
  - destruct Ab as (a & b & c & d & H1 & H2 & o3 & H3). exists d. unfold st. rewrite H1, H3. exact H2.
  - apply nth_error_None in En. rewrite !Fin by lia. reflexivity.
Qed.
Lemma firstn_next {A} (l : list A) n x : nth_error l n = Some x -> firstn (S n) l = firstn n l ++ [x].
Proof. revert n. induction l as [|a l IH]; intros [|n] E; try discriminate; [injection E as ->; reflexivity|]. cbn [nth_error] in E. cbn [firstn app]. f_equal. exact (IH n E). Qed.
Lemma history_deeds {iop} (ops : list (gop (iop := iop))) n : history (done_by (nth_error ops)) n = deeds (firstn n ops).
Proof.
  induction n as [|n IH]; [reflexivity|]. cbn [history]. rewrite IH. unfold done_by. destruct (nth_error ops n) as [op|] eqn:E.
  - rewrite (firstn_next _ _ _ E), deeds_app. f_equal. destruct op; reflexivity.
  - rewrite app_nil_r, !firstn_all2; [reflexivity| |]; apply nth_error_None in E; lia.
Qed.
(** Workflow "w" is given up when it has started its job; the job is executed nevertheless and cannot report. Then "w" is run again. *)
Definition drop_ops : list (gop (iop := lop)) :=
  [GDo (FContext c26_cx); GDo (FStart 0 (one_wf "w"))] ++ map (fun op => GDo (FRunOp 0 op)) (repeat (YFlow WMain) 6) ++ [GGiveUp 0] ++ map (fun op => GDo (FRunOp 0 op)) (sys_job 0 0).
Definition redo_ops : list (gop (iop := lop)) := drop_ops ++ [GDo (FStart 0 (one_wf "w"))] ++ map (fun op => GDo (FRunOp 1 op)) (one_ops 0).
Definition drop_R : ectx -> rside (option ltask) lop lobs := fun cx => builtin cx (fun c => c) loc_conf.
Definition redo_state (n : nat) : @gfleet (option ltask) := match gexec drop_R (fun _ => None) (ginit 0%N) (firstn n redo_ops) with Some (g, _) => g | None => ginit 0%N end.
Lemma redo_wfs n : In (map (fun r => fr_wf r) (fl_runs (gf_all (redo_state n)))) [[]; [one_wf "w"]; [one_wf "w"; one_wf "w"]].
Proof.
  destruct (Nat.lt_ge_cases n (S (length redo_ops))) as [H|H].
  - assert (A : Forall (fun n => In (map (fun r => fr_wf r) (fl_runs (gf_all (redo_state n)))) [[]; [one_wf "w"]; [one_wf "w"; one_wf "w"]]) (seq 0 (S (length redo_ops)))).
    { let t := eval vm_compute in (seq 0 (S (length redo_ops))) in replace (seq 0 (S (length redo_ops))) with t by (vm_compute; reflexivity).
      repeat (constructor; [vm_compute; auto|]). constructor. }
    rewrite Forall_forall in A. apply A, in_seq. lia.
  - unfold redo_state. rewrite firstn_all2 by lia. vm_compute. auto.
Qed.
Lemma redo_wf n k r : nth_error (fl_runs (gf_all (redo_state n))) k = Some r -> k < 2 /\ fr_wf r = one_wf "w".
Proof.
  intros H. assert (B := redo_wfs n). apply (map_nth_error (fun r => fr_wf r)) in H. destruct B as [B|[B|[B|[]]]]; rewrite <- B in H; destruct k as [|[|k]]; try discriminate H; try (injection H as <-; auto); destruct k; discriminate H.
Qed.
Lemma redo_quiet n : run_ops 0 (since 1 (deeds (firstn n redo_ops))) = [].
Proof.
  destruct (Nat.lt_ge_cases n (S (length redo_ops))) as [H|H].
  - assert (A : Forall (fun n => run_ops 0 (since 1 (deeds (firstn n redo_ops))) = []) (seq 0 (S (length redo_ops)))).
    { let t := eval vm_compute in (seq 0 (S (length redo_ops))) in replace (seq 0 (S (length redo_ops))) with t by (vm_compute; reflexivity).
      repeat (constructor; [vm_compute; reflexivity|]). constructor. }
    rewrite Forall_forall in A. apply A, in_seq. lia.
  - rewrite firstn_all2 by lia. vm_compute. auto.
Qed.
Example C132_nonvacuous : exists stg actg, gfleet_execution drop_R (fun _ => None) stg actg 0%N /\ (forall n, named (all_of stg n)) /\ actg 8 = Some (GGiveUp 0) /\ (forall n, actg n <> Some (GGiveUp 1)) /\
  (exists s, run_at (all_of stg 50) 1 c26_cx (one_wf "w") s) /\ runnable (one_wf "w") /\ (forall n, alone (history (done_by actg) n) (all_of stg n) 1) /\ (forall n op, done_by actg n = Some (FRunOp 1 op) -> orderly (one_wf "w") tame_local op) /\
  (forall gh inner, kept_going drop_R (fun _ => None) local_kind (all_of stg) (done_by actg) (goes_on gh inner) 1 c26_cx (one_wf "w")) /\ falls_silent local_kind (all_of stg) (done_by actg) 1 c26_cx (one_wf "w").
Proof.
  eassert (X : gexec drop_R (fun _ => None) (ginit 0%N) redo_ops = Some (_, _)) by (vm_compute; reflexivity).
  destruct (finite_gfleet _ _ _ _ _ _ X) as [Y Fin]. exists redo_state, (nth_error redo_ops). split; [exact Y|]. clear X Y Fin.
  split. { intros n k r H. destruct (redo_wf n k r H) as [_ ->]; apply one_named. }
  split; [vm_compute; reflexivity|].
  split. { intros n H. apply nth_error_In in H. vm_compute in H. repeat (destruct H as [H|H]; [discriminate H|]). destruct H. }
  assert (Last : forall n, 100 <= n -> redo_state n = redo_state 100) by (intros n Hn; unfold redo_state; rewrite !firstn_all2; [reflexivity|vm_compute; lia|change (length redo_ops) with 100; lia]).
  assert (At : forall n, n = 99 \/ n = 100 -> exists s, run_at (gf_all (redo_state n)) 1 c26_cx (one_wf "w") s /\ (99 < n -> Pace_props.over s)).
  { intros n [->| ->].
    all: match goal with |- context [redo_state ?n] => let f := eval vm_compute in (redo_state n) in replace (redo_state n) with f by (vm_compute; reflexivity) end.
    all: eexists; split; [do 2 eexists; split; [reflexivity|]; split; [reflexivity|]; split; reflexivity|].
    all: try (intros C; exfalso; lia). all: intros _; split; [eexists; reflexivity|repeat constructor; eexists; reflexivity]. }
  split; [|split; [|split; [|split; [|split]]]].
  - unfold all_of. match goal with |- context [redo_state ?n] => let f := eval vm_compute in (redo_state n) in replace (redo_state n) with f by (vm_compute; reflexivity) end. eexists; do 2 eexists; repeat (split; [reflexivity|]); reflexivity.
  - destruct (one_runs "w") as (R1 & R2 & R3). split; [exact R1|]. split; [exact R2|]. split; [exact R3|]. apply one_owns.
  - intros n k' r r' id op Hne Hk Hk' J J' Hin. destruct (redo_wf _ _ _ Hk') as [Hl _]. assert (k' = 0) as -> by lia. rewrite history_deeds, redo_quiet in Hin. destruct Hin.
  - intros n op H. unfold done_by in H. destruct (nth_error redo_ops n) as [o|] eqn:E; [|discriminate]. apply nth_error_In in E. clear At Last. vm_compute in E.
    repeat (destruct E as [E|E]; [subst o; try discriminate H; injection H as <-; cbn; auto; try exact sys_hooks_keep; try exact Logic.I|]). destruct E.
  - intros gh inner n s Hat Hc. destruct (Nat.le_gt_cases n 99) as [Hn|Hn].
    + exists 99, (YFlow WMain). split; [exact Hn|]. destruct (At 99) as (s1 & A1 & _); [lia|]. destruct (At 100) as (s2 & A2 & _); [lia|].
      exists s1, s2. split; [vm_compute; reflexivity|]. split; [exact A1|]. split; [exact A2|]. reflexivity.
    + exfalso. unfold all_of in Hat. rewrite Last in Hat by lia. destruct (At 100) as (s1 & A1 & A2); [lia|]. rewrite (run_at_unique _ _ _ _ _ _ Hat A1) in Hc. exact (over_idle _ _ _ _ _ _ _ _ (A2 (le_n _)) Hc).
  - exists 100. intros m op Hm (s & s' & Ha & _). unfold done_by in Ha. assert (Q : nth_error redo_ops m = None) by (apply nth_error_None; change (length redo_ops) with 100; exact Hm). rewrite Q in Ha. discriminate.
Qed.
Definition drop_state (n : nat) : @gfleet (option ltask) := match gexec drop_R (fun _ => None) (ginit 0%N) (firstn n drop_ops) with Some (g, _) => g | None => ginit 0%N end.
Lemma drop_wfs n : In (map (fun r => fr_wf r) (fl_runs (gf_all (drop_state n)))) [[]; [one_wf "w"]].
Proof.
  destruct (Nat.lt_ge_cases n (S (length drop_ops))) as [H|H].
  - assert (A : Forall (fun n => In (map (fun r => fr_wf r) (fl_runs (gf_all (drop_state n)))) [[]; [one_wf "w"]]) (seq 0 (S (length drop_ops)))).
    { let t := eval vm_compute in (seq 0 (S (length drop_ops))) in replace (seq 0 (S (length drop_ops))) with t by (vm_compute; reflexivity).
      repeat (constructor; [vm_compute; auto|]). constructor. }
    rewrite Forall_forall in A. apply A, in_seq. lia.
  - unfold drop_state. rewrite firstn_all2 by lia. vm_compute. auto.
Qed.
Lemma drop_wf n k r : nth_error (fl_runs (gf_all (drop_state n))) k = Some r -> k = 0 /\ fr_wf r = one_wf "w".
Proof.
  intros H. assert (B := drop_wfs n). apply (map_nth_error (fun r => fr_wf r)) in H. destruct B as [B|[B|[]]]; rewrite <- B in H; destruct k as [|k]; try discriminate H; try (injection H as <-; auto); destruct k; discriminate H.
Qed.
(** Here the job has only just been started when the run is given up, at time 8. *)
Example C133_nonvacuous : exists stg actg, gfleet_execution drop_R (fun _ => None) stg actg 0%N /\ (forall n, named (all_of stg n)) /\ actg 8 = Some (GGiveUp 0) /\
  (exists t, task_at (all_of stg) 9 0 c26_cx (one_wf "w") 0 t /\ tk_phase t = JpCheck) /\ runnable (one_wf "w") /\ (forall n, alone (history (done_by actg) n) (all_of stg n) 0) /\ (forall n op, done_by actg n = Some (FRunOp 0 op) -> orderly (one_wf "w") tame_local op) /\
  (forall gh inner, job_kept_going drop_R (fun _ => None) local_kind (all_of stg) (done_by actg) (goes_on gh inner) 0 c26_cx (one_wf "w") 0) /\ job_falls_silent local_kind (all_of stg) (done_by actg) 0 c26_cx (one_wf "w") 0.
Proof.
  eassert (X : gexec drop_R (fun _ => None) (ginit 0%N) drop_ops = Some (_, _)) by (vm_compute; reflexivity).
  destruct (finite_gfleet _ _ _ _ _ _ X) as [Y Fin]. exists drop_state, (nth_error drop_ops). split; [exact Y|]. clear X Y Fin.
  split. { intros n k r H. destruct (drop_wf n k r H) as [_ ->]; apply one_named. }
  split; [vm_compute; reflexivity|].
  assert (Last : forall n, 49 <= n -> drop_state n = drop_state 49) by (intros n Hn; unfold drop_state; rewrite !firstn_all2; [reflexivity|vm_compute; lia|change (length drop_ops) with 49; lia]).
  assert (At : forall n, n = 47 \/ n = 48 \/ n = 49 -> exists s t, run_at (gf_all (drop_state n)) 0 c26_cx (one_wf "w") s /\ nth_error (ws_tasks (sy_w s)) 0 = Some t /\ (47 < n -> finished t)).
  { intros n [->|[->| ->]].
    all: match goal with |- context [drop_state ?n] => let f := eval vm_compute in (drop_state n) in replace (drop_state n) with f by (vm_compute; reflexivity) end.
    all: do 2 eexists; split; [do 2 eexists; split; [reflexivity|]; split; [reflexivity|]; split; reflexivity|]; split; [reflexivity|].
    all: try (intros C; exfalso; lia). all: intros _; eexists; reflexivity. }
  split; [|split; [|split; [|split; [|split]]]].
  - unfold task_at, all_of. match goal with |- context [drop_state ?n] => let f := eval vm_compute in (drop_state n) in replace (drop_state n) with f by (vm_compute; reflexivity) end.
    eexists. split; [eexists; split; [do 2 eexists; repeat (split; [reflexivity|]); reflexivity|reflexivity]|reflexivity].
  - destruct (one_runs "w") as (R1 & R2 & R3). split; [exact R1|]. split; [exact R2|]. split; [exact R3|]. apply one_owns.
  - intros n k' r r' id op Hne Hk Hk'. destruct (drop_wf _ _ _ Hk') as [-> _]. destruct (Hne eq_refl).
  - intros n op H. unfold done_by in H. destruct (nth_error drop_ops n) as [o|] eqn:E; [|discriminate]. apply nth_error_In in E. clear At Last. vm_compute in E.
    repeat (destruct E as [E|E]; [subst o; try discriminate H; injection H as <-; cbn; auto; try exact sys_hooks_keep; try exact Logic.I|]). destruct E.
  - intros gh inner n s Hat Hc. destruct (Nat.le_gt_cases n 47) as [Hn|Hn].
    + exists 47, (YFlow (WTaskOp 0 JNext)). split; [exact Hn|]. split; [reflexivity|]. destruct (At 47) as (s1 & t1 & A1 & _); [lia|]. destruct (At 48) as (s2 & t2 & A2 & _); [lia|].
      exists s1, s2. split; [vm_compute; reflexivity|]. split; [exact A1|]. split; [exact A2|]. reflexivity.
    + exfalso. assert (Q : exists m, 47 < m /\ (m = 47 \/ m = 48 \/ m = 49) /\ drop_state n = drop_state m).
      { destruct (Nat.lt_ge_cases n 49) as [Q|Q]; [exists n; repeat split; lia|]. exists 49. split; [lia|]. split; [lia|]. apply Last. lia. }
      destruct Q as (m & M1 & M2 & M3). unfold all_of in Hat. rewrite M3 in Hat. destruct (At m M2) as (s1 & t1 & A1 & A2 & A3). rewrite (run_at_unique _ _ _ _ _ _ Hat A1) in Hc. exact (ended_idle _ _ _ _ _ _ _ _ _ _ A2 (A3 M1) Hc).
  - exists 49. intros m op Hm _ (s & s' & Ha & _). unfold done_by in Ha. assert (Q : nth_error drop_ops m = None) by (apply nth_error_None; change (length drop_ops) with 49; exact Hm). rewrite Q in Ha. discriminate.
Qed.
Example C134_nonvacuous : exists g0 tr0 r0 g o s r,
  gfleet_run drop_R (fun _ => None) 0%N drop_ops g0 tr0 /\ fl_runs (gf_all g0) = [r0] /\ at_rest g0 0 r0 /\ ~ over r0 /\
  gexec drop_R (fun _ => None) g0 (skipn (length drop_ops) redo_ops) = Some (g, o) /\ named (gf_all g) /\
  run_at (gf_all g) 1 c26_cx (one_wf "w") s /\ ws_main (sy_w s) = WpDone r /\ wr_state r = Succeeded.
Proof.
  do 7 eexists. split; [eapply (gexec_run _ _ 0%N [] (ginit 0%N) [] _ _ _ (gfleet_init _ _ _)); vm_compute; reflexivity|]. split; [reflexivity|].
  split; [right; split; [left; reflexivity|intros t [<-|[]]; eexists; reflexivity]|]. split; [intros [[x C] _]; discriminate C|].
  split; [vm_compute; reflexivity|]. split. { intros [|[|k]] r H; cbn in H; try (injection H as <-; apply one_named). destruct k; discriminate H. }
  split; [do 2 eexists; split; [reflexivity|]; split; [reflexivity|]; split; reflexivity|]. split; reflexivity.
Qed.
