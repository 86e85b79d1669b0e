(** C131: every job that has been started comes to an end, whether or not anybody still attends to the workflow or to the other jobs. *)
From Verif Require Import Base Types Config_model Config_spec Config_props Signals_model Signals_proof Stream_model Cond_model Plugins_model Exec_model Exec_spec Step_props Workflow_model Workflow_spec Workflow_props
  Runner_model Sched_model Remote_model Local_model Local_props Distant_model Worker_model System_model System_spec System_proof System_inst System_props Finish_spec Finish_proof Finish_step Finish_cycle Finish_props
  Workflow_proof Workflow_inv Worker_spec Worker_proof Worker_live Worker_props Chain_model Chain_spec Chain_proof Chain_props Pace_spec Pace_proof Pace_step Pace_chain Pace_props
  Fleet_model Fleet_spec Fleet_proof Fleet_iso Fleet_main Fleet_props Live_spec Live_proof Live_props Each_spec Each_proof.

(** A step crashes by an action of the engine only. *)
Lemma panic_next cx me sh p op sh' w o : step_step cx me sh p op = Some (sh', SpPanic w, o) -> op = OpNext.
Proof.
  intros E. destruct op; [reflexivity| | | | | |]; exfalso; destruct p; cbn [step_step] in E; try discriminate E; try (destruct (runner_step _ _ _); discriminate E).
  - destruct ok; discriminate E.
  - destruct (_ <=? _)%N; discriminate E.
  - match type of E with context [sm_step ?a ?b] => destruct (sm_step a b) as [sm' r] end. destruct r as [|x| |x|]; try discriminate E. destruct x as [|bb|y]; try discriminate E; destruct y; discriminate E.
  - destruct (stream_poll _ _) as [[? []] ?]; discriminate E.
Qed.
Lemma builtin_crash cx rhooks conf me sh p x op sh' w x' o : rs_step (builtin cx rhooks conf) me sh p x op = Some (sh', SpPanic w, x', o) -> (exists w', p = SpPanic w') \/ local_kind x op (SpPanic w) x' = Move.
Proof.
  cbn [builtin rs_step]. destruct op as [so| |i| |e]; [|auto| |auto|discriminate].
  - intros E. right. destruct (lstep _ _ _ _ _ _) as [[s' lo]|] eqn:El; [|discriminate]. injection E as E1 E2 E3 E4.
    assert (so = OpNext) as ->; [|reflexivity]. destruct so; cbn [lstep] in El; try discriminate El; try reflexivity.
    all: try (destruct ok; [|discriminate El]; cbn [lo_task] in El; destruct x; [|discriminate El]).
    all: cbn [lo_task lo_sh lo_step] in El; destruct (step_step _ _ _ _ _) as [[[a b] c0]|] eqn:Es; [|discriminate El]; injection El as <- _; cbn [lo_step] in E2; subst b; apply panic_next in Es; discriminate Es.
  - intros E. left. exists w. destruct (lstep _ _ _ _ _ _) as [[s' lo]|] eqn:El; [|discriminate]. injection E as E1 E2 E3 E4. cbn [lstep] in El.
    assert (El' : match x with Some (LTask c x0 []) => match xstep c x0 i with Some (x1, o0) => Some (LState sh p (Some (LTask c x1 (flat_map sender_ops o0))), map LEff o0) | None => None end | _ => None end = Some (s', lo)) by (destruct i; first [exact El|discriminate El]).
    destruct x as [[c x0 [|]]|]; try discriminate El'. destruct (xstep c x0 i) as [[x1 o0]|]; [|discriminate El']. injection El' as <- _. exact E2.
Qed.
Lemma at_engine_panic cx me d o w : at_engine cx me d o = SpPanic w -> ds_step d = SpPanic w.
Proof. unfold at_engine. destruct (step_step _ _ _ _ _) as [[[a b] c]|] eqn:E; [|auto]. intros ->. apply panic_next in E. discriminate E. Qed.
Lemma client_crash cx me cl d op d' o w : dstep cx me cl d op = Some (d', o) -> ds_step d' = SpPanic w -> (exists w', ds_step d = SpPanic w') \/ op = DEngine OpNext.
Proof.
  destruct op as [so|cs pk|i| |e]; cbn [dstep].
  - intros E H. right. assert (E' : exists b c, step_step cx me (ds_sh d) (ds_step d) so = Some (b, SpPanic w, c)).
    { assert (Q : forall so, dengine cx me d so = Some (d', o) -> exists b c, step_step cx me (ds_sh d) (ds_step d) so = Some (b, SpPanic w, c)).
      { intros so' Q. unfold dengine in Q. destruct (step_step _ _ _ _ _) as [[[a b] c]|]; [|discriminate Q]. injection Q as <- _. cbn [ds_step] in H. subst b. eauto. }
      destruct so; try discriminate E; try (apply Q, E). destruct ok; [|discriminate E]. destruct (ds_task d) as [[[|] ? [|]]|]; try discriminate E; apply Q, E. }
    destruct E' as (b & c & E'). apply panic_next in E' as ->. reflexivity.
  - intros E H. left. exists w. destruct (ds_step d) eqn:Ed; try discriminate E. destruct (ds_task d); [discriminate E|]. destruct (client_start cs pk) as [[|]|]; try discriminate E; injection E as <- _; cbn [ds_step] in H; congruence.
  - intros E H. left. exists w. destruct (ds_task d) as [[[r|] sg pend]|]; try discriminate E. destruct (_ && _); [discriminate E|]. destruct (remote_step r i) as [r'|]; [|discriminate E].
    destruct i; try (injection E as <- _; exact H). destruct (sig_poll cl sg) as [sg' [g'|]]; [|discriminate E]. destruct (eqb _ _); [|discriminate E]. injection E as <- _. cbn [ds_step] in H. exact (at_engine_panic _ _ _ _ _ H).
  - intros E H. left. exists w. destruct (ds_task d) as [[r sg [|o0 rest]]|]; try discriminate E. injection E as <- _. cbn [ds_step] in H. exact (at_engine_panic _ _ _ _ _ H).
  - intros E H. left. exists w. injection E as <- _. exact H.
Qed.
Lemma distant_crash cx cl me sh p x op sh' w x' o : rs_step (distant cx cl) me sh p x op = Some (sh', SpPanic w, x', o) -> (exists w', p = SpPanic w') \/ distant_kind x op (SpPanic w) x' = Move.
Proof.
  cbn [distant rs_step]. intros E. assert (E' : match dstep cx me (cl me) (DState sh p x) op with Some (s', o) => Some (ds_sh s', ds_step s', ds_task s', o) | None => None end = Some (sh', SpPanic w, x', o)) by (destruct op; first [exact E|discriminate E]).
  destruct (dstep _ _ _ _ _) as [[d' o']|] eqn:Ed; [|discriminate E']. injection E' as _ E2 _ _. destruct (client_crash _ _ _ _ _ _ _ _ Ed E2) as [H| ->]; [left; exact H|right; reflexivity].
Qed.
Lemma chain_crash cx me cl sv rhooks conf s op s' o w : kstep cx me cl sv rhooks conf s op = Some (s', o) -> ds_step (k_d s') = SpPanic w -> (exists w', ds_step (k_d s) = SpPanic w') \/ op = KFlow (DEngine OpNext).
Proof.
  intros E H.
  assert (Q : forall d w0 l0, kflow cx me cl s d w0 l0 = Some (s', o) -> (exists w', ds_step (k_d s) = SpPanic w') \/ d = DEngine OpNext).
  { intros d w0 l0 Q. unfold kflow in Q. destruct (dstep _ _ _ _ _) as [[d' o']|] eqn:Ed; [|discriminate Q]. injection Q as <- _. eapply client_crash; [exact Ed|exact H]. }
  assert (P : forall i w0, kpost cx me cl s i w0 = Some (s', o) -> exists w', ds_step (k_d s) = SpPanic w').
  { intros i w0 P. unfold kpost in P. destruct (posting s); [|injection P as <- _; eauto|discriminate P]. destruct (Q _ _ _ P) as [X|X]; [exact X|discriminate X]. }
  destruct op as [d| |i| | | |]; cbn [kstep] in E.
  - assert (X : (exists w', ds_step (k_d s) = SpPanic w') \/ d = DEngine OpNext); [|destruct X as [X| ->]; auto].
    destruct d as [so|cs pk|i| |e]; try (eapply Q; exact E).
    + left. destruct (dstep _ _ _ _ _) as [[d' o']|] eqn:Ed; [|discriminate E]. destruct (ds_step (k_d s)) eqn:Eq; try discriminate E. injection E as <- _. cbn [k_d] in H. destruct (client_crash _ _ _ _ _ _ _ _ Ed H) as [X|X]; [destruct X as [w' X]; congruence|discriminate X].
    + destruct i as [[e|]|l|r| | | |e|g [e|]]; try discriminate E; try (eapply Q; exact E). destruct (k_w s); [eapply Q; exact E|discriminate E].
  - left. destruct (ds_task (k_d s)) as [[[|] ? ?]|]; try discriminate E. destruct (k_ctx s) as [[? ?]|]; [|discriminate E]. destruct (k_w s); [discriminate E|]. injection E as <- _. eauto.
  - left. assert (E' : match k_w s with Some (Worker c x [] str f b) => match xstep c x i with Some (x', o) => Some (KState (k_d s) (k_ctx s) (Some (Worker c x' (flat_map worker_ops o) str f b)) (k_lost s), map KEff o) | None => None end | _ => None end = Some (s', o)) by (destruct i; first [exact E|discriminate E]).
    destruct (k_w s) as [[c x [|] str f b]|]; try discriminate E'. destruct (xstep c x i) as [[x1 o1]|]; [|discriminate E']. injection E' as <- _. eauto.
  - left. destruct (k_w s) as [[c x [|] str f b]|]; try discriminate E. injection E as <- _. eauto.
  - left. destruct (k_w s) as [w0|]; [|discriminate E]. destruct (wk_fwd w0); [|eapply P; exact E|eapply P; exact E|discriminate E].
    destruct (stream_poll _ _) as [[str' pl] wk]. destruct pl; try (destruct (ss_result _)); first [eapply P; exact E|injection E as E _; rewrite <- E in H; eauto].
  - left. destruct (k_lost s); [discriminate E|]. destruct (k_w s); [|discriminate E]. injection E as <- _. eauto.
  - left. destruct (k_w s) as [[c x ? str f b]|]; [|discriminate E]. injection E as <- _. eauto.
Qed.
Lemma chained_crash cx cl sv rhooks conf me sh p x op sh' w x' o : rs_step (chained cx cl sv rhooks conf) me sh p x op = Some (sh', SpPanic w, x', o) -> (exists w', p = SpPanic w') \/ chained_kind x op (SpPanic w) x' = Move.
Proof.
  cbn [chained rs_step]. intros E.
  assert (E' : match kstep cx me (cl me) (sv me) rhooks conf (kwhole sh p x) op with Some (s', o) => Some (ds_sh (k_d s'), ds_step (k_d s'), kpart s', o) | None => None end = Some (sh', SpPanic w, x', o)) by (destruct op as [[]| | | | | |]; first [exact E|discriminate E]).
  destruct (kstep _ _ _ _ _ _ _ _) as [[s' o']|] eqn:Ed; [|discriminate E']. injection E' as _ E2 _ _. destruct (chain_crash _ _ _ _ _ _ _ _ _ _ _ Ed E2) as [H| ->]; [left; exact H|right; reflexivity].
Qed.

(** Take any unending execution of a program that makes contexts, starts workflows, lets time pass and cancels jobs, any run in it that nobody
    with the same job ids interferes with (Fleet_spec.v), and any job of it that has been started.  If this job's task is not abandoned and its
    commands do not print for ever, the job comes to an end; nothing is assumed about the other jobs of the run, about the task that runs the
    workflow - it may never act again - or about the other runs. *)
Theorem C131_builtin : forall glob rhooks conf now stf act, fleet_execution (fun cx => builtin cx rhooks conf) glob stf act now -> (forall n, named (stf n)) ->
  forall k n0 cx wf i t0, task_at stf n0 k cx wf i t0 -> distinct_ids wf -> (forall key j, In (key, j) (wf_jobs wf) -> owns_steps j) ->
  (forall n, alone (history act n) (stf n) k) -> (forall n op, act n = Some (FRunOp k op) -> orderly wf tame_local op) ->
  forall gh c code, keeps_steps c ->
  job_kept_going (fun cx => builtin cx rhooks conf) glob local_kind stf act (goes_on gh (plain_local c code)) k cx wf i -> job_falls_silent local_kind stf act k cx wf i ->
  job_ends_at_last stf k cx wf i.
Proof.
  intros glob rhooks conf now stf act Hx Hn k n0 cx wf i t0 Ht H1 H2 Ha Ho gh c code Hc Hk Hs.
  eapply (each (fun cx => builtin cx rhooks conf) glob tame_local (plain_local c code) gh local_kind lrx 6 24); try eassumption.
  - intros; apply builtin_faithful.
  - intros; apply builtin_paced.
  - intros; cbn; lia.
  - intros; apply builtin_ends.
  - intros; eapply quiet_builtin; eassumption.
  - intros; eapply builtin_crash; eassumption.
  - intros; apply builtin_tracks.
  - apply plain_tame, Hc.
Qed.
Print Assumptions C131_builtin.
Theorem C131_distant : forall glob cl now stf act, fleet_execution (fun cx => distant cx cl) glob stf act now -> (forall n, named (stf n)) ->
  forall k n0 cx wf i t0, task_at stf n0 k cx wf i t0 -> distinct_ids wf -> (forall key j, In (key, j) (wf_jobs wf) -> owns_steps j) ->
  (forall n, alone (history act n) (stf n) k) -> (forall n op, act n = Some (FRunOp k op) -> orderly wf tame_distant op) ->
  forall gh c clients pick rr, keeps_steps c -> client_start clients pick <> None ->
  job_kept_going (fun cx => distant cx cl) glob distant_kind stf act (goes_on gh (plain_distant c clients pick rr)) k cx wf i -> job_falls_silent distant_kind stf act k cx wf i ->
  job_ends_at_last stf k cx wf i.
Proof.
  intros glob cl now stf act Hx Hn k n0 cx wf i t0 Ht H1 H2 Ha Ho gh c clients pick rr Hc Hp Hk Hs.
  eapply (each (fun cx => distant cx cl) glob tame_distant (plain_distant c clients pick rr) gh distant_kind drx 7 24); try eassumption.
  - intros; apply distant_faithful.
  - intros; apply distant_paced.
  - intros; cbn; lia.
  - intros; apply distant_ends, Hp.
  - intros; eapply quiet_distant; eassumption.
  - intros; eapply distant_crash; eassumption.
  - intros; apply distant_tracks.
  - apply plain_tame_distant, Hc.
Qed.
Print Assumptions C131_distant.
Theorem C131_chained : forall glob cl sv rhooks conf now stf act, fleet_execution (fun cx => chained cx cl sv rhooks conf) glob stf act now -> (forall n, named (stf n)) ->
  forall k n0 cx wf i t0, task_at stf n0 k cx wf i t0 -> distinct_ids wf -> (forall key j, In (key, j) (wf_jobs wf) -> owns_steps j) ->
  (forall n, alone (history act n) (stf n) k) -> (forall n op, act n = Some (FRunOp k op) -> orderly wf tame_worker op) ->
  forall gh c clients pick code, keeps_steps c -> client_start clients pick <> None ->
  job_kept_going (fun cx => chained cx cl sv rhooks conf) glob chained_kind stf act (goes_on gh (plain_worker c clients pick code)) k cx wf i -> job_falls_silent chained_kind stf act k cx wf i ->
  job_ends_at_last stf k cx wf i.
Proof.
  intros glob cl sv rhooks conf now stf act Hx Hn k n0 cx wf i t0 Ht H1 H2 Ha Ho gh c clients pick code Hc Hp Hk Hs.
  eapply (each (fun cx => chained cx cl sv rhooks conf) glob tame_worker (plain_worker c clients pick code) gh chained_kind krx 12 76); try eassumption.
  - intros; apply chained_faithful.
  - intros; apply chained_paced.
  - intros; vm_compute; lia.
  - intros; apply chained_ends, Hp.
  - intros; eapply quiet_chained; eassumption.
  - intros; eapply chained_crash; eassumption.
  - intros; apply chained_tracks.
  - apply plain_tame_worker, Hc.
Qed.
Print Assumptions C131_chained.

(** Non-vacuity: workflow "v", whose task starts the job and then never acts again; the job is executed. *)
Definition left_ops : list (fop (iop := lop)) := [FContext c26_cx; FStart 0 (one_wf "v")] ++ map (FRunOp 0) (repeat (YFlow WMain) 6 ++ sys_job 0 0).
Definition left_state (n : nat) : @fleet (option ltask) :=
  match fexec (fun cx => builtin cx (fun c => c) loc_conf) (fun _ => None) (finit 0%N) (firstn n left_ops) with Some (f, _) => f | None => finit 0%N end.
Definition left_len : nat := length left_ops.
Lemma left_wfs n : In (map (fun r => fr_wf r) (fl_runs (left_state n))) [[]; [one_wf "v"]].
Proof.
  destruct (Nat.lt_ge_cases n (S left_len)) as [H|H].
  - assert (A : Forall (fun n => In (map (fun r => fr_wf r) (fl_runs (left_state n))) [[]; [one_wf "v"]]) (seq 0 (S left_len))).
    { let t := eval vm_compute in (seq 0 (S left_len)) in replace (seq 0 (S left_len)) with t by (vm_compute; reflexivity).
      repeat (constructor; [vm_compute; auto|]). constructor. }
    rewrite Forall_forall in A. apply A, in_seq. lia.
  - unfold left_state. rewrite firstn_all2 by (unfold left_len in H; lia). vm_compute. auto.
Qed.
Lemma left_wf n k r : nth_error (fl_runs (left_state n)) k = Some r -> k = 0 /\ fr_wf r = one_wf "v".
Proof.
  intros H. assert (B := left_wfs n). apply (map_nth_error (fun r => fr_wf r)) in H. destruct B as [B|[B|[]]]; rewrite <- B in H; destruct k as [|k]; try discriminate H; try (injection H as <-; auto); destruct k; discriminate H.
Qed.
Lemma ended_idle {T iop iobs} (R : rside T iop iobs) glob cx wf ikind gh inner s i t : nth_error (ws_tasks (sy_w s)) i = Some t -> finished t -> ~ can_move R glob cx wf ikind (fun op => goes_on gh inner op /\ by_job i op = true) s.
Proof.
  intros Ht [r Hp] (look & op & s1 & o1 & s2 & o2 & Ha & X & _ & Y & _).
  assert (No : forall op, by_job i op = true -> sysstep R glob cx wf s op = None).
  { intros op0 Hb. destruct op0 as [[|g|k jo|k|e]|k io|k io]; cbn [by_job] in Hb; try discriminate Hb; apply Nat.eqb_eq in Hb as ->; cbn [sysstep wstep].
    - destruct (is_step_op _); [reflexivity|]. rewrite Ht, Hp. destruct jo; reflexivity.
    - rewrite Ht, Hp. destruct (nth_error (sy_cur s) i); reflexivity. }
  apply Forall_app in Ha as [Ha Hb]. inv Hb. destruct look as [|op1 look]; cbn [sysexec] in X.
  - injection X as <- _. rewrite No in Y by tauto. discriminate.
  - inv Ha. rewrite No in X by tauto. discriminate.
Qed.
Example C131_nonvacuous : exists stf act, fleet_execution (fun cx => builtin cx (fun c => c) loc_conf) (fun _ => None) stf act 0%N /\ (forall n, named (stf n)) /\ (forall n, apart (stf n)) /\
  (exists t, task_at stf 8 0 c26_cx (one_wf "v") 0 t /\ tk_phase t = JpCheck) /\ runnable (one_wf "v") /\ (forall n op, act n = Some (FRunOp 0 op) -> orderly (one_wf "v") tame_local op) /\
  (forall gh inner, job_kept_going (fun cx => builtin cx (fun c => c) loc_conf) (fun _ => None) local_kind stf act (goes_on gh inner) 0 c26_cx (one_wf "v") 0) /\ job_falls_silent local_kind stf act 0 c26_cx (one_wf "v") 0 /\
  (forall n, 8 <= n -> act n <> Some (FRunOp 0 (YFlow WMain))) /\ (exists n s t r, run_at (stf n) 0 c26_cx (one_wf "v") s /\ nth_error (ws_tasks (sy_w s)) 0 = Some t /\ tk_phase t = JpReturned r /\ forall x, ws_main (sy_w s) <> WpDone x).
Proof.
  eassert (X : fexec (fun cx => builtin cx (fun c => c) loc_conf) (fun _ => None) (finit 0%N) left_ops = Some (_, _)) by (vm_compute; reflexivity).
  destruct (finite_fleet _ _ _ _ _ _ X) as [Y Fin]. exists left_state, (nth_error left_ops). split; [exact Y|]. clear X Y Fin.
  split. { intros n k r H. destruct (left_wf n k r H) as [_ ->]; apply one_named. }
  split. { intros n k k' r r' id Hne H H' J J'. destruct (left_wf _ _ _ H) as [-> E], (left_wf _ _ _ H') as [-> E']. destruct (Hne eq_refl). }
  assert (Last : forall n, left_len <= n -> left_state n = left_state left_len) by (intros n Hn; unfold left_state; rewrite !firstn_all2 by (unfold left_len in *; lia); reflexivity).
  assert (L : left_len = 48) by (vm_compute; reflexivity).
  assert (At : forall n, n = 46 \/ n = 47 \/ n = 48 -> exists s t, run_at (left_state n) 0 c26_cx (one_wf "v") s /\ nth_error (ws_tasks (sy_w s)) 0 = Some t /\ (forall x, ws_main (sy_w s) <> WpDone x) /\ (46 < n -> finished t)).
  { intros n [->|[->| ->]].
    all: match goal with |- context [left_state ?n] => let f := eval vm_compute in (left_state n) in replace (left_state n) with f by (vm_compute; reflexivity) end.
    all: do 2 eexists; split; [do 2 eexists; split; [reflexivity|]; split; [reflexivity|]; split; reflexivity|]; split; [reflexivity|]; split; [discriminate|].
    all: try (intros C; exfalso; lia). all: intros _; eexists; reflexivity. }
  split; [|split; [|split; [|split; [|split; [|split]]]]].
  - unfold task_at. match goal with |- context [left_state ?n] => let f := eval vm_compute in (left_state n) in replace (left_state n) with f by (vm_compute; reflexivity) end.
    eexists. split; [eexists; split; [do 2 eexists; repeat (split; [reflexivity|]); reflexivity|reflexivity]|reflexivity].
  - destruct (one_runs "v") as (R1 & R2 & R3). split; [exact R1|]. split; [exact R2|]. split; [exact R3|]. apply one_owns.
  - intros n op H. apply nth_error_In in H. vm_compute in H. repeat (destruct H as [H|H]; [try discriminate H; injection H as <-; cbn; auto; try exact sys_hooks_keep; try exact Logic.I|]). destruct H.
  - intros gh inner n s Hat Hc. destruct (Nat.le_gt_cases n 46) as [Hn|Hn].
    + exists 46, (YFlow (WTaskOp 0 JNext)). split; [exact Hn|]. split; [reflexivity|]. destruct (At 46) as (s1 & t1 & A1 & _); [lia|]. destruct (At 47) as (s2 & t2 & A2 & _); [lia|].
      exists s1, s2. split; [vm_compute; reflexivity|]. split; [exact A1|]. split; [exact A2|]. reflexivity.
    + exfalso. assert (Q : exists m, 46 < m /\ (m = 46 \/ m = 47 \/ m = 48) /\ left_state n = left_state m).
      { destruct (Nat.lt_ge_cases n 48) as [Q|Q]; [exists n; repeat split; lia|]. exists 48. split; [lia|]. split; [lia|]. rewrite <- L. apply Last. lia. }
      destruct Q as (m & M1 & M2 & M3). rewrite M3 in Hat. destruct (At m M2) as (s1 & t1 & A1 & A2 & _ & A3). rewrite (run_at_unique _ _ _ _ _ _ Hat A1) in Hc. exact (ended_idle _ _ _ _ _ _ _ _ _ _ A2 (A3 M1) Hc).
  - exists left_len. intros m op Hm _ (s & s' & Ha & _). apply nth_error_None in Hm. congruence.
  - intros n Hn H. do 8 (destruct n as [|n]; [lia|]). clear Hn At Last L. assert (E : nth_error left_ops (8 + n) = nth_error (skipn 8 left_ops) n) by (vm_compute; reflexivity). change (S (S (S (S (S (S (S (S n)))))))) with (8 + n) in H. rewrite E in H. apply nth_error_In in H.
    vm_compute in H. repeat (destruct H as [H|H]; [discriminate H|]). destruct H.
  - destruct (At 47) as (s & t & A1 & A2 & A3 & A4); [lia|]. destruct A4 as [r A4]; [lia|]. exists 47, s, t, r. auto.
Qed.
