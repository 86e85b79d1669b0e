(** C142-C145: what a plugin or the runner sees, its calls being interleaved with everything else that goes on. *)
From Verif Require Import Base Types Signals_model Signals_proof Stream_model Cond_model Plugins_model Exec_model Exec_spec Workflow_model Workflow_spec Workflow_proof Workflow_inv Workflow_term
  Step_props Job_props Workflow_props Views_model Views_spec Views_proof.

(** *** C142: what one receiver sees is a possible history *)
(** Whatever the interleaving, what the k-th receiver sees is the history of an execution in which each event reaches everybody at once, with the same
    actions of GitHub, the runners, the timers, the signals, the hooks and the environment in the same order. Where nobody is inside a delivery, everything
    has got as far as in that execution. *)
Theorem C142_possible_history : forall glob cx wf n ops v tr k, vrun glob cx wf n ops v tr -> k <= n ->
  exists ops' s, wrun glob cx wf ops' s (view k tr) /\ filter (fun x => negb (plain_next x)) ops' = others ops /\ (Views_spec.quiet v -> same_progress s (vs_w v)).
Proof.
  intros glob cx wf n ops v tr k R Hk. destruct (sim_run glob cx wf n k ops v tr Hk R) as (ops1 & s & R1 & Hr & Ho). exists ops1, s.
  split; [exact R1|]. split; [exact Ho|]. intros Hq. eapply rel_quiet; eassumption.
Qed.
Print Assumptions C142_possible_history.
(** And every such execution is possible, all receivers seeing the same. *)
Theorem C142_every_history : forall glob cx wf n ops s tr, wrun glob cx wf ops s tr ->
  exists ops' v tr', vrun glob cx wf n ops' v tr' /\ vs_w v = s /\ Views_spec.quiet v /\ forall k, k <= n -> view k tr' = tr.
Proof.
  intros glob cx wf n ops s tr R. induction R as [sh|ls s tr op s' o R (ops' & v & tr' & RV & Hw & Hq & Hk) E].
  - exists [], (vinit sh), []. split; [constructor|]. split; [reflexivity|]. split; [reflexivity|]. intros k _. reflexivity.
  - destruct (realize glob cx wf n [op] v s' o Hq) as (more & vo & X & Hv); [cbn [wexec]; rewrite Hw, E, app_nil_r; reflexivity|].
    exists (ops' ++ more), (VState s' []), (tr' ++ vo). split; [eapply vexec_run; eassumption|]. split; [reflexivity|]. split; [reflexivity|].
    intros k Hn. rewrite view_app, Hk, Hv by exact Hn. reflexivity.
Qed.
Print Assumptions C142_every_history.

(** *** C143: all receivers get the same events *)
(** What a later receiver has got from a task is what an earlier one has got from it, in the same order, up to the one event the task is delivering. *)
Theorem C143_same_events : forall glob cx wf n ops v tr t k k', vrun glob cx wf n ops v tr -> k <= k' -> k' <= n ->
  exists rest, got_from k t tr = got_from k' t tr ++ rest /\ length rest <= 1 /\ (lookup t (vs_going v) = None -> rest = []).
Proof.
  intros glob cx wf n ops v tr t k k' R Hk Hn. destruct (got_inv glob cx wf n ops v tr R t) as (l & Hl). rewrite (Hl k), (Hl k') by lia.
  assert (L : forall m, length (current cx wf v t m) <= 1).
  { intros m. unfold current. destruct (passed m (vs_going v) t); [|cbn; lia]. destruct (after_of cx wf (vs_w v) t) as [[e s1]|]; cbn; lia. }
  destruct (passed k' (vs_going v) t) eqn:Ep.
  - exists []. split; [|split; [cbn; lia|auto]]. rewrite app_nil_r. f_equal. unfold current. rewrite Ep. rewrite passed_called in *. apply Nat.ltb_lt in Ep. destruct (Nat.ltb_spec k (called v t)); [reflexivity|lia].
  - exists (current cx wf v t k). unfold current at 2. rewrite Ep, app_nil_r. split; [reflexivity|]. split; [apply L|]. intros Hg. unfold current, passed. rewrite Hg. reflexivity.
Qed.
Print Assumptions C143_same_events.
(** When nobody is inside a delivery, all have got the same from every task. *)
Theorem C143_same_when_quiet : forall glob cx wf n ops v tr t k k', vrun glob cx wf n ops v tr -> Views_spec.quiet v -> k <= n -> k' <= n -> got_from k t tr = got_from k' t tr.
Proof.
  intros glob cx wf n ops v tr t k k' R Hq Hk Hk'. destruct (got_inv glob cx wf n ops v tr R t) as (l & Hl). rewrite (Hl k), (Hl k') by assumption.
  unfold current, passed. rewrite Hq. reflexivity.
Qed.
Print Assumptions C143_same_when_quiet.

(** *** C144: what a receiver can rely on *)
Lemma seen_no_event glob cx wf n ops v tr t e : vrun glob cx wf n ops v tr -> ~ In (VSeen (t, OHook e)) tr.
Proof.
  intros R. induction R as [sh|ops v tr op v' o R IH E]; [intros []|]. intros H. apply in_app_iff in H as [H|H]; [auto|]. destruct op as [op|t'|t']; cbn [vstep] in E.
  - destruct (idle v op); [|discriminate E]. destruct (wstep glob cx wf (vs_w v) op) as [[s' o1]|]; [|discriminate E]. destruct (hooks o1) eqn:Hh; [|discriminate E]. injection E as <- <-.
    apply in_map_iff in H as (x & [= ->] & Hx). assert (C : In e (hooks o1)) by (unfold hooks; apply in_flat_map; exists (t, OHook e); split; [exact Hx|left; reflexivity]). rewrite Hh in C. destruct C.
  - destruct (delivering glob cx wf (vs_w v) t') as [[e1 s1]|]; [|discriminate E]. destruct (Nat.leb _ _); [|discriminate E]. injection E as <- <-. destruct H as [H|[]]. discriminate H.
  - destruct (delivering glob cx wf (vs_w v) t') as [[e1 s1]|]; [|discriminate E]. destruct (Nat.eqb _ _); [|discriminate E]. injection E as <- <-. destruct H.
Qed.
Lemma view_got k tr t e : ~ In (VSeen (t, OHook e)) tr -> In (OHook e) (events_of t (view k tr)) -> In (t, e) (got k tr).
Proof.
  intros Hs H. unfold events_of in H. apply in_flat_map in H as ([t' o'] & H & Hx). cbn [fst snd] in Hx. destruct (eqb t' t) eqn:Et; [|destruct Hx]. apply (proj1 (eqb_true _ _)) in Et as ->. destruct Hx as [->|[]].
  unfold view in H. apply in_flat_map in H as (x & Hx & H). destruct x as [k' t' e'|y].
  - unfold got. apply in_flat_map. exists (VGot k' t' e'). split; [exact Hx|]. destruct (Nat.eqb k' k); [|destruct H]. destruct H as [[= -> ->]|[]]. left; reflexivity.
  - destruct H as [->|[]]. contradiction.
Qed.
Lemma view_at k pre t e post : view k (pre ++ VGot k t e :: post) = view k pre ++ (t, OHook e) :: view k post.
Proof. rewrite view_app. unfold view at 2. cbn [flat_map]. rewrite Nat.eqb_refl. reflexivity. Qed.
Lemma no_hook_check on check e : lets_run on check -> ~ In (OHook e) check.
Proof. unfold lets_run. destruct on; intros ->; [intros [H|[]]; discriminate H|intros []]. Qed.
(** The head of a list of events beyond those that are no events. *)
Lemma first_event (check : list obs) e0 l1 e1 l2 l3 : (forall e, ~ In (OHook e) check) -> l1 ++ OHook e1 :: l2 = check ++ OHook e0 :: l3 -> In (OHook e0) l1 \/ e1 = e0.
Proof.
  revert l1. induction check as [|c check IH]; intros l1 Hc E; cbn [app] in E.
  - destruct l1 as [|x l1]; cbn [app] in E; [injection E as -> _; auto|]. injection E as -> _. left; left; reflexivity.
  - destruct l1 as [|x l1]; cbn [app] in E; [injection E as <- _; destruct (Hc e1); left; reflexivity|]. injection E as _ E.
    destruct (IH l1) as [H|H]; [intros e H; apply (Hc e); right; exact H|exact E|left; right; exact H|auto].
Qed.
Lemma told cx j evs r : job_story cx j evs r -> (exists r', In (OHook (HJobCompleted r')) evs /\ jr_id r' = jb_id j) \/ In (OHook (HState (JobStateUpdated (jb_id j) Skipped))) evs.
Proof.
  intros H. inv H; [right; right; left; reflexivity|]. left. eexists. split; [apply in_or_app; right; apply in_or_app; right; apply in_or_app; right; right; left; reflexivity|reflexivity].
Qed.

(** A receiver that hears of a job from a task has been told what job this is, has been told that the workflow runs, and has been told that each job it
    depends on is over. *)
Theorem C144_dependencies_first : forall glob cx wf n ops v pre k i e post, NoDup (keys (wf_jobs wf)) -> vrun glob cx wf n ops v (pre ++ VGot k (Some i) e :: post) -> k <= n ->
  exists key j, In (key, j) (wf_jobs wf) /\
    (let run := HRunJob (RunEvent j (cm_event (cx_matcher cx)) (cx_payload cx)) in In (Some i, run) (got k pre) \/ e = run \/ e = HState (JobStateUpdated (jb_id j) Skipped)) /\
    In (None, HRunWorkflow (RunEvent wf (cm_event (cx_matcher cx)) (cx_payload cx))) (got k pre) /\
    forall d, In d (jb_depends_on j) -> exists j', In (d, j') (wf_jobs wf) /\ told_over k j' pre.
Proof.
  intros glob cx wf n ops v pre k i e post Hnd R Hk. destruct (C142_possible_history _ _ _ _ _ _ _ k R Hk) as (ops' & s & W & _). rewrite view_at in W.
  assert (NS : forall t e', ~ In (VSeen (t, OHook e')) pre) by (intros t e' H; eapply (seen_no_event _ _ _ _ _ _ _ t e' R); apply in_or_app; left; exact H).
  destruct (C32_dependencies_finish_first _ _ _ _ _ _ _ _ _ Hnd W) as (key & j & Hs & Hj & Hd).
  destruct (C37_jobs_run_inside _ _ _ _ _ _ _ _ _ Hnd W) as ((check & rest & _ & Hm) & (key' & j1 & tail & r & Hs' & Hj' & Hst)).
  assert (key' = key) by congruence. subst key'. assert (j1 = j). { apply In_lookup in Hj; [|exact Hnd]. apply In_lookup in Hj'; [|exact Hnd]. congruence. } subst j1.
  exists key, j. split; [exact Hj|]. split; [|split].
  - rewrite events_of_app in Hst. unfold events_of at 2 in Hst. cbn [flat_map fst snd] in Hst. rewrite eqb_refl in Hst. cbn [app] in Hst. rewrite <- app_assoc in Hst. cbn [app] in Hst. cbv zeta.
    set (l1 := events_of (Some i) (view k pre)) in Hst. remember (l1 ++ _) as L eqn:EL in Hst. destruct Hst as [c Hc|chk evs rs st t0 t1 Hc _ _ _].
    + right; right. destruct l1 as [|x l1]; [discriminate EL|]. injection EL as _ EL. destruct l1 as [|y l1]; [injection EL as EL _; congruence|]. destruct l1; discriminate EL.
    + cbn [app] in EL. symmetry in EL. apply first_event in EL as [H|H]; [left; apply view_got; [apply NS|exact H]|auto|intros e'; eapply no_hook_check; eassumption].
  - apply view_got; [apply NS|]. rewrite Hm. apply in_or_app; right; left; reflexivity.
  - intros d Hdd. destruct (Hd d Hdd) as (i' & j' & r' & _ & Hj2 & _ & Hs2). exists j'. split; [exact Hj2|]. exists (Some i'). destruct (told _ _ _ _ Hs2) as [(r2 & H & Hr)|H].
    + left. exists r2. split; [apply view_got; [apply NS|exact H]|exact Hr].
    + right. apply view_got; [apply NS|exact H].
Qed.
Print Assumptions C144_dependencies_first.

(** A receiver that is told that the workflow is completed has been told that every job is over, and that the workflow is in the state of the result. *)
Theorem C144_completed_last : forall glob cx wf n ops v pre k t r post, NoDup (keys (wf_jobs wf)) -> vrun glob cx wf n ops v (pre ++ VGot k t (HWorkflowCompleted r) :: post) -> k <= n ->
  t = None /\ wr_id r = wf_id wf /\ In (None, HState (WorkflowStateUpdated (wf_id wf) (wr_state r))) (got k pre) /\
  forall key, In key (keys (wf_jobs wf)) -> exists j, In (key, j) (wf_jobs wf) /\ told_over k j pre.
Proof.
  intros glob cx wf n ops v pre k t r post Hnd R Hk. destruct (C142_possible_history _ _ _ _ _ _ _ k R Hk) as (ops' & s & W & _). rewrite view_at in W.
  assert (NS : forall t e', ~ In (VSeen (t, OHook e')) pre) by (intros t' e' H; eapply (seen_no_event _ _ _ _ _ _ _ t' e' R); apply in_or_app; left; exact H).
  destruct (wrun_split glob cx wf _ _ _ W _ _ _ eq_refl) as (ls1 & op & ls2 & s1 & s2 & Ho & R1 & E).
  destruct (hook_op glob cx wf _ _ _ _ E) as (t' & e' & Eo & Ea & _); [discriminate|]. injection Eo as -> <-.
  destruct t' as [i|].
  { exfalso. cbn [after_of] in Ea. destruct (nth_error (ws_tasks s1) i) as [tk|]; [|discriminate Ea]. destruct (tk_phase tk) as [| | | | | | | | |t0 js rs p rest| | | | |]; cbn in Ea; try discriminate Ea. destruct p; discriminate Ea. }
  split; [reflexivity|]. apply after_main in Ea as [Em _]. assert (R2 := wrun_step glob cx wf _ _ _ _ _ _ R1 E).
  assert (Ed : ws_main s2 = WpDone r) by (destruct (ws_main s1); cbn in Em; try discriminate Em; injection Em as <- <-; reflexivity).
  destruct (C36_final_state _ _ _ _ _ _ _ Hnd R2 Ed) as (Hid & Hf). split; [exact Hid|].
  assert (S := C37_life_cycle _ _ _ _ _ _ _ Hnd R2 Ed). rewrite events_of_app in S. unfold events_of at 2 in S. cbn [flat_map fst snd] in S. rewrite eqb_refl in S. cbn [app] in S.
  set (l1 := events_of None (view k pre)) in S. remember (l1 ++ _) as L eqn:EL in S. remember r as r0 eqn:Er in S. destruct S as [c Hc|chk recs w t0 t1 jobs Hc _ _ Hl Hks _ r1].
  { exfalso. change ([OMatch c false; wf_state_event wf Skipped]) with ([OMatch c false] ++ [wf_state_event wf Skipped]) in EL. apply app_inj_tail in EL as [_ EL]. discriminate EL. }
  split.
  - apply view_got; [apply NS|]. fold l1. rewrite !app_assoc in EL. change [wf_state_event wf w; OHook (HWorkflowCompleted r1)] with ([wf_state_event wf w] ++ [OHook (HWorkflowCompleted r1)]) in EL. rewrite app_assoc in EL.
    apply app_inj_tail in EL as [EL _]. rewrite <- EL, <- Er. apply in_or_app. right. left. reflexivity.
  - intros key Hkey. apply Hks in Hkey. match type of R2 with Workflow_model.wrun _ _ _ _ _ ?T => assert (Hrc : In key (map fst (received T))) end.
    { destruct Hf as [(_ & Hj & _)|(_ & _ & Hf)]; [rewrite <- Er in Hj; cbn [wr_jobs r1] in Hj; rewrite Hj in Hkey; destruct Hkey|].
      destruct (lookup key (wr_jobs r)) as [x|] eqn:Ex; [|exfalso; apply lookup_None in Ex; rewrite <- Er in Ex; exact (Ex Hkey)].
      apply Hf in Ex as (b & a & -> & _). rewrite map_app. apply in_or_app. right. left. reflexivity. }
    destruct (deps_done glob cx wf Hnd _ _ _ _ R2 Hrc) as (i' & j' & r' & _ & Hj2 & _ & Hs2). exists j'. split; [exact Hj2|]. exists (Some i').
    rewrite events_of_app in Hs2. unfold events_of at 2 in Hs2. cbn in Hs2. rewrite app_nil_r in Hs2. destruct (told _ _ _ _ Hs2) as [(r2 & H & Hr)|H].
    + left. exists r2. split; [apply view_got; [apply NS|exact H]|exact Hr].
    + right. apply view_got; [apply NS|exact H].
Qed.
Print Assumptions C144_completed_last.
(** When the run has returned and nobody is inside a delivery, the workflow's own events as the receiver saw them are those of C37. *)
Theorem C144_life_cycle : forall glob cx wf n ops v tr k r, NoDup (keys (wf_jobs wf)) -> vrun glob cx wf n ops v tr -> k <= n -> Views_spec.quiet v -> ws_main (vs_w v) = WpDone r ->
  wf_story cx wf (events_of None (view k tr)) r.
Proof.
  intros glob cx wf n ops v tr k r Hnd R Hk Hq Em. destruct (C142_possible_history _ _ _ _ _ _ _ k R Hk) as (ops' & s & W & _ & Hs). destruct (Hs Hq) as (_ & Hm & _).
  eapply C37_life_cycle; [exact Hnd|exact W|congruence].
Qed.
Print Assumptions C144_life_cycle.

(** *** C145: deliveries do not stand in the way *)
(** The deliveries under way can be brought to an end by nothing but calls of receivers and returns, whatever the other tasks are doing; from there every
    way to go on is open in which each event reaches everybody at once. *)
Theorem C145_deliveries_end : forall glob cx wf n ops v tr, vrun glob cx wf n ops v tr ->
  exists more v' o, only_deliveries more /\ vrun glob cx wf n (ops ++ more) v' (tr ++ o) /\ Views_spec.quiet v' /\
  forall wops s w, wexec glob cx wf (vs_w v') wops = Some (s, w) ->
    exists more2 o2, vrun glob cx wf n (ops ++ more ++ more2) (VState s []) (tr ++ o ++ o2) /\ forall k, k <= n -> view k o2 = w.
Proof.
  intros glob cx wf n ops v tr R. destruct (finish_all glob cx wf n _ v (le_n _) (vinv_run _ _ _ _ _ _ _ R)) as (more & v' & o & X & Hq & Hd).
  assert (R' := vexec_run _ _ _ _ _ _ _ _ _ _ R X). exists more, v', o. split; [exact Hd|]. split; [exact R'|]. split; [exact Hq|].
  intros wops s w E. destruct (realize glob cx wf n wops v' s w Hq E) as (more2 & o2 & Y & Hv). exists more2, o2. split; [|exact Hv]. rewrite !app_assoc. eapply vexec_run; eassumption.
Qed.
Print Assumptions C145_deliveries_end.
(** A delivery is never refused: from the first call to the last return it depends on nothing but the task itself, and it does not change how far the other
    tasks are. *)
Theorem C145_delivery_goes_on : forall glob cx wf n ops v tr t c, vrun glob cx wf n ops v tr -> lookup t (vs_going v) = Some c ->
  exists v' o, vstep glob cx wf n v (if Nat.leb c n then VCall t else VReturn t) = Some (v', o) /\ forall op, op = VCall t \/ op = VReturn t \/ (exists x, op = VDo x /\ actor x = Some t) ->
    op <> (if Nat.leb c n then VCall t else VReturn t) -> vstep glob cx wf n v op = None.
Proof.
  intros glob cx wf n ops v tr t c R Hc. destruct (vinv_run _ _ _ _ _ _ _ R t c Hc) as [Hb (e & s' & Ea)]. assert (Hcd : called v t = c) by (unfold called; rewrite Hc; reflexivity).
  assert (Hdo : forall x, actor x = Some t -> vstep glob cx wf n v (VDo x) = None) by (intros x Hx; cbn [vstep]; unfold idle; rewrite Hx, Hc; reflexivity).
  assert (Hdl : delivering glob cx wf (vs_w v) t = Some (e, s')) by (rewrite delivering_ahead; exact Ea).
  destruct (Nat.leb_spec c n) as [L|L].
  - do 2 eexists. split; [cbn [vstep]; rewrite Hdl, Hcd, (proj2 (Nat.leb_le c n) L); reflexivity|]. intros op [->|[->|(x & -> & Hx)]] Hne; [congruence| |auto].
    cbn [vstep]. rewrite Hdl, Hcd. destruct (Nat.eqb_spec c (S n)); [lia|reflexivity].
  - assert (c = S n) by lia. do 2 eexists. split; [cbn [vstep]; rewrite Hdl, Hcd, (proj2 (Nat.eqb_eq c (S n)) H); reflexivity|]. intros op [->|[->|(x & -> & Hx)]] Hne; [|congruence|auto].
    cbn [vstep]. rewrite Hdl, Hcd. destruct (Nat.leb_spec c n); [lia|reflexivity].
Qed.
Print Assumptions C145_delivery_goes_on.

(** *** Witnesses *)
(** An execution of [Workflow_model] with each delivery done in one go. *)
Fixpoint play (n : nat) (s : wstate) (ops : list wop) : list vop :=
  match ops with
  | [] => []
  | op :: ops' =>
      match wstep (fun _ => None) c26_cx c33_wf s op with
      | Some (s', o) => match o with (t, OHook _) :: _ => repeat (VCall t) (S n) ++ [VReturn t] | _ => [VDo op] end ++ play n s' ops'
      | None => []
      end
  end.
Definition vw_exec (n : nat) (ops : list vop) : option (vstate * list vobs) := vexec (fun _ => None) c26_cx c33_wf n (vinit c33_sh) ops.
Lemma vw_run n ops v tr : vw_exec n ops = Some (v, tr) -> vrun (fun _ => None) c26_cx c33_wf n ops v tr.
Proof. intros E. change ops with ([] ++ ops). change tr with ([] ++ tr). eapply vexec_run; [constructor|exact E]. Qed.
(** Jobs [a] and [b] are about to announce that they run. *)
Definition vw_wops : list wop := repeat WMain 8 ++ map (WTaskOp 0) (repeat JNext 3) ++ map (WTaskOp 1) (repeat JNext 3).
Definition vw_start : list vop := play 1 (winit c33_sh) vw_wops.
(** Both do, and the plugin hears of [a] first, the runner of [b]. *)
Definition vw_crossed : list vop := [VCall (Some 0); VCall (Some 1); VCall (Some 1); VReturn (Some 1); VCall (Some 0); VReturn (Some 0)].
Definition vw_says {A} (x : A) : run_event A := RunEvent x (cm_event (cx_matcher c26_cx)) (cx_payload c26_cx).
Theorem C143_orders_may_differ : exists ops v tr common ea eb, vrun (fun _ => None) c26_cx c33_wf 1 ops v tr /\ Views_spec.quiet v /\ ea <> eb /\
  got 0 tr = common ++ [(Some 0, ea); (Some 1, eb)] /\ got 1 tr = common ++ [(Some 1, eb); (Some 0, ea)].
Proof.
  exists (vw_start ++ vw_crossed). destruct (vw_exec 1 (vw_start ++ vw_crossed)) as [[v tr]|] eqn:E; [|vm_compute in E; discriminate E]. assert (R := vw_run _ _ _ _ E).
  exists v, tr, [(None, HRunWorkflow (vw_says c33_wf)); (None, HState (WorkflowStateUpdated (WorkflowId "id") InProgress))], (HRunJob (vw_says (c33_jb "a" "x" []))), (HRunJob (vw_says (c33_jb "b" "y" []))).
  vm_compute in E. injection E as Ev Et. split; [exact R|]. clear R. subst v tr. split; [reflexivity|]. split; [discriminate|]. split; reflexivity.
Qed.
Print Assumptions C143_orders_may_differ.

(** C142, C143, C145: the plugin has heard of both jobs, the runner only of [b]; both tasks are inside a delivery. *)
Example c143_case : exists ops v tr, vrun (fun _ => None) c26_cx c33_wf 1 ops v tr /\ lookup (Some 0) (vs_going v) = Some 1 /\ lookup (Some 1) (vs_going v) = Some 2 /\
  got_from 0 (Some 0) tr = got_from 1 (Some 0) tr ++ [HRunJob (vw_says (c33_jb "a" "x" []))] /\ got_from 0 (Some 1) tr = got_from 1 (Some 1) tr /\ got_from 1 (Some 1) tr <> [] /\
  vstep (fun _ => None) c26_cx c33_wf 1 v (VDo (WTaskOp 0 JNext)) = None /\ vstep (fun _ => None) c26_cx c33_wf 1 v (VReturn (Some 0)) = None /\ vstep (fun _ => None) c26_cx c33_wf 1 v (VReturn (Some 1)) <> None.
Proof.
  exists (vw_start ++ firstn 3 vw_crossed). destruct (vw_exec 1 (vw_start ++ firstn 3 vw_crossed)) as [[v tr]|] eqn:E; [|vm_compute in E; discriminate E]. assert (R := vw_run _ _ _ _ E).
  exists v, tr. vm_compute in E. injection E as Ev Et. split; [exact R|]. clear R. subst v tr. split; [reflexivity|]. split; [reflexivity|]. split; [reflexivity|]. split; [reflexivity|]. split; [discriminate|].
  split; [vm_compute; reflexivity|]. split; [vm_compute; reflexivity|]. vm_compute. discriminate.
Qed.

(** C142, C144: a whole run, two receivers, the first events of [a] and [b] crossed. The runner is told that [c], which depends on [a], runs, after it was
    told that [a] is completed; and finally that the workflow is. *)
Fixpoint split_at {A} (f : A -> bool) (l : list A) : option (list A * A * list A) :=
  match l with [] => None | a :: l' => if f a then Some ([], a, l') else match split_at f l' with Some (x, y, z) => Some (a :: x, y, z) | None => None end end.
Lemma split_at_eq {A} f (l : list A) x y z : split_at f l = Some (x, y, z) -> l = x ++ y :: z.
Proof.
  revert x. induction l as [|a l IH]; intros x E; cbn [split_at] in E; [discriminate E|]. destruct (f a); [injection E as <- <- <-; reflexivity|].
  destruct (split_at f l) as [[[x0 y0] z0]|]; [|discriminate E]. injection E as <- <- <-. cbn [app]. f_equal. apply IH. reflexivity.
Qed.
Definition vw_all : list vop := vw_start ++ vw_crossed ++
  play 1 (match vw_exec 1 (vw_start ++ vw_crossed) with Some (v, _) => vs_w v | None => winit c33_sh end)
    (map (WTaskOp 0) (repeat JNext 2 ++ job_open ++ job_close RSucceeded) ++ [WSend 0] ++ repeat WMain 3 ++ map (WTaskOp 1) (repeat JNext 2 ++ job_open ++ job_close RSucceeded) ++ [WSend 1] ++ repeat WMain 3 ++
     whole_job 2 RSucceeded ++ whole_job 3 RSucceeded ++ repeat WMain 4).
Definition hears_c (x : vobs) : bool := match x with VGot 1 (Some 2) (HRunJob _) => true | _ => false end.
Definition hears_end (x : vobs) : bool := match x with VGot 1 None (HWorkflowCompleted _) => true | _ => false end.
Example c144_case : exists ops v tr r, vrun (fun _ => None) c26_cx c33_wf 1 ops v tr /\ Views_spec.quiet v /\ ws_main (vs_w v) = WpDone r /\ wr_state r = Succeeded /\ NoDup (keys (wf_jobs c33_wf)) /\
  (exists pre post, tr = pre ++ VGot 1 (Some 2) (HRunJob (vw_says (c33_jb "c" "z" ["a"]))) :: post) /\ (exists pre post, tr = pre ++ VGot 1 None (HWorkflowCompleted r) :: post).
Proof.
  exists vw_all. destruct (vw_exec 1 vw_all) as [[v tr]|] eqn:E; [|vm_compute in E; discriminate E]. assert (R := vw_run _ _ _ _ E). exists v, tr.
  destruct (ws_main (vs_w v)) eqn:Em; try (exfalso; vm_compute in E; injection E as Ev Et; subst v; discriminate Em). exists r. split; [exact R|]. clear R.
  assert (H : vs_going v = [] /\ wr_state r = Succeeded /\ (exists pre post, split_at hears_c tr = Some (pre, VGot 1 (Some 2) (HRunJob (vw_says (c33_jb "c" "z" ["a"]))), post)) /\
    (exists pre post, split_at hears_end tr = Some (pre, VGot 1 None (HWorkflowCompleted r), post))).
  { vm_compute in E. injection E as Ev Et. subst v tr. injection Em as <-. split; [reflexivity|]. split; [reflexivity|]. split; do 2 eexists; vm_compute; reflexivity. }
  destruct H as (H1 & H2 & (p1 & q1 & H3) & (p2 & q2 & H4)). split; [exact H1|]. split; [reflexivity|]. split; [exact H2|]. split; [repeat constructor; cbn; intuition discriminate|].
  split; [exists p1, q1; eapply split_at_eq; exact H3|exists p2, q2; eapply split_at_eq; exact H4].
Qed.
