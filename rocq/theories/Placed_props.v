(** Theorems about runs on remote runners with the default scheduler coming to their ends (C140, C141): any number of runs, any plugins, conditions, signals,
    timeouts and failures of connections, any moment at which runners are connected, any interleaving. *)
From Coq Require Import Sorting.Permutation.
From Verif Require Import Base Types Signals_model Stream_model Cond_model Plugins_model Exec_model Exec_spec Workflow_model Workflow_spec Workflow_term Runner_model Sched_model Remote_model
  Distant_model System_model System_spec System_inst Finish_spec Finish_props Pace_spec Pace_props Fleet_model Fleet_spec Fleet_main Fleet_props Live_spec Live_proof Live_props Dispatch_model Dispatch_spec Dispatch_proof Dispatch_main
  Placed_spec Placed_proof Step_props Distant_props System_props Dispatch_props Config_model Types.

(** C140. Wherever it is, a run can be completed by its own actions: those of its engine and runners, and its calls of the scheduler. *)
Theorem C140_completes : forall cl glob now ops d tr, dispatch_run cl glob now ops d tr -> named (dp_fleet d) ->
  forall k cx wf s, alone (fleet_ops ops) (dp_fleet d) k -> run_at (dp_fleet d) k cx wf s -> runnable wf -> (forall op, In (PFleet (FRunOp k op)) ops -> orderly wf tame_distant op) ->
  forall gh c rr l, keeps_steps c -> Permutation l (map snd (connected ops)) ->
  exists more d' o s' r, Forall (own_action gh c rr l d' k) more /\ pexec cl glob d more = Some (d', o) /\ run_at (dp_fleet d') k cx wf s' /\ ws_main (sy_w s') = WpDone r.
Proof.
  intros cl glob now ops d tr R Hn k cx wf s Ha Hat Hr Ho gh c rr l Hc P.
  assert (Hnd : NoDup (keys (wf_jobs wf))) by (destruct Hat as (r & ca & Hk & _ & <- & _); exact (Hn k r Hk)).
  destruct (fleet_part _ _ _ _ _ _ R) as (fops & F & Ff & _).
  destruct (run_orderly (fun cx => distant cx cl) glob tame_distant (fun cx => distant_faithful cx cl) _ _ _ _ _ _ _ _ F Hn (alone_filter fops _ k ltac:(rewrite Ff; exact Ha)) Hat) as (sh0 & sops & H1 & _ & _ & _ & H5).
  { intros op Hop. unfold run_ops in Hop. apply in_flat_map in Hop as (x & Hx & Hin). destruct x as [| |k1 y| | |]; try destruct Hin. destruct (Nat.eqb k1 k) eqn:Ek; [|destruct Hin]. apply Nat.eqb_eq in Ek as ->. destruct Hin as [->|[]].
    destruct (is_pick op) eqn:Ep; [destruct op as [|? []|? []]; try discriminate Ep; exact Logic.I|]. apply Ho.
    assert (Hf : In (FRunOp k op) (fleet_ops ops)) by (rewrite <- Ff; apply filter_In; split; [exact Hx|]; destruct op as [|? []|? []]; try discriminate Ep; reflexivity).
    unfold fleet_ops in Hf. apply in_flat_map in Hf as (z & Hz & Hin). destruct z; try destruct Hin; [|contradiction]. subst. exact Hz. }
  eapply complete; [exact Hnd|exact Hr|exact Hc|exact R|exact Hat|exact H1|exact H5|exact P|apply Nat.le_refl].
Qed.
Print Assumptions C140_completes.

(** C141. In any unending execution, a run that is not abandoned - by its engine and runners, and by its calls of the scheduler - and whose commands do not print
    for ever has a result from some time on. *)
Theorem C141_inevitable : forall cl glob now std act, dispatch_execution cl glob std act now -> (forall n, named (dp_fleet (std n))) ->
  forall k n0 cx wf s0, run_at (dp_fleet (std n0)) k cx wf s0 -> runnable wf -> (forall n, alone (fleet_ops (actions act n)) (dp_fleet (std n)) k) ->
  (forall n op, act n = Some (PFleet (FRunOp k op)) -> orderly wf tame_distant op) ->
  forall gh c rr, keeps_steps c -> attended cl glob std act (plain_placed c rr) gh k cx wf -> turns_silent std act k cx wf ->
  exists r, ends_with std k cx wf r.
Proof. intros cl glob now std act Hx Hn k n0 cx wf s0 Hat Hr Ha Ho gh c rr Hc Hf Hs. eapply placed_live; eassumption. Qed.
Print Assumptions C141_inevitable.
(** All of them: when the workflows that are ever run come from the builder with different ids and have no cyclic dependencies. *)
Theorem C141_all : forall cl glob now std act, dispatch_execution cl glob std act now ->
  (forall n k r, nth_error (fl_runs (dp_fleet (std n))) k = Some r -> (forall key, ~ depends_trans (fr_wf r) key key) /\
     exists pd decode env id config uuid, (forall t w, decode t = inl w -> NoDup (keys (uw_jobs w))) /\ build pd decode env id config uuid = Ok (fr_wf r)) ->
  (forall n k k' r r', k <> k' -> nth_error (fl_runs (dp_fleet (std n))) k = Some r -> nth_error (fl_runs (dp_fleet (std n))) k' = Some r' -> wf_id (fr_wf r) <> wf_id (fr_wf r')) ->
  (forall n k op cx wf s, act n = Some (PFleet (FRunOp k op)) -> run_at (dp_fleet (std n)) k cx wf s -> orderly wf tame_distant op) ->
  forall gh c rr, keeps_steps c -> (forall k cx wf, attended cl glob std act (plain_placed c rr) gh k cx wf /\ turns_silent std act k cx wf) ->
  forall n k cx wf s, run_at (dp_fleet (std n)) k cx wf s -> exists r, ends_with std k cx wf r.
Proof.
  intros cl glob now std act Hx Hb Hd Ho gh c rr Hc Hf n k cx wf s Hat. assert (FE := fleet_exec cl glob now std act Hx).
  destruct (all_runs _ glob tame_distant (fun cx => distant_faithful cx cl) now _ _ FE Hb Hd) as [Hn Hq].
  { intros m k' op cx' wf' s' Ha Hat'. destruct (is_pick op) eqn:Ep; [destruct op as [|? []|? []]; try discriminate Ep; exact Logic.I|]. eapply Ho; [eapply fact_own; eassumption|exact Hat']. }
  destruct (Hq n k cx wf s Hat) as (Q1 & Q2 & Q3). destruct (Hf k cx wf) as [F1 F2].
  eapply C141_inevitable; [exact Hx|exact Hn|exact Hat|exact Q1| | |exact Hc|exact F1|exact F2].
  - intros m. apply apart_alone, C128_built; [intros k0 r0 H0; destruct (Hb m k0 r0 H0) as [_ H]; exact H|exact (Hd m)].
  - intros m op Ha. apply (Q3 m op). unfold fact. rewrite Ha. reflexivity.
Qed.
Print Assumptions C141_all.

Lemma dp_runnable id : runnable (dp_box id).
Proof.
  split; [discriminate|]. split; [exists (fun _ => 0); intros k d (j & [[= <- <-]|[]] & [])|]. split.
  - intros k k' j j' [[= <- <-]|[]] [[= <- <-]|[]]; cbn; congruence.
  - intros key j [[= <- <-]|[]] st [<-|[<-|[]]]; reflexivity.
Qed.
Lemma dp_named_box id : NoDup (keys (wf_jobs (dp_box id))).
Proof. repeat constructor. intros []. Qed.
(** Non-vacuity of C140: the first run of C135's example, its second step's call of the scheduler under way, the other run going on with its own. *)
Example C140_nonvacuous : exists d tr s, dispatch_run dp_cl (fun _ => None) 0%N dp_ops d tr /\ named (dp_fleet d) /\ alone (fleet_ops dp_ops) (dp_fleet d) 0 /\ run_at (dp_fleet d) 0 c26_cx (dp_box "w") s /\
  runnable (dp_box "w") /\ (forall op, In (PFleet (FRunOp 0 op)) dp_ops -> orderly (dp_box "w") tame_distant op) /\ keeps_steps c26_hooks /\ pending d 2 0 0.
Proof.
  destruct (dp_state dp_ops) as [[d tr]|] eqn:E; [|vm_compute in E; discriminate E].
  assert (W : map (fun r => fr_wf r) (fl_runs (dp_fleet d)) = [dp_box "w"; dp_box "v"]) by (vm_compute in E; injection E as <- <-; vm_compute; reflexivity).
  assert (At : exists s, run_at (dp_fleet d) 0 c26_cx (dp_box "w") s) by (vm_compute in E; injection E as <- <-; eexists; do 2 eexists; repeat (split; [reflexivity|]); reflexivity).
  assert (G3 : lookup 2 (sm_calls (dp_sched d)) <> None) by (vm_compute in E; injection E as <- <-; discriminate).
  assert (G4 : made_for d 2 0 0) by (vm_compute in E; injection E as <- <-; eexists; split; [reflexivity|split; reflexivity]).
  destruct At as [s At]. exists d, tr, s. split; [apply dp_reach, E|]. clear E.
  assert (N : forall k r, nth_error (fl_runs (dp_fleet d)) k = Some r -> (k = 0 /\ fr_wf r = dp_box "w") \/ (k = 1 /\ fr_wf r = dp_box "v")).
  { intros k r H. apply (map_nth_error (fun r => fr_wf r)) in H. rewrite W in H. destruct k as [|[|k]]; cbn in H; [injection H as <-; auto|injection H as <-; auto|destruct k; discriminate H]. }
  split; [intros k r H; destruct (N k r H) as [[_ ->]|[_ ->]]; apply dp_named_box|]. split.
  { apply apart_alone. intros k k' r r' id Hne H H' J J'. destruct (N _ _ H) as [[-> Q]|[-> Q]], (N _ _ H') as [[-> Q']|[-> Q']]; try (destruct (Hne eq_refl); fail); rewrite Q in J; rewrite Q' in J'.
    all: destruct J as (a & j & [[= <- <-]|[]] & <-), J' as (b & j' & [[= <- <-]|[]] & C); discriminate C. }
  split; [exact At|]. split; [apply dp_runnable|]. split; [|split; [exact sys_hooks_keep|split; assumption]].
  intros op H. vm_compute in H. repeat (destruct H as [H|H]; [try discriminate H; injection H as <-; cbn; auto; try exact sys_hooks_keep; try exact Logic.I|]). destruct H.
Qed.

(** Non-vacuity of C141: one run with two steps, each placed by the scheduler, to its end and nothing afterwards. *)
Definition dp_whole : list pop :=
  [PFleet (FContext c26_cx); PConnect (Reports dp_near); PFleet (FStart 0 (dp_box "w"))] ++
  dp_flow 0 (repeat (YFlow WMain) 6 ++ repeat (YFlow (WTaskOp 0 JNext)) 6 ++ dp_begin) ++ [PAsk 0 0 [dp_near]; PLock 0; PLock 0] ++
  dp_flow 0 (dp_rest ++ dp_begin) ++ [PAsk 0 0 [dp_near]; PLock 1] ++
  dp_flow 0 (dp_rest ++ repeat (YFlow (WTaskOp 0 JNext)) 3 ++ [YFlow (WSend 0)] ++ repeat (YFlow WMain) 4).
Lemma finite_dispatch cl glob now ops d o : pexec cl glob (pinit now) ops = Some (d, o) ->
  let st n := match pexec cl glob (pinit now) (firstn n ops) with Some (f, _) => f | None => pinit now end in
  dispatch_execution cl glob st (nth_error ops) now /\ forall n, length ops <= n -> st n = d.
Proof.
  intros E st.
  assert (Ab : forall l s0 n, match nth_error l n, pexec cl glob s0 l with
     | Some op, Some _ => exists s1 o1 s2 o2, pexec cl glob s0 (firstn n l) = Some (s1, o1) /\ pstep cl glob s1 op = Some (s2, o2) /\ exists o3, pexec cl glob s0 (firstn (S n) l) = Some (s2, o3)
     | _, _ => True end).
  { induction l as [|op l IH]; intros s0 [|n]; cbn [nth_error]; try exact Logic.I.
    - cbn [pexec firstn]. destruct (pstep cl glob s0 op) as [[s1 o1]|] eqn:E1; [|exact Logic.I]. destruct (pexec cl glob s1 l) as [[]|]; [|exact Logic.I]. exists s0, [], s1, o1. cbn. eauto.
    - cbn [pexec firstn]. destruct (pstep cl glob s0 op) as [[s1 o1]|] eqn:E1; [|destruct (nth_error l n); exact Logic.I].
      specialize (IH s1 n). destruct (nth_error l n); [|exact Logic.I]. destruct (pexec cl glob s1 l) as [[]|]; [|exact Logic.I].
      destruct IH as (a & b & c & s9 & H1 & H2 & o3 & H3). exists a, (o1 ++ b), c, s9. rewrite H1. split; [reflexivity|]. split; [exact H2|]. cbn [firstn] in H3. rewrite H3. eauto. }
  assert (Fin : forall n, length ops <= n -> st n = d) by (intros n Hn; unfold st; rewrite firstn_all2 by exact Hn; rewrite E; reflexivity).
  split; [|exact Fin]. split; [reflexivity|]. intros n. specialize (Ab ops (pinit now) n). rewrite E in Ab. destruct (nth_error ops n) as [op|] eqn:En.
  - destruct Ab as (a & b & c & s9 & H1 & H2 & o3 & H3). exists s9. unfold st. rewrite H1, H3. exact H2.
  - apply nth_error_None in En. rewrite !Fin by lia. reflexivity.
Qed.
Definition state_at cl glob now ops n : dispatch := match pexec cl glob (pinit now) (firstn n ops) with Some (f, _) => f | None => pinit now end.
Lemma finite_state cl glob now ops : match pexec cl glob (pinit now) ops with Some _ => true | None => false end = true -> dispatch_execution cl glob (state_at cl glob now ops) (nth_error ops) now.
Proof. destruct (pexec cl glob (pinit now) ops) as [[d o]|] eqn:E; [|discriminate]. intros _. exact (proj1 (finite_dispatch cl glob now ops d o E)). Qed.
Definition whole_state : nat -> dispatch := state_at dp_cl (fun _ => None) 0%N dp_whole.
Definition whole_len : nat := length dp_whole.
Lemma whole_wfs n : In (map (fun r => fr_wf r) (fl_runs (dp_fleet (whole_state n)))) [[]; [dp_box "w"]].
Proof.
  destruct (Nat.lt_ge_cases n (S whole_len)) as [H|H].
  - assert (A : Forall (fun n => In (map (fun r => fr_wf r) (fl_runs (dp_fleet (whole_state n)))) [[]; [dp_box "w"]]) (seq 0 (S whole_len))).
    { let t := eval vm_compute in (seq 0 (S whole_len)) in replace (seq 0 (S whole_len)) with t by (vm_compute; reflexivity).
      repeat (constructor; [vm_compute; auto|]). constructor. }
    rewrite Forall_forall in A. apply A, in_seq. lia.
  - unfold whole_state, state_at. rewrite firstn_all2 by (unfold whole_len in H; lia). vm_compute. auto.
Qed.
Lemma whole_wf n k r : nth_error (fl_runs (dp_fleet (whole_state n))) k = Some r -> k = 0 /\ fr_wf r = dp_box "w".
Proof.
  intros H. apply (map_nth_error (fun r => fr_wf r)) in H. destruct (whole_wfs n) as [W|[W|[]]]; rewrite <- W in H; destruct k as [|k]; cbn in H; try discriminate H; [injection H as <-; auto|destruct k; discriminate H].
Qed.
Lemma no_ask cl glob d k i l : wanting (dp_fleet d) k i = None -> pstep cl glob d (PAsk k i l) = None.
Proof. intros Q. cbn [pstep]. rewrite Q. reflexivity. Qed.
Lemma no_lock cl glob d c : sm_calls (dp_sched d) = [] -> pstep cl glob d (PLock c) = None.
Proof. intros Q. cbn [pstep smach_step]. rewrite Q. cbn [lookup]. destruct (nth_error _ c); reflexivity. Qed.
Lemma whole_last n : whole_len <= n -> whole_state n = whole_state whole_len.
Proof. intros Hn. unfold whole_state, state_at, whole_len in *. rewrite !firstn_all2 by lia. reflexivity. Qed.
Lemma whole_before : exists s, run_at (dp_fleet (whole_state (pred whole_len))) 0 c26_cx (dp_box "w") s.
Proof.
  match goal with |- context [whole_state ?n] => let f := eval vm_compute in (whole_state n) in replace (whole_state n) with f by (vm_compute; reflexivity) end.
  eexists; do 2 eexists; split; [reflexivity|]; split; [reflexivity|]; split; reflexivity.
Qed.
Lemma whole_after : exists s, run_at (dp_fleet (whole_state whole_len)) 0 c26_cx (dp_box "w") s /\ Pace_props.over s.
Proof.
  match goal with |- context [whole_state ?n] => let f := eval vm_compute in (whole_state n) in replace (whole_state n) with f by (vm_compute; reflexivity) end.
  eexists; split; [do 2 eexists; split; [reflexivity|]; split; [reflexivity|]; split; reflexivity|]. split; [eexists; reflexivity|repeat constructor; eexists; reflexivity].
Qed.
Lemma whole_wants i : wanting (dp_fleet (whole_state whole_len)) 0 i = None.
Proof. destruct i as [|i]; [vm_compute; reflexivity|]. vm_compute. destruct i; reflexivity. Qed.
Lemma whole_calls : sm_calls (dp_sched (whole_state whole_len)) = [].
Proof. vm_compute. reflexivity. Qed.
Lemma whole_done : match pexec dp_cl (fun _ => None) (pinit 0%N) dp_whole with Some _ => true | None => false end = true.
Proof. vm_compute. reflexivity. Qed.
Lemma whole_execution : dispatch_execution dp_cl (fun _ => None) whole_state (nth_error dp_whole) 0%N.
Proof. exact (finite_state dp_cl (fun _ => None) 0%N dp_whole whole_done). Qed.
Lemma whole_orderly n op : nth_error dp_whole n = Some (PFleet (FRunOp 0 op)) -> orderly (dp_box "w") tame_distant op.
Proof. intros H; apply nth_error_In in H; vm_compute in H; repeat (destruct H as [H|H]; [try discriminate H; injection H as <-; cbn; auto; try exact sys_hooks_keep; try exact Logic.I|]); destruct H. Qed.
Lemma whole_final : nth_error dp_whole (pred whole_len) = Some (PFleet (FRunOp 0 (YFlow WMain))).
Proof. vm_compute. reflexivity. Qed.
Lemma whole_succ : whole_len = S (pred whole_len).
Proof. vm_compute. reflexivity. Qed.
Lemma whole_attended gh rr : attended dp_cl (fun _ => None) whole_state (nth_error dp_whole) (plain_placed c26_hooks rr) gh 0 c26_cx (dp_box "w").
Proof.
  intros n s Hat Hc. assert (L := whole_succ). destruct (Nat.le_gt_cases n (pred whole_len)) as [Hn|Hn].
  - exists (pred whole_len). split; [exact Hn|]. left. exists (YFlow WMain). destruct whole_before as (s1 & A1). destruct whole_after as (s2 & A2 & _).
    exists s1, s2. split; [exact whole_final|]. split; [exact A1|]. split; [rewrite <- L; exact A2|]. reflexivity.
  - exfalso. assert (Hn' : whole_len <= n) by lia. rewrite (whole_last n Hn') in Hat, Hc. destruct whole_after as (s1 & A1 & A2). rewrite (run_at_unique _ _ _ _ _ _ Hat A1) in Hc.
    destruct Hc as [Hc|(op & [(i & l & ->)|(c & i & -> & _)] & Hc)]; [exact (over_idle _ _ _ _ _ _ _ _ A2 Hc)| |].
    + apply Hc, no_ask, whole_wants.
    + apply Hc, no_lock, whole_calls.
Qed.
Example C141_nonvacuous : exists std act, dispatch_execution dp_cl (fun _ => None) std act 0%N /\ (forall n, named (dp_fleet (std n))) /\
  (exists n s, run_at (dp_fleet (std n)) 0 c26_cx (dp_box "w") s) /\ runnable (dp_box "w") /\ (forall n, alone (fleet_ops (actions act n)) (dp_fleet (std n)) 0) /\
  (forall n op, act n = Some (PFleet (FRunOp 0 op)) -> orderly (dp_box "w") tame_distant op) /\ keeps_steps c26_hooks /\
  (forall gh rr, attended dp_cl (fun _ => None) std act (plain_placed c26_hooks rr) gh 0 c26_cx (dp_box "w")) /\ turns_silent std act 0 c26_cx (dp_box "w") /\
  exists c c' i i' a a', act i = Some (PAsk 0 0 a) /\ act i' = Some (PAsk 0 0 a') /\ act (S i) = Some (PLock c) /\ act (S i') = Some (PLock c') /\ c <> c'.
Proof.
  exists whole_state, (nth_error dp_whole). split; [exact whole_execution|].
  split. { intros n k r H. destruct (whole_wf n k r H) as [_ ->]. apply dp_named_box. }
  split; [exists whole_len; destruct whole_after as (s & A & _); exists s; exact A|]. split; [apply dp_runnable|]. split.
  { intros n. apply apart_alone. intros k k' r r' id Hne H H'. destruct (whole_wf _ _ _ H) as [-> _], (whole_wf _ _ _ H') as [-> _]. destruct (Hne eq_refl). }
  split; [exact whole_orderly|]. split; [exact sys_hooks_keep|]. split; [exact whole_attended|]. split.
  - exists whole_len. intros m Hm (op & s & s' & Ha & _). apply nth_error_None in Hm. congruence.
  - exists 0, 1, 21, 52, [dp_near], [dp_near]. repeat (split; [vm_compute; reflexivity|]). discriminate.
Qed.
