(** Theorems about runs placed by the scheduler on runner servers with built-in runners coming to their ends (C149, C150): any number of runs and servers, any plugins and
    configuration on either side, any conditions, signals, timeouts and faults of the connections, any interleaving. *)
From Coq Require Import Sorting.Permutation.
From Verif Require Import Base Types Signals_model Stream_model Cond_model Plugins_model Exec_model Exec_spec Workflow_model Workflow_spec Workflow_term Runner_model Sched_model Remote_model
  Distant_model System_model System_spec System_inst Finish_spec Finish_props Pace_spec Pace_props Fleet_model Fleet_spec Fleet_main Fleet_proof Fleet_props Live_spec Live_proof Live_props Dispatch_model Dispatch_spec Dispatch_proof Dispatch_main
  Step_props Distant_props System_props Dispatch_props Placed_props Config_model Worker_model Worker_spec Chain_model Chain_spec Chain_proof Farm_model Farm_spec Farm_proof Farm_main Farm_props Farmlive_spec Farmlive_proof.

(** C149. Wherever it is, a run can be completed by its own actions: those of its engine and servers, and its calls of the scheduler. *)
Theorem C149_completes : forall cl sv rhooks conf glob now ops q tr, farm_run cl sv rhooks conf glob now ops q tr -> named (fm_fleet q) ->
  forall k cx wf s, alone (farm_ops ops) (fm_fleet q) k -> run_at (fm_fleet q) k cx wf s -> runnable wf -> (forall op, In (QFleet (FRunOp k op)) ops -> orderly wf tame_worker op) ->
  forall gh c code l, keeps_steps c -> Permutation l (map snd (farm_connected ops)) ->
  exists more q' o s' r, Forall (own_doing gh c code l q' k) more /\ qexec cl sv rhooks conf glob q more = Some (q', o) /\ run_at (fm_fleet q') k cx wf s' /\ ws_main (sy_w s') = WpDone r.
Proof.
  intros cl sv rhooks conf glob now ops q tr R Hn k cx wf s Ha Hat Hr Ho gh c code l Hc P.
  assert (Hnd : NoDup (keys (wf_jobs wf))) by (destruct Hat as (r & ca & Hk & _ & <- & _); exact (Hn k r Hk)).
  destruct (C146_runs _ _ _ _ _ _ _ _ _ R) as (fops & F & Ff).
  destruct (run_orderly (fun cx => chained cx cl sv rhooks conf) glob tame_worker (fun cx => chained_faithful cx cl sv rhooks conf) _ _ _ _ _ _ _ _ F Hn (farm_alone_filter fops _ k ltac:(rewrite Ff; exact Ha)) Hat) as (sh0 & sops & H1 & _ & _ & _ & H5).
  { intros op Hop. unfold run_ops in Hop. apply in_flat_map in Hop as (x & Hx & Hin). destruct x as [| |k1 y| | |]; try destruct Hin. destruct (Nat.eqb k1 k) eqn:Ek; [|destruct Hin]. apply Nat.eqb_eq in Ek as ->. destruct Hin as [->|[]].
    destruct (inner_picks op) eqn:Ep; [destruct op as [|? [[]| | | | | |]|? [[]| | | | | |]]; try discriminate Ep; exact Logic.I|]. apply Ho, in_farm_ops.
    rewrite <- Ff. apply filter_In. split; [exact Hx|]. destruct op as [|? [[]| | | | | |]|? [[]| | | | | |]]; try discriminate Ep; reflexivity. }
  eapply farm_complete; [exact Hnd|exact Hr|exact Hc|exact R|exact Hat|exact H1|exact H5|exact P|apply Nat.le_refl].
Qed.
Print Assumptions C149_completes.

(** C150. In any unending execution, a run that is not abandoned - by its engine and servers, and by its calls of the scheduler - and whose commands do not print for ever has a result from
    some time on. *)
Theorem C150_inevitable : forall cl sv rhooks conf glob now stq act, farm_execution cl sv rhooks conf glob stq act now -> (forall n, named (fm_fleet (stq n))) ->
  forall k n0 cx wf s0, run_at (fm_fleet (stq n0)) k cx wf s0 -> runnable wf -> (forall n, alone (farm_ops (doings act n)) (fm_fleet (stq n)) k) ->
  (forall n op, act n = Some (QFleet (FRunOp k op)) -> orderly wf tame_worker op) ->
  forall gh c code, keeps_steps c -> tended cl sv rhooks conf glob stq act (plain_served c code) gh k cx wf -> falls_silent stq act k cx wf ->
  exists r, comes_to stq k cx wf r.
Proof. intros cl sv rhooks conf glob now stq act Hx Hn k n0 cx wf s0 Hat Hr Ha Ho gh c code Hc Hf Hs. eapply farm_live; eassumption. Qed.
Print Assumptions C150_inevitable.
(** All of them: when the workflows that are ever run come from the builder with different ids and have no cyclic dependencies. *)
Theorem C150_all : forall cl sv rhooks conf glob now stq act, farm_execution cl sv rhooks conf glob stq act now ->
  (forall n k r, nth_error (fl_runs (fm_fleet (stq n))) k = Some r -> (forall key, ~ depends_trans (fr_wf r) key key) /\
     exists pd decode env id config uuid, (forall t w, decode t = inl w -> NoDup (keys (uw_jobs w))) /\ build pd decode env id config uuid = Ok (fr_wf r)) ->
  (forall n k k' r r', k <> k' -> nth_error (fl_runs (fm_fleet (stq n))) k = Some r -> nth_error (fl_runs (fm_fleet (stq n))) k' = Some r' -> wf_id (fr_wf r) <> wf_id (fr_wf r')) ->
  (forall n k op cx wf s, act n = Some (QFleet (FRunOp k op)) -> run_at (fm_fleet (stq n)) k cx wf s -> orderly wf tame_worker op) ->
  forall gh c code, keeps_steps c -> (forall k cx wf, tended cl sv rhooks conf glob stq act (plain_served c code) gh k cx wf /\ falls_silent stq act k cx wf) ->
  forall n k cx wf s, run_at (fm_fleet (stq n)) k cx wf s -> exists r, comes_to stq k cx wf r.
Proof.
  intros cl sv rhooks conf glob now stq act Hx Hb Hd Ho gh c code Hc Hf n k cx wf s Hat. assert (FE := farm_fleet_exec cl sv rhooks conf glob now stq act Hx).
  destruct (all_runs _ glob tame_worker (fun cx => chained_faithful cx cl sv rhooks conf) now _ _ FE Hb Hd) as [Hn Hq].
  { intros m k' op cx' wf' s' Ha Hat'. destruct (inner_picks op) eqn:Ep; [destruct op as [|? [[]| | | | | |]|? [[]| | | | | |]]; try discriminate Ep; exact Logic.I|]. eapply Ho; [eapply ffact_own; eassumption|exact Hat']. }
  destruct (Hq n k cx wf s Hat) as (Q1 & Q2 & Q3). destruct (Hf k cx wf) as [F1 F2].
  eapply C150_inevitable; [exact Hx|exact Hn|exact Hat|exact Q1| | |exact Hc|exact F1|exact F2].
  - intros m. apply apart_alone, C128_built; [intros k0 r0 H0; destruct (Hb m k0 r0 H0) as [_ H]; exact H|exact (Hd m)].
  - intros m op Ha. apply (Q3 m op). unfold ffact. rewrite Ha. reflexivity.
Qed.
Print Assumptions C150_all.

(** Non-vacuity of C149: the second run of C147's example; its step is on its server, which has made the directory; the first run has ended. *)
Example C149_nonvacuous : exists q tr s, fa_run fa_ops q tr /\ named (fm_fleet q) /\ alone (farm_ops fa_ops) (fm_fleet q) 1 /\ run_at (fm_fleet q) 1 c26_cx (dp_box "v") s /\
  runnable (dp_box "v") /\ (forall op, In (QFleet (FRunOp 1 op)) fa_ops -> orderly (dp_box "v") tame_worker op) /\ keeps_steps c26_hooks /\
  Permutation [dp_far; dp_near] (map snd (farm_connected fa_ops)) /\ (forall r, ws_main (sy_w s) <> WpDone r) /\ In (1, "/v/v/a/0") (made tr).
Proof.
  destruct (fa_state fa_ops) as [[q tr]|] eqn:E; [|vm_compute in E; discriminate E].
  assert (W : map (fun r => fr_wf r) (fl_runs (fm_fleet q)) = [dp_box "w"; dp_box "v"]) by (vm_compute in E; injection E as <- <-; vm_compute; reflexivity).
  assert (At : exists s, run_at (fm_fleet q) 1 c26_cx (dp_box "v") s /\ forall r, ws_main (sy_w s) <> WpDone r)
    by (vm_compute in E; injection E as <- <-; eexists; split; [do 2 eexists; repeat (split; [reflexivity|]); reflexivity|discriminate]).
  assert (M : made tr = [(0, "/w/w/a/0"); (1, "/v/v/a/0"); (0, "/w/w/a/1")]) by (vm_compute in E; injection E as <- <-; vm_compute; reflexivity).
  destruct At as (s & At & Hd). exists q, tr, s. split; [apply fa_reach, E|]. clear E.
  assert (N : forall k r, nth_error (fl_runs (fm_fleet q)) k = Some r -> (k = 0 /\ fr_wf r = dp_box "w") \/ (k = 1 /\ fr_wf r = dp_box "v")).
  { intros k r H. apply (map_nth_error (fun r => fr_wf r)) in H. rewrite W in H. destruct k as [|[|k]]; cbn in H; [injection H as <-; auto|injection H as <-; auto|destruct k; discriminate H]. }
  split; [intros k r H; destruct (N k r H) as [[_ ->]|[_ ->]]; apply dp_named_box|]. split.
  { apply apart_alone. intros k k' r r' id Hne H H' J J'. destruct (N _ _ H) as [[-> Q]|[-> Q]], (N _ _ H') as [[-> Q']|[-> Q']]; try (destruct (Hne eq_refl); fail); rewrite Q in J; rewrite Q' in J'.
    all: destruct J as (a & j & [[= <- <-]|[]] & <-), J' as (b & j' & [[= <- <-]|[]] & C); discriminate C. }
  split; [exact At|]. split; [apply dp_runnable|]. split; [|split; [exact sys_hooks_keep|split; [vm_compute; apply perm_swap|split; [exact Hd|rewrite M; cbn; auto]]]].
  intros op H. vm_compute in H. repeat (destruct H as [H|H]; [try discriminate H; injection H as <-; cbn; auto; try exact sys_hooks_keep; try exact Logic.I|]). destruct H.
Qed.

(** Non-vacuity of C150: one run with two steps, each placed by the scheduler on a server and run there, to its end and nothing afterwards. *)
Definition fa_whole : list qop :=
  [QFleet (FContext c26_cx); QConnect (Reports dp_near); QFleet (FStart 0 (dp_box "w"))] ++
  fa_flow 0 (repeat (YFlow WMain) 6 ++ repeat (YFlow (WTaskOp 0 JNext)) 6 ++ fa_begin) ++ [QAsk 0 0 [dp_near]; QLock 0; QLock 0] ++
  fa_flow 0 (fa_step 0 ++ repeat (YFlow (WTaskOp 0 JNext)) 2 ++ fa_begin) ++ [QAsk 0 0 [dp_near]; QLock 1] ++
  fa_flow 0 (fa_step 3 ++ repeat (YFlow (WTaskOp 0 JNext)) 5 ++ [YFlow (WSend 0)] ++ repeat (YFlow WMain) 4).
Section F.
Variables (cl sv : task -> task) (rhooks : runner_meta -> run_context -> run_context) (conf : runner_meta -> run_context -> xconf) (glob : glob_oracle).
Notation qs := (qstep cl sv rhooks conf glob).
Notation qx := (qexec cl sv rhooks conf glob).
Definition farm_state_at now ops n : farm := match qx (qinit now) (firstn n ops) with Some (f, _) => f | None => qinit now end.
Lemma finite_farm now ops : match qx (qinit now) ops with Some _ => true | None => false end = true -> farm_execution cl sv rhooks conf glob (farm_state_at now ops) (nth_error ops) now.
Proof.
  destruct (qx (qinit now) ops) as [[d o]|] eqn:E; [|discriminate]. intros _.
  assert (Ab : forall l s0 n, match nth_error l n, qx s0 l with
     | Some op, Some _ => exists s1 o1 s2 o2, qx s0 (firstn n l) = Some (s1, o1) /\ qs s1 op = Some (s2, o2) /\ exists o3, qx s0 (firstn (S n) l) = Some (s2, o3)
     | _, _ => True end).
  { induction l as [|op l IH]; intros s0 [|n]; cbn [nth_error]; try exact Logic.I.
    - cbn [qexec firstn]. destruct (qs s0 op) as [[s1 o1]|] eqn:E1; [|exact Logic.I]. destruct (qx s1 l) as [[]|]; [|exact Logic.I]. exists s0, [], s1, o1. cbn. eauto.
    - cbn [qexec firstn]. destruct (qs s0 op) as [[s1 o1]|] eqn:E1; [|destruct (nth_error l n); exact Logic.I].
      specialize (IH s1 n). destruct (nth_error l n); [|exact Logic.I]. destruct (qx s1 l) as [[]|]; [|exact Logic.I].
      destruct IH as (a & b & c & s9 & H1 & H2 & o3 & H3). exists a, (o1 ++ b), c, s9. rewrite H1. split; [reflexivity|]. split; [exact H2|]. cbn [firstn] in H3. rewrite H3. eauto. }
  assert (Fin : forall n, length ops <= n -> farm_state_at now ops n = d) by (intros n Hn; unfold farm_state_at; rewrite firstn_all2 by exact Hn; rewrite E; reflexivity).
  split; [reflexivity|]. intros n. specialize (Ab ops (qinit now) n). rewrite E in Ab. destruct (nth_error ops n) as [op|] eqn:En.
  - destruct Ab as (a & b & c & s9 & H1 & H2 & o3 & H3). exists s9. unfold farm_state_at. rewrite H1, H3. exact H2.
  - apply nth_error_None in En. rewrite !Fin by lia. reflexivity.
Qed.
Lemma no_farm_ask q k i l : farm_wanting (fm_fleet q) k i = None -> qs q (QAsk k i l) = None.
Proof. intros Q. cbn [qstep]. rewrite Q. reflexivity. Qed.
Lemma no_farm_lock q c : sm_calls (fm_sched q) = [] -> qs q (QLock c) = None.
Proof. intros Q. cbn [qstep smach_step]. rewrite Q. cbn [lookup]. destruct (nth_error _ c); reflexivity. Qed.
End F.
Notation fa_exec := (farm_execution (fun t => t + 100) (fun t => t + 200) (fun _ c => c) fa_conf (fun _ => None)).
Definition fw_state : nat -> farm := farm_state_at (fun t => t + 100) (fun t => t + 200) (fun _ c => c) fa_conf (fun _ => None) 0%N fa_whole.
Definition fw_len : nat := length fa_whole.
Lemma fw_wfs n : In (map (fun r => fr_wf r) (fl_runs (fm_fleet (fw_state n)))) [[]; [dp_box "w"]].
Proof.
  destruct (Nat.lt_ge_cases n (S fw_len)) as [H|H].
  - assert (A : Forall (fun n => In (map (fun r => fr_wf r) (fl_runs (fm_fleet (fw_state n)))) [[]; [dp_box "w"]]) (seq 0 (S fw_len))).
    { let t := eval vm_compute in (seq 0 (S fw_len)) in replace (seq 0 (S fw_len)) with t by (vm_compute; reflexivity).
      repeat (constructor; [vm_compute; auto|]). constructor. }
    rewrite Forall_forall in A. apply A, in_seq. lia.
  - unfold fw_state, farm_state_at. rewrite firstn_all2 by (unfold fw_len in H; lia). vm_compute. auto.
Qed.
Lemma fw_wf n k r : nth_error (fl_runs (fm_fleet (fw_state n))) k = Some r -> k = 0 /\ fr_wf r = dp_box "w".
Proof.
  intros H. apply (map_nth_error (fun r => fr_wf r)) in H. destruct (fw_wfs n) as [W|[W|[]]]; rewrite <- W in H; destruct k as [|k]; cbn in H; try discriminate H; [injection H as <-; auto|destruct k; discriminate H].
Qed.
Lemma fw_last n : fw_len <= n -> fw_state n = fw_state fw_len.
Proof. intros Hn. unfold fw_state, farm_state_at, fw_len in *. rewrite !firstn_all2 by lia. reflexivity. Qed.
Lemma fw_before : exists s, run_at (fm_fleet (fw_state (pred fw_len))) 0 c26_cx (dp_box "w") s.
Proof.
  match goal with |- context [fw_state ?n] => let f := eval vm_compute in (fw_state n) in replace (fw_state n) with f by (vm_compute; reflexivity) end.
  eexists; do 2 eexists; split; [reflexivity|]; split; [reflexivity|]; split; reflexivity.
Qed.
Lemma fw_after : exists s, run_at (fm_fleet (fw_state fw_len)) 0 c26_cx (dp_box "w") s /\ Pace_props.over s.
Proof.
  match goal with |- context [fw_state ?n] => let f := eval vm_compute in (fw_state n) in replace (fw_state n) with f by (vm_compute; reflexivity) end.
  eexists; split; [do 2 eexists; split; [reflexivity|]; split; [reflexivity|]; split; reflexivity|]. split; [eexists; reflexivity|repeat constructor; eexists; reflexivity].
Qed.
Lemma fw_wants i : farm_wanting (fm_fleet (fw_state fw_len)) 0 i = None.
Proof. destruct i as [|i]; [vm_compute; reflexivity|]. vm_compute. destruct i; reflexivity. Qed.
Lemma fw_calls : sm_calls (fm_sched (fw_state fw_len)) = [].
Proof. vm_compute. reflexivity. Qed.
Lemma fw_done : match qexec (fun t => t + 100) (fun t => t + 200) (fun _ c => c) fa_conf (fun _ => None) (qinit 0%N) fa_whole with Some _ => true | None => false end = true.
Proof. vm_compute. reflexivity. Qed.
Lemma fw_execution : fa_exec fw_state (nth_error fa_whole) 0%N.
Proof. exact (finite_farm (fun t => t + 100) (fun t => t + 200) (fun _ c => c) fa_conf (fun _ => None) 0%N fa_whole fw_done). Qed.
Lemma fw_orderly n op : nth_error fa_whole n = Some (QFleet (FRunOp 0 op)) -> orderly (dp_box "w") tame_worker op.
Proof. intros H; apply nth_error_In in H; vm_compute in H; repeat (destruct H as [H|H]; [try discriminate H; injection H as <-; cbn; auto; try exact sys_hooks_keep; try exact Logic.I|]); destruct H. Qed.
Lemma fw_final : nth_error fa_whole (pred fw_len) = Some (QFleet (FRunOp 0 (YFlow WMain))).
Proof. vm_compute. reflexivity. Qed.
Lemma fw_succ : fw_len = S (pred fw_len).
Proof. vm_compute. reflexivity. Qed.
Lemma fw_tended gh code : tended (fun t => t + 100) (fun t => t + 200) (fun _ c => c) fa_conf (fun _ => None) fw_state (nth_error fa_whole) (plain_served c26_hooks code) gh 0 c26_cx (dp_box "w").
Proof.
  intros n s Hat Hc. assert (L := fw_succ). destruct (Nat.le_gt_cases n (pred fw_len)) as [Hn|Hn].
  - exists (pred fw_len). split; [exact Hn|]. left. exists (YFlow WMain). destruct fw_before as (s1 & A1). destruct fw_after as (s2 & A2 & _).
    exists s1, s2. split; [exact fw_final|]. split; [exact A1|]. split; [rewrite <- L; exact A2|]. reflexivity.
  - exfalso. assert (Hn' : fw_len <= n) by lia. rewrite (fw_last n Hn') in Hat, Hc. destruct fw_after as (s1 & A1 & A2). rewrite (run_at_unique _ _ _ _ _ _ Hat A1) in Hc.
    destruct Hc as [Hc|(op & [(i & l & ->)|(c & i & -> & _)] & Hc)]; [exact (over_idle _ _ _ _ _ _ _ _ A2 Hc)| |].
    + apply Hc, no_farm_ask, fw_wants.
    + apply Hc, no_farm_lock, fw_calls.
Qed.
Example C150_nonvacuous : exists stq act, fa_exec stq act 0%N /\ (forall n, named (fm_fleet (stq n))) /\
  (exists n s, run_at (fm_fleet (stq n)) 0 c26_cx (dp_box "w") s) /\ runnable (dp_box "w") /\ (forall n, alone (farm_ops (doings act n)) (fm_fleet (stq n)) 0) /\
  (forall n op, act n = Some (QFleet (FRunOp 0 op)) -> orderly (dp_box "w") tame_worker op) /\ keeps_steps c26_hooks /\
  (forall gh code, tended (fun t => t + 100) (fun t => t + 200) (fun _ c => c) fa_conf (fun _ => None) stq act (plain_served c26_hooks code) gh 0 c26_cx (dp_box "w")) /\ falls_silent stq act 0 c26_cx (dp_box "w") /\
  exists i i' a a' x x', i < i' /\ act i = Some (QAsk 0 0 a) /\ act i' = Some (QAsk 0 0 a') /\ i < x < i' /\ i' < x' /\
    act x = Some (QFleet (FRunOp 0 (YStep 0 (KExec (XICmd (CIExit (Some 0%Z))))))) /\ act x' = Some (QFleet (FRunOp 0 (YStep 0 (KExec (XICmd (CIExit (Some 3%Z))))))).
Proof.
  exists fw_state, (nth_error fa_whole). split; [exact fw_execution|].
  split. { intros n k r H. destruct (fw_wf n k r H) as [_ ->]. apply dp_named_box. }
  split; [exists fw_len; destruct fw_after as (s & A & _); exists s; exact A|]. split; [apply dp_runnable|]. split.
  { intros n. apply apart_alone. intros k k' r r' id Hne H H'. destruct (fw_wf _ _ _ H) as [-> _], (fw_wf _ _ _ H') as [-> _]. destruct (Hne eq_refl). }
  split; [exact fw_orderly|]. split; [exact sys_hooks_keep|]. split; [exact fw_tended|]. split.
  - exists fw_len. intros m Hm (op & s & s' & Ha & _). apply nth_error_None in Hm. congruence.
  - exists 21, 66, [dp_near], [dp_near], 41, 85. vm_compute. repeat split; lia.
Qed.
