(** C110: the times in results and log lines mean what they say. *)
From Coq Require Import Sorting.Sorted.
From Verif Require Import Base Types Signals_model Signals_proof Stream_model Cond_model Plugins_model Exec_model Exec_spec Step_proof Job_proof Step_props Workflow_model Workflow_spec Workflow_proof
  Workflow_inv Workflow_term Workflow_props System_props Times_spec Times_proof Times_flow.

(** *** C110 *)
(** Every execution has a stamped version, and a stamped execution without its stamps is an execution. *)
Theorem C110_stamps : forall glob cx wf ls s tr, wrun glob cx wf ls s tr <-> exists base ttr, wtimed glob cx wf base ls s ttr /\ map snd ttr = tr.
Proof. intros glob cx wf ls s tr. split; [apply wrun_wtimed|]. intros (base & ttr & H & <-). eapply wtimed_wrun, H. Qed.
Print Assumptions C110_stamps.

(** Everything the workflow's task and its job tasks report about time is true. *)
Theorem C110_truthful : forall glob cx wf base ls s tr, wtimed glob cx wf base ls s tr ->
  Sorted N.le (map fst tr) /\ truthful cx base (timed_events_of None tr) /\
  (forall i b k, nth_error (spawns tr) i = Some (b, k) -> truthful cx b (timed_events_of (Some i) tr)) /\
  (forall i, length (spawns tr) <= i -> timed_events_of (Some i) tr = []).
Proof.
  intros glob cx wf base ls s tr R. destruct (winv_times _ _ _ _ _ _ _ R) as [A1 A2 A3 A4 A5 A6].
  assert (Hlen : length (spawns tr) = length (ws_tasks s)) by (rewrite <- (map_length snd (spawns tr)), A4, map_length; reflexivity).
  split; [apply asc_sorted; apply asc_snoc in A2; exact (proj1 A2)|]. split; [exact (proj1 A3)|]. split; [|intros i Hi; apply A6; lia].
  intros i b k Hi. destruct (nth_error (ws_tasks s) i) as [t|] eqn:Et.
  - destruct (A5 i t Et) as (b' & B1 & _ & B3 & _). rewrite Hi in B1. injection B1 as <- _. exact B3.
  - apply nth_error_None in Et. assert (i < length (spawns tr)) by (apply nth_error_Some; congruence). lia.
Qed.
Print Assumptions C110_truthful.

Section Consequences.
Variables (glob : glob_oracle) (cx : ectx) (wf : workflow).
Hypothesis Hnd : NoDup (keys (wf_jobs wf)).
Notation wtimed := (wtimed glob cx wf).
Lemma wtimed_split base ls s tr : wtimed base ls s tr -> forall pre t x post, tr = pre ++ (t, x) :: post ->
  exists ls1 op s1 s2, wtimed base ls1 s1 pre /\ wstep glob cx wf s1 op = Some (s2, [x]) /\ t = sh_now (ws_sh s1).
Proof.
  induction 1 as [sh|base ls s tr op s' o R IH E]; intros pre t x post Etr; [destruct pre; discriminate Etr|].
  assert (Hl := wobs_le _ _ _ _ _ _ _ E). destruct o as [|y [|? ?]]; [| |cbn in Hl; lia].
  - cbn in Etr. rewrite app_nil_r in Etr. exact (IH _ _ _ _ Etr).
  - cbn [map] in Etr. destruct post as [|z post _] using rev_ind.
    + apply app_inj_tail in Etr as [-> [= <- <-]]. exists ls, op, s, s'. auto.
    + rewrite app_comm_cons, app_assoc in Etr. apply app_inj_tail in Etr as [Etr _]. exact (IH _ _ _ _ Etr).
Qed.
Lemma result_times base ls s tr k r : wtimed base ls s tr -> In (k, r) (received (map snd tr)) ->
  exists i b, nth_error (spawns tr) i = Some (b, k) /\ (base <= b)%N /\ timely b r (sh_now (ws_sh s)).
Proof.
  intros R H. assert (R0 := wtimed_wrun _ _ _ _ _ _ _ R). destruct (received_task glob cx wf Hnd _ _ _ _ _ R0 H) as (i & t & Ht & Hk & Hp).
  destruct (tasks_run_inv glob cx wf _ _ _ R0) as [TR _]. destruct (TR i t Ht) as (jls & J & _). rewrite Hp in J. apply job_done_story in J.
  destruct (winv_times _ _ _ _ _ _ _ R) as [A1 A2 A3 A4 A5 A6]. destruct (A5 i t Ht) as (b & B1 & B2 & B3 & _). rewrite Hk in B1.
  exists i, b. split; [exact B1|]. split; [lia|]. assert (Hs := tev_snd (Some i) tr).
  assert (D : (jr_state r = Skipped /\ jr_started_at r = None /\ jr_completed_at r = None /\ jr_steps r = []) \/ In (OHook (HJobCompleted r)) (events_of (Some i) (map snd tr))).
  { clear - J. destruct J as [c Ho|chk evs rs st t0 t1 G1 G2 G3 G4]; [left; auto|right]. rewrite !in_app_iff. right. right. right. right. left. reflexivity. }
  destruct D as [D|D]; [left; exact D|right]. rewrite <- Hs in D. apply in_map_iff in D as ([tj o] & K1 & Hin). cbn in K1. subst o.
  assert (Hu := upto_all tr (sh_now (ws_sh s)) (Some i) A2). unfold upto in Hu. rewrite Forall_forall in Hu.
  destruct (in_split _ _ Hin) as (pre & post & Epp). destruct (B3 _ _ _ _ Epp) as (a & e & j & before & tf & mid & t2 & K1 & K2 & _ & K4 & (K5 & _ & K6) & (K7 & _ & K8) & K9).
  assert (L2 : (t2 <= sh_now (ws_sh s))%N).
  { apply (Hu (t2, job_state_event (jr_id r) (jr_state r))). rewrite Epp, K4. apply in_or_app; left. apply in_or_app; right. right. apply in_or_app; right; left; reflexivity. }
  exists a, e. split; [exact K1|]. split; [exact K2|]. split; [split; lia|]. split; [lia|exact K9].
Qed.
Lemma tev_sorted w l : asc (map fst l) -> asc (map fst (timed_events_of w l)).
Proof.
  induction l as [|[t [w' x]] l IH]; [constructor|]. intros H. cbn [map fst] in H. inversion H as [|? ? H1 H2]; subst. cbn [timed_events_of flat_map]. destruct (eqb w' w); [|exact (IH H1)].
  cbn [app map fst]. constructor; [exact (IH H1)|]. rewrite Forall_forall in *. intros y Hy. apply H2. apply in_map_iff in Hy as ([t' x'] & <- & Hy). unfold timed_events_of in Hy.
  apply in_flat_map in Hy as ([t3 [w3 x3]] & Hin & Hy). destruct (eqb w3 w); [|destruct Hy]. destruct Hy as [[= <- <-]|[]]. apply (in_map fst) in Hin. exact Hin.
Qed.
Lemma asc_app l l' : asc (l ++ l') -> asc l /\ asc l' /\ forall x y, In x l -> In y l' -> (x <= y)%N.
Proof.
  induction l as [|x l IH]; intros H; [split; [constructor|]; split; [exact H|]; intros x y []|].
  cbn in H. inversion H as [|? ? H1 H2]; subst. destruct (IH H1) as (I1 & I2 & I3). apply Forall_app in H2 as [H2 H3]. split; [constructor; assumption|]. split; [exact I2|].
  intros a b [<-|Ha] Hb; [rewrite Forall_forall in H3; auto|auto].
Qed.
Lemma tev_in (w : who) (tr : timed (who * obs)) (t : time) (x : obs) : In (t, (w, x)) tr <-> In (t, x) (timed_events_of w tr).
Proof.
  unfold timed_events_of. rewrite in_flat_map. split.
  - intros H. exists (t, (w, x)). split; [exact H|]. rewrite Base.eqb_refl. left; reflexivity.
  - intros ([t' [w' x']] & H & Hx). destruct (eqb w' w) eqn:E; [|destruct Hx]. apply (proj1 (eqb_true _ _)) in E. subst w'. destruct Hx as [[= <- <-]|[]]. exact H.
Qed.
Lemma received_event (tr : timed (who * obs)) (k : string) (r : job_run_result) : In (k, r) (received (map snd tr)) -> exists t : time, In (t, (None : who, OReceive k r)) tr.
Proof.
  unfold received. rewrite <- tev_snd. unfold received_in. intros H. apply in_flat_map in H as (o & H & Ho).
  assert (o = OReceive k r) as -> by (destruct o; try destruct Ho as [[= <- <-]|[]]; try destruct Ho; reflexivity).
  apply in_map_iff in H as ([t x] & E & H). cbn in E. subst x. exists t. apply tev_in. exact H.
Qed.
Lemma main_event_step s1 op s2 x : wstep glob cx wf s1 op = Some (s2, [(None, x)]) -> (exists k r, x = OReceive k r) \/ (exists k, x = OSpawn k) -> ws_sh s2 = ws_sh s1.
Proof.
  intros E Hx. destruct op as [|gh|i op|i|e]; cbn [wstep] in E.
  - exact (main_sh _ _ _ _ _ _ E).
  - destruct (ws_main s1); try discriminate E. destruct (is_match_second _ _ _ _). injection E as _ <-. destruct Hx as [(k & r & C)|[k C]]; discriminate C.
  - destruct (nth_error _ i); [|discriminate E]. destruct (job_step _ _ _ _ _ _ _) as [[[sh' p'] ob]|]; [|discriminate E]. injection E as _ E. destruct ob as [|? ob]; discriminate E.
  - destruct (nth_error _ i) as [[key j p sent]|]; [|discriminate E]. destruct p; try discriminate E. destruct sent; [discriminate E|]. destruct (ws_main s1); try (destruct (Nat.ltb _ _); [|discriminate E]); discriminate E.
  - discriminate E.
Qed.
Lemma spawn_split i : forall (tr : timed (who * obs)) (t : time) (k : string), nth_error (spawns tr) i = Some (t, k) -> exists pre post, tr = pre ++ (t, (None : who, OSpawn k)) :: post /\ length (spawns pre) = i.
Proof.
  intros tr; revert i. induction tr as [|[t0 [w x]] tr IH]; intros i t k H; [destruct i; discriminate H|].
  change (spawns ((t0, (w, x)) :: tr)) with ((match w, x with None, OSpawn k0 => [(t0, k0)] | _, _ => [] end) ++ spawns tr) in H.
  destruct w as [n|]; [|destruct x]; cbn [app] in H;
    try (destruct (IH _ _ _ H) as (pre & post & -> & Hl); eexists (_ :: pre), post; split; [reflexivity|exact Hl]).
  destruct i as [|i]; cbn in H.
  - injection H as <- <-. exists [], tr. split; reflexivity.
  - destruct (IH _ _ _ H) as (pre & post & -> & Hl). eexists (_ :: pre), post. split; [reflexivity|]. cbn. f_equal. exact Hl.
Qed.
End Consequences.

(** A job is started only after all the jobs it depends on have completed, by their own times; its own times are later, and its steps follow one
    another within them. *)
Theorem C110_dependencies : forall glob cx wf base ls s tr i t k, NoDup (keys (wf_jobs wf)) -> wtimed glob cx wf base ls s tr -> nth_error (spawns tr) i = Some (t, k) ->
  (forall tj r, In (tj, OHook (HJobCompleted r)) (timed_events_of (Some i) tr) ->
     exists a e, jr_started_at r = Some a /\ jr_completed_at r = Some e /\ (t <= a <= e)%N /\ (e <= tj)%N /\ Sorted N.le (a :: flat_map step_times (jr_steps r) ++ [e])) /\
  exists j, In (k, j) (wf_jobs wf) /\ forall d, In d (jb_depends_on j) -> exists i' t' r', nth_error (spawns tr) i' = Some (t', d) /\ In (d, r') (received (map snd tr)) /\
    ((jr_state r' = Skipped /\ jr_started_at r' = None /\ jr_completed_at r' = None /\ jr_steps r' = []) \/
     exists a e, jr_started_at r' = Some a /\ jr_completed_at r' = Some e /\ (t' <= a <= e)%N /\ (e <= t)%N).
Proof.
  intros glob cx wf base ls s tr i t k Hnd R Hi. split.
  - intros tj r Hin. destruct (C110_truthful _ _ _ _ _ _ _ R) as (Hso & _ & Ht & _). specialize (Ht _ _ _ Hi).
    destruct (in_split _ _ Hin) as (pre & post & Epp). destruct (Ht _ _ _ _ Epp) as (a & e & j & before & tf & mid & t2 & K1 & K2 & _ & K4 & (K5 & _ & K6) & (K7 & _ & K8) & K9).
    exists a, e. split; [exact K1|]. split; [exact K2|]. split; [split; lia|]. split; [|exact K9]. apply N.le_trans with t2; [exact K8|].
    assert (So : asc (map fst (timed_events_of (Some i) tr))) by (apply tev_sorted, Sorted_StronglySorted; [intros x y z; apply N.le_trans|exact Hso]).
    rewrite Epp, K4, map_app in So. apply asc_app in So as (_ & _ & So). apply So; [|left; reflexivity]. apply in_map_iff. exists (t2, job_state_event (jr_id r) (jr_state r)). split; [reflexivity|].
    apply in_or_app; right. right. apply in_or_app; right; left; reflexivity.
  - destruct (spawn_split _ _ _ _ Hi) as (pre & post & -> & Hl). destruct (wtimed_split _ _ _ _ _ _ _ R _ _ _ _ eq_refl) as (ls1 & op & s1 & s2 & R1 & E & Et).
    assert (R2 := wtimed_step _ _ _ _ _ _ _ _ _ _ R1 E). assert (W2 := wtimed_wrun _ _ _ _ _ _ _ R2). rewrite map_app in W2. cbn [map snd] in W2.
    destruct (started_is_job glob cx wf Hnd _ _ _ k W2) as (j & Hj & Hd); [rewrite started_app; apply in_or_app; right; left; reflexivity|].
    exists j. split; [exact Hj|]. intros d Hdd. apply Hd in Hdd. rewrite received_app in Hdd. cbn in Hdd. rewrite app_nil_r in Hdd. apply in_map_iff in Hdd as ([d' r'] & Ed & Hr'). cbn in Ed. subst d'.
    destruct (result_times glob cx wf Hnd _ _ _ _ _ _ R1 Hr') as (i' & b' & H1 & H2 & H3). rewrite <- Et in H3. exists i', b', r'. split; [|split].
    + rewrite spawns_app, nth_error_app1; [exact H1|]. apply nth_error_Some. congruence.
    + rewrite map_app, received_app. apply in_or_app; left. exact Hr'.
    + destruct H3 as [H3|(a & e & K1 & K2 & K3 & K4 & _)]; [left; exact H3|right]. exists a, e. auto.
Qed.
Print Assumptions C110_dependencies.

Lemma ends_app {A} (l l' : list A) x : (exists e, l' = e ++ [x]) -> exists e, l ++ l' = e ++ [x].
Proof. intros [e ->]. exists (l ++ e). apply app_assoc. Qed.
Lemma ends_cons {A} (y z : A) l' x : (exists e, z :: l' = e ++ [x]) -> exists e, y :: z :: l' = e ++ [x].
Proof. intros [e ->]. exists (y :: e). reflexivity. Qed.
(** In the result of a run, the times of every job lie within those of the workflow, and the times of its steps follow one another within those of the job. *)
Theorem C110_result : forall glob cx wf base ls s tr r, NoDup (keys (wf_jobs wf)) -> wtimed glob cx wf base ls s tr -> ws_main s = WpDone r ->
  (wr_state r = Skipped /\ wr_started_at r = None /\ wr_completed_at r = None /\ wr_jobs r = []) \/
  exists a e, wr_started_at r = Some a /\ wr_completed_at r = Some e /\ (base <= a <= e)%N /\ (e <= sh_now (ws_sh s))%N /\
    forall k jr, lookup k (wr_jobs r) = Some jr -> timely a jr e.
Proof.
  intros glob cx wf base ls s tr r Hnd R Em. assert (W := wtimed_wrun _ _ _ _ _ _ _ R). assert (St := C37_life_cycle _ _ _ _ _ _ _ Hnd W Em).
  assert (Hs := tev_snd None tr).
  assert (D : (wr_state r = Skipped /\ wr_started_at r = None /\ wr_completed_at r = None /\ wr_jobs r = []) \/
    (exists evs, events_of None (map snd tr) = evs ++ [OHook (HWorkflowCompleted r)])).
  { destruct St as [c Ho|chk recs st t0 t1 jobs G1 G2 G3 G4 G5 G6]; [left; auto|right]. repeat (apply ends_app || apply ends_cons). exists []. reflexivity. }
  destruct D as [D|[evs D]]; [left; exact D|right]. rewrite <- Hs in D.
  destruct (@exists_last _ (timed_events_of None tr)) as (pre & [tj x] & Epp); [intros C; rewrite C in D; destruct evs; discriminate D|].
  assert (x = OHook (HWorkflowCompleted r)) as ->. { rewrite Epp, map_app in D. apply app_inj_tail in D as [_ D]. exact D. }
  destruct (C110_truthful _ _ _ _ _ _ _ R) as (Hso & Hm & _).
  destruct (Hm _ _ _ _ Epp) as (a & e & wf' & before & tf & mid & t2 & K1 & K2 & _ & K4 & Kn & (K5 & K5' & K6) & (K7 & K7' & K8)).
  destruct (winv_times _ _ _ _ _ _ _ R) as [A1 A2 _ _ _ _]. assert (Hu := upto_all tr (sh_now (ws_sh s)) None A2). unfold upto in Hu, K5', K7'. rewrite Forall_forall in Hu, K5', K7', Kn.
  exists a, e. split; [exact K1|]. split; [exact K2|]. split; [split; lia|].
  assert (L2 : (t2 <= sh_now (ws_sh s))%N).
  { apply (Hu (t2, wf_state_event wf' (wr_state r))). rewrite Epp, K4. apply in_or_app; left. apply in_or_app; right. right. apply in_or_app; right; left; reflexivity. }
  split; [lia|]. intros k jr Hl.
  destruct (C36_final_state _ _ _ _ _ _ _ Hnd W Em) as (_ & [(_ & Hj & _)|(_ & _ & Hlat)]); [rewrite Hj in Hl; discriminate Hl|]. apply Hlat, received_latest in Hl.
  destruct (received_event _ _ _ Hl) as [t3 H3]. assert (H3' := H3). apply tev_in in H3'.
  destruct (in_split _ _ H3) as (p1 & p2 & Ep). destruct (wtimed_split _ _ _ _ _ _ _ R _ _ _ _ Ep) as (ls1 & op & s1 & s2 & R1 & E & Et).
  assert (R2 := wtimed_step _ _ _ _ _ _ _ _ _ _ R1 E). cbn [map] in R2.
  destruct (result_times glob cx wf Hnd _ _ _ _ k jr R2) as (i & b & B1 & B2 & B3).
  { rewrite map_app, received_app. apply in_or_app; right. left. reflexivity. }
  rewrite (main_event_step _ _ _ _ _ _ _ E), <- Et in B3 by eauto.
  assert (Hb : (a <= b)%N).
  { destruct (spawn_split _ _ _ _ B1) as (q1 & q2 & Eq & _).
    assert (Hin : In (b, OSpawn k) (timed_events_of None tr)).
    { apply tev_in. assert (Ea : tr = (q1 ++ (b, (None : who, OSpawn k)) :: q2) ++ p2) by (transitivity ((p1 ++ [(sh_now (ws_sh s1), (None : who, OReceive k jr))]) ++ p2); [rewrite <- app_assoc; cbn [app]; rewrite <- Et; exact Ep|f_equal; exact Eq]). rewrite Ea. apply in_or_app; left. apply in_or_app; right; left; reflexivity. }
    assert (So : asc (map fst (timed_events_of None tr))) by (apply tev_sorted, Sorted_StronglySorted; [intros x y z; apply N.le_trans|exact Hso]).
    rewrite Epp, K4, <- app_assoc in So, Hin. rewrite map_app in So. apply asc_app in So as (_ & So & _). apply in_app_or in Hin as [Hin|Hin]; [specialize (Kn _ Hin); discriminate Kn|].
    cbn [app map fst] in So, Hin. destruct Hin as [C|Hin]; [discriminate C|]. inversion So as [|? ? _ Hf]; subst. rewrite Forall_forall in Hf. apply (in_map fst) in Hin. specialize (Hf _ Hin). cbn in Hf. lia. }
  assert (Hc : (t3 <= e)%N).
  { rewrite Epp, K4 in H3'. apply in_app_or in H3' as [H3'|[C|[]]]; [|discriminate C]. apply in_app_or in H3' as [H3'|[C|H3']]; [specialize (K5' _ H3'); cbn in K5'; lia|discriminate C|].
    apply in_app_or in H3' as [H3'|[C|[]]]; [exact (K7' _ H3')|discriminate C]. }
  destruct B3 as [B3|(a' & e' & C1 & C2 & C3 & C4 & C5)]; [left; exact B3|right]. exists a', e'. split; [exact C1|]. split; [exact C2|]. split; [lia|]. split; [lia|exact C5].
Qed.
Print Assumptions C110_result.

(** *** Non-vacuity *)
Fixpoint wtexec glob cx wf (s : wstate) (ops : list wop) : option (wstate * timed (who * obs)) :=
  match ops with
  | [] => Some (s, [])
  | op :: ops => match wstep glob cx wf s op with
                 | None => None
                 | Some (s1, o) => match wtexec glob cx wf s1 ops with None => None | Some (s2, tr) => Some (s2, map (fun x => (sh_now (ws_sh s), x)) o ++ tr) end
                 end
  end.
Lemma wtexec_run glob cx wf base ops : forall ls0 s0 tr0 s' o, wtimed glob cx wf base ls0 s0 tr0 -> wtexec glob cx wf s0 ops = Some (s', o) -> wtimed glob cx wf base (ls0 ++ ops) s' (tr0 ++ o).
Proof.
  induction ops as [|op ops IH]; intros ls0 s0 tr0 s' o R E; cbn [wtexec] in E; [injection E as <- <-; rewrite !app_nil_r; exact R|].
  destruct (wstep glob cx wf s0 op) as [[s1 o1]|] eqn:E1; [|discriminate E]. destruct (wtexec glob cx wf s1 ops) as [[s2 tr]|] eqn:E2; [|discriminate E]. injection E as <- <-.
  assert (X := IH _ _ _ _ _ (wtimed_step _ _ _ _ _ _ _ _ _ _ R E1) E2). rewrite <- !app_assoc in X. exact X.
Qed.
(** Two jobs, the second depending on the first, which fails; one tick of the clock before every operation. *)
Definition c110_run : list wop := flat_map (fun op => [WEnv (ETick 1); op]) chain_run.
Definition c110_sh : shared := Shared 100%N sm_init None.
Example times_nonvacuous : exists s tr r, NoDup (keys (wf_jobs chain_wf)) /\ wtimed (fun _ => None) c26_cx chain_wf 100%N c110_run s tr /\ ws_main s = WpDone r /\
  wr_started_at r = Some 102%N /\ wr_completed_at r = Some 168%N /\ spawns tr = [(106, "a"); (137, "c")]%N /\
  map (fun j => (fst j, jr_started_at (snd j), jr_completed_at (snd j), flat_map step_times (jr_steps (snd j)))) (wr_jobs r) =
    [("a", Some 109, Some 131, [115; 127]); ("c", Some 140, Some 162, [146; 158])]%N.
Proof.
  do 3 eexists. split; [repeat constructor; cbn; intuition discriminate|]. split.
  { eapply (wtexec_run (fun _ => None) c26_cx chain_wf 100%N c110_run [] (winit c110_sh) []); [exact (wtimed_init _ _ _ c110_sh)|vm_compute; reflexivity]. }
  repeat split.
Qed.
