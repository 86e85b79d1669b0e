(** C152: what a workflow run on the built-in runner does on the machine. *)
From Verif Require Import Base Types Signals_model Stream_model Cond_model
  Plugins_model Plugins_spec Exec_model Exec_spec Job_proof Workflow_model Workflow_spec Workflow_proof Workflow_inv
  Paths_model Docker_model Runner_model Runner_proof Ids_model Ids_spec Local_model Local_spec System_model System_spec System_proof System_flow System_inst Step_props Workflow_props System_props Remote_spec Remote_proof Paths_spec Paths_props Process_spec Process_proof.

(** ** The calls of the runner that a job makes *)
Definition calls_in (evs : list obs) : list run_context := flat_map (fun o => match o with ORun c => [c] | _ => [] end) evs.
Lemma calls_in_app a b : calls_in (a ++ b) = calls_in a ++ calls_in b.
Proof. apply flat_map_app. Qed.
Definition steps_called (cx : ectx) (l : list step) (rcs : list run_context) : Prop :=
  exists sts0 sts, subsequence sts0 l /\ Forall2 hooked sts0 sts /\ rcs = map (given cx) sts.
Lemma called_skip cx st l rcs : steps_called cx l rcs -> steps_called cx (st :: l) rcs.
Proof. intros (a & b & H1 & H2 & H3). exists a, b. split; [apply subseq_drop, H1|auto]. Qed.
Lemma called_run cx st0 st l rcs : hooked st0 st -> steps_called cx l rcs -> steps_called cx (st0 :: l) (given cx st :: rcs).
Proof. intros H (a & b & H1 & H2 & ->). exists (st0 :: a), (st :: b). split; [apply subseq_take, H1|]. split; [constructor; assumption|reflexivity]. Qed.
Lemma no_calls_in_logs logs : calls_in (map (fun l => OHook (HLog l)) logs) = [].
Proof. induction logs; cbn; auto. Qed.
Lemma story_calls cx st0 evs r : step_story cx st0 evs r -> exists st, hooked st0 st /\ calls_in evs = [given cx st].
Proof.
  intros (st & t0 & t1 & Hh & _ & _ & _ & _ & [(_ & _ & ->)|(rr & logs & _ & _ & ->)]); exists st; (split; [exact Hh|]).
  - reflexivity.
  - rewrite !calls_in_app, no_calls_in_logs. reflexivity.
Qed.
Lemma lets_run_calls on chk : lets_run on chk -> calls_in chk = [].
Proof. destruct on; cbn; intros ->; reflexivity. Qed.
Lemma job_calls cx j evs r : job_story cx j evs r -> steps_called cx (jb_steps j) (calls_in evs).
Proof.
  assert (N : forall l, steps_called cx l []) by (intros l; exists [], []; split; [constructor|split; [constructor|reflexivity]]).
  intros [c E|chk e rs s t0 t1 H1 H2 H3 H4]; [apply N|]. rewrite !calls_in_app, (lets_run_calls _ _ H1). cbn [app]. change (calls_in _ ++ calls_in e ++ _) with (calls_in e ++ calls_in [job_state_event (jb_id j) s; OHook (HJobCompleted (JobRunResult (jb_id j) s (Some t0) (Some t1) rs))]).
  cbn [calls_in flat_map app]. rewrite app_nil_r. clear - H2 N.
  induction H2 as [e|e st rest r evs rs H1 H2 Ha IH|e st rest c r evs rs H1 H2 H3 Ha IH|e st rest chk sevs r evs rs H1 H2 H3 Ha IH]; [apply N|apply called_skip, IH|apply called_skip, IH|].
  rewrite !calls_in_app, (lets_run_calls _ _ H2). cbn [app]. destruct (story_calls _ _ _ _ H3) as (st' & Hh & ->). apply called_run; assumption.
Qed.
Lemma subseq_trans {A} (b c : list A) : subsequence b c -> forall a, subsequence a b -> subsequence a c.
Proof.
  induction 1 as [l|x b l H IH|x b l H IH]; intros a Ha.
  - inversion Ha; constructor.
  - inversion Ha; subst; [constructor|apply subseq_take; auto|apply subseq_drop; auto].
  - apply subseq_drop; auto.
Qed.
Lemma subseq_called cx l rcs' rcs : subsequence rcs' rcs -> steps_called cx l rcs -> steps_called cx l rcs'.
Proof.
  intros H (a & b & H1 & H2 & ->). assert (K : exists a' b', subsequence a' a /\ Forall2 hooked a' b' /\ rcs' = map (given cx) b').
  { clear H1. revert rcs' H. induction H2 as [|x y a b Hxy H2 IH]; intros rcs' H; cbn in H; inversion H; subst.
    - exists [], []. repeat constructor.
    - exists [], []. repeat constructor.
    - destruct (IH _ H3) as (a' & b' & K1 & K2 & ->). exists (x :: a'), (y :: b'). split; [apply subseq_take, K1|]. split; [constructor; assumption|reflexivity].
    - destruct (IH _ H3) as (a' & b' & K1 & K2 & ->). exists a', b'. split; [apply subseq_drop, K1|auto]. }
  destruct K as (a' & b' & K1 & K2 & K3). exists a', b'. split; [eapply subseq_trans; eauto|auto].
Qed.

Section Runs.
Variables (cx : ectx) (rhooks : run_context -> run_context) (conf : run_context -> xconf) (glob : glob_oracle) (wf : workflow).
Notation B := (builtin cx rhooks conf).
Hypothesis Hnd : NoDup (keys (wf_jobs wf)).

Lemma calls_seen i tr : subsequence (calls_of i tr) (calls_in (events_of (Some i) (flow_of B tr))).
Proof.
  induction tr as [|[w e] tr IH]; [constructor|]. change ((w, e) :: tr) with ([(w, e)] ++ tr). unfold calls_of in *. rewrite flat_map_app, flow_app, events_of_app, calls_in_app. apply subseq_app; [|exact IH].
  cbn [flat_map app]. rewrite app_nil_r. destruct w as [k|]; [|constructor]. destruct e as [o|[o|e]]; [constructor| |constructor].
  destruct o; try constructor. destruct (Nat.eqb k i) eqn:Ek; [|constructor]. apply Nat.eqb_eq in Ek as ->. unfold events_of. cbn. rewrite eqb_refl. cbn. apply subseq_refl.
Qed.
Lemma run_calls sh0 ops s tr i rc : sysrun B glob cx wf sh0 ops s tr -> In rc (calls_of i tr) ->
  exists key j sts0 sts, nth_error (started (flow_of B tr)) i = Some key /\ In (key, j) (wf_jobs wf) /\ subsequence sts0 (jb_steps j) /\ Forall2 hooked sts0 sts /\ calls_of i tr = map (given cx) sts.
Proof.
  intros Hr Hin. destruct (flow_run _ glob cx wf (builtin_faithful cx rhooks conf) _ _ _ _ Hr) as (wls & W & _).
  destruct (winv glob cx wf Hnd _ _ _ W) as [_ [T1 T2 _ _]].
  assert (Hs := calls_seen i tr).
  assert (Ho : exists o, In o (events_of (Some i) (flow_of B tr))).
  { destruct (events_of (Some i) (flow_of B tr)) as [|o l]; [|exists o; left; reflexivity]. cbn in Hs. inversion Hs as [? E|? ? ? ? E E2|]. rewrite <- E in Hin. destruct Hin. }
  destruct Ho as [o Ho]. destruct (task_events glob cx wf _ _ _ i o W Ho) as [t Ht].
  destruct (tasks_run_inv glob cx wf _ _ _ W) as [TR _]. destruct (TR i t Ht) as (jls & J & _).
  destruct (job_prefix_story glob cx (S i) _ _ _ _ _ J) as (tail & r & Hst). apply job_calls in Hst. rewrite calls_in_app in Hst.
  assert (K : steps_called cx (jb_steps (tk_job t)) (calls_of i tr)) by (eapply subseq_called; [|exact Hst]; apply subseq_more, Hs).
  destruct K as (a & b & K1 & K2 & K3). exists (tk_key t), (tk_job t), a, b. split; [rewrite <- T1, nth_error_map, Ht; reflexivity|]. split; [apply T2; eapply nth_error_In; eauto|auto].
Qed.
Lemma call_listed i rc tr : In (Some i, inr (LObs (ORun rc))) tr -> In rc (calls_of i tr).
Proof. intros H. unfold calls_of. apply in_flat_map. eexists. split; [exact H|]. cbn. rewrite Nat.eqb_refl. left. reflexivity. Qed.
Lemma subseq_In {A} (a l : list A) : subsequence a l -> forall x, In x a -> In x l.
Proof. induction 1; intros y Hy; [destruct Hy| |right; auto]. destruct Hy as [->|Hy]; [left; reflexivity|right; auto]. Qed.

(** Everything a run does on the machine is done for a step of one of its jobs that was given to the runner before, and is what an execution of that step's
    command does; a process is started only while the step is being prepared, once. *)
Theorem C152_effects : forall sh0 ops s tr, sysrun B glob cx wf sh0 ops s tr ->
  forall pre w e post, tr = pre ++ (w, inr (LEff e)) :: post ->
  exists i key j st0 st, w = Some i /\ nth_error (started (flow_of B tr)) i = Some key /\ In (key, j) (wf_jobs wf) /\ In st0 (jb_steps j) /\ hooked st0 st /\
    In (Some i, inr (LObs (ORun (given cx st)))) pre /\
    (exists ins x effs, xrun (conf (rhooks (given cx st))) ins x effs /\ In e effs) /\
    forall t, e = EfSpawn t -> being_prepared i (given cx st) pre /\ t = xc_spawned (conf (rhooks (given cx st))).
Proof.
  intros sh0 ops s tr Hr pre w e post E. destruct (proc_run _ _ _ _ _ _ _ _ _ Hr) as [_ _ V]. destruct (V _ _ _ _ E) as (i & rc & -> & H1 & H2 & H3).
  assert (Hc : In rc (calls_of i tr)) by (apply call_listed; rewrite E; apply in_or_app; auto).
  destruct (run_calls _ _ _ _ _ _ Hr Hc) as (key & j & sts0 & sts & K1 & K2 & K3 & K4 & K5). rewrite K5 in Hc. apply in_map_iff in Hc as (st & <- & Hst).
  assert (Hk : exists st0, In st0 sts0 /\ hooked st0 st).
  { clear - K4 Hst. induction K4 as [|a b l m Hab K IH]; [destruct Hst|]. destruct Hst as [->|Hst]; [exists a; split; [left; reflexivity|exact Hab]|]. destruct (IH Hst) as (z & Hz & Hh). exists z. split; [right; exact Hz|exact Hh]. }
  destruct Hk as (st0 & Hi0 & Hh). exists i, key, j, st0, st. repeat (split; [first [assumption|reflexivity|eapply subseq_In; eassumption]|]). exact H3.
Qed.

(** The processes of a job's steps: at most one for each call of the runner, in the order of the calls; and these are calls for steps of the job, in their order,
    each step at most once. *)
Theorem C152_in_order : forall sh0 ops s tr i, sysrun B glob cx wf sh0 ops s tr ->
  subsequence (processes_of i tr) (map (fun rc => xc_spawned (conf (rhooks rc))) (calls_of i tr)) /\
  (calls_of i tr <> [] -> exists key j sts0 sts, nth_error (started (flow_of B tr)) i = Some key /\ In (key, j) (wf_jobs wf) /\
     subsequence sts0 (jb_steps j) /\ Forall2 hooked sts0 sts /\ calls_of i tr = map (given cx) sts).
Proof.
  intros sh0 ops s tr i Hr. split.
  - destruct (proc_run _ _ _ _ _ _ _ _ _ Hr) as [_ _ V]. clear Hr. revert V.
    cut (forall n tr, length tr <= n -> attributed rhooks conf tr -> subsequence (processes_of i tr) (map (fun rc => xc_spawned (conf (rhooks rc))) (calls_of i tr))); [intros H V; exact (H _ tr (le_n _) V)|].
    clear. induction n as [|n IH]; intros tr Hl V; [destruct tr; [constructor|cbn in Hl; lia]|].
    destruct (rev tr) as [|[w e] l] eqn:Er; [destruct tr as [|x tr]; [constructor|cbn in Er; destruct (rev tr); discriminate Er]|].
    assert (Et : tr = rev l ++ [(w, e)]) by (rewrite <- (rev_involutive tr), Er; reflexivity). set (tr0 := rev l) in *. clearbody tr0. clear Er.
    assert (V0 : forall a b, tr0 = a ++ b -> attributed rhooks conf a).
    { intros a b E pre w' e' post E'. destruct (V pre w' e' (post ++ b ++ [(w, e)])) as (k & rc & -> & Hf); [rewrite Et, E, E', <- !app_assoc; reflexivity|eauto]. }
    assert (L0 : forall a b, tr0 = a ++ b -> length a <= n) by (intros a b E; rewrite Et, E, !app_length in Hl; cbn in Hl; lia).
    assert (P : forall a b, processes_of i (a ++ b) = processes_of i a ++ processes_of i b) by (intros; apply flat_map_app).
    assert (C : forall a b, calls_of i (a ++ b) = calls_of i a ++ calls_of i b) by (intros; apply flat_map_app).
    assert (Self : tr0 = tr0 ++ []) by (rewrite app_nil_r; reflexivity).
    assert (Other : processes_of i [(w, e)] = [] -> subsequence (processes_of i tr) (map (fun rc => xc_spawned (conf (rhooks rc))) (calls_of i tr))).
    { intros H. rewrite Et, P, C, H, app_nil_r, map_app. apply subseq_more, IH; eauto. }
    destruct w as [k|]; [|apply Other; reflexivity]. destruct e as [o|[o|e]]; [apply Other; reflexivity|apply Other; reflexivity|]. destruct e; try (apply Other; reflexivity).
    destruct (Nat.eqb k i) eqn:Ek; [|apply Other; cbn; rewrite Ek; reflexivity]. apply Nat.eqb_eq in Ek as ->.
    destruct (V _ _ _ _ Et) as (k & rc & [= <-] & _ & _ & Hs). destruct (Hs _ eq_refl) as [(a & b & Eb & Hb) ->].
    assert (Nb : processes_of i b = [] /\ calls_of i b = []).
    { clear - Hb. induction b as [|[w e] b IH]; [split; reflexivity|]. destruct IH as [I1 I2]; [intros; apply Hb; right; assumption|].
      unfold processes_of, calls_of in *. cbn [flat_map]. rewrite I1, I2, !app_nil_r.
      destruct w as [k|]; [|split; reflexivity]. destruct (Nat.eqb k i) eqn:Ek.
      - apply Nat.eqb_eq in Ek as ->. specialize (Hb e (or_introl eq_refl)). destruct e as [o|[o|e]]; [split; reflexivity| |].
        + destruct o; try (split; reflexivity). destruct Hb.
        + destruct e; try (split; reflexivity). destruct Hb.
      - destruct e as [o|[o|e]]; [split; reflexivity| |]; [destruct o|destruct e]; split; reflexivity. }
    destruct Nb as [N1 N2]. rewrite Et, Eb, !P, !C. change ((Some i, inr (LObs (ORun rc))) :: b) with ([(Some i, inr (LObs (ORun rc)) : obs + lobs)] ++ b). rewrite P, C, N1, N2.
    cbn [processes_of calls_of flat_map app]. rewrite Nat.eqb_refl. cbn [app]. rewrite !app_nil_r, map_app. apply subseq_app; [|apply subseq_refl]. eapply IH; eauto.
  - intros Hc. destruct (calls_of i tr) as [|rc l] eqn:E; [destruct (Hc eq_refl)|]. rewrite <- E. eapply run_calls; [exact Hr|]. rewrite E. left. reflexivity.
Qed.
End Runs.
Print Assumptions C152_effects.
Print Assumptions C152_in_order.

(** C153. What a local run creates, writes and removes on the disk, with the built-in runner's configuration and hooks that leave the command's id and the event alone: all of
    it lies in the directories of steps of its jobs that were given to the runner, and the containers it kills bear those steps' names. *)
Lemma own_places c ins x effs e : xrun c ins x effs -> In e effs ->
  match e with EfMkdir p | EfRmdir p => p = xc_dir c | EfWrite p y => p = md_entrypoint (xc_meta c) /\ y = entrypoint_content (xc_script c)
             | EfSpawn t => t = xc_spawned c | EfKill n => n = md_docker_name (xc_meta c) | _ => True end.
Proof.
  intros H. induction H as [|ins x tr i x' o R IH E]; intros Hin; [destruct Hin|]. apply in_app_iff in Hin as [Hin|Hin]; [exact (IH Hin)|]. clear IH R.
  assert (N : forall r res res' o', x_end r res = (res', o') -> forall y, In y o' -> exists q, y = EfEnd q).
  { intros r res res' o' X y Hy. unfold x_end in X. destruct res; injection X as <- <-; cbn in Hy; [destruct Hy|]. destruct Hy as [<-|[]]. eauto. }
  apply xstep_trans in E. inversion E; subst; cbn [In] in Hin; try contradiction;
    try (destruct Hin as [<-|[]]; auto; fail);
    try (match goal with X : x_end _ _ = _ |- _ => destruct (N _ _ _ _ X _ Hin) as [q ->]; exact Logic.I end).
  - apply in_map_iff in Hin as (l & <- & _). exact Logic.I.
  - destruct Hin as [<-|Hin]; [reflexivity|]. match goal with X : x_end _ _ = _ |- _ => destruct (N _ _ _ _ X _ Hin) as [q ->]; exact Logic.I end.
Qed.

Theorem C153_places : forall cx rhooks show_f64 os arch base glob wf, NoDup (keys (wf_jobs wf)) ->
  (forall rc, cmd_id (rx_command (rhooks rc)) = cmd_id (rx_command rc) /\ rx_event (rhooks rc) = rx_event rc) ->
  forall sh0 ops s tr, sysrun (builtin cx rhooks (runner_conf show_f64 os arch base)) glob cx wf sh0 ops s tr ->
  forall pre w e post, tr = pre ++ (w, inr (LEff e)) :: post ->
  exists i key j st0 st, w = Some i /\ nth_error (started (flow_of (builtin cx rhooks (runner_conf show_f64 os arch base)) tr)) i = Some key /\ In (key, j) (wf_jobs wf) /\
    In st0 (jb_steps j) /\ hooked st0 st /\ In (Some i, inr (LObs (ORun (given cx st)))) pre /\
    let repo := match cm_event (cx_matcher cx) with Some ev => [te_repo_owner ev; te_repo_name ev] | None => [] end in
    let beneath names p := components p = (fst (components base), snd (components base) ++ repo ++ sid_0 (st_id st) :: sid_1 (st_id st) :: names) in
    let own p := beneath [show_usize (sid_2 (st_id st))] p \/ beneath ["data"] p in
    (ordinary_repo (event_repo (cm_event (cx_matcher cx))) -> ordinary_id (st_id st) ->
      match e with
      | EfMkdir p | EfRmdir p => own p
      | EfWrite p text => beneath [show_usize (sid_2 (st_id st)); "entrypoint"] p
      | EfKill name => name = sid_0 (st_id st) +++ "-" +++ sid_1 (st_id st) +++ "-" +++ show_usize (sid_2 (st_id st))
      | _ => True
      end).
Proof.
  intros cx rhooks show os arch base glob wf Hnd Hk sh0 ops s tr Hr pre w e post E.
  destruct (C152_effects _ _ _ _ _ Hnd _ _ _ _ Hr _ _ _ _ E) as (i & key & j & st0 & st & Hw & H1 & H2 & H3 & H4 & H5 & (ins & x & effs & X & Hin) & _).
  exists i, key, j, st0, st. repeat (split; [assumption|]). intros repo beneath own Or Oi.
  destruct (Hk (given cx st)) as [K1 K2]. assert (P := own_places _ _ _ _ _ X Hin).
  set (rc := rhooks (given cx st)) in *. assert (M : xc_meta (runner_conf show os arch base rc) = step_metadata base (cm_event (cx_matcher cx)) (st_id st)).
  { unfold runner_conf. rewrite K1, K2. cbn [given rx_command rx_event command_of_step cmd_id]. destruct (uses_host _ _ _); reflexivity. }
  destruct (C44_places base (cm_event (cx_matcher cx)) (st_id st) Or Oi) as (A1 & A2 & A3 & _ & A5 & _). fold repo in A1, A2, A3. cbn [app] in A1, A2, A3.
  assert (D : own (xc_dir (runner_conf show os arch base rc))).
  { unfold xc_dir. rewrite M. destruct (xc_host _); [right; exact A3|left; exact A1]. }
  destruct e; try exact Logic.I; rewrite ?M in P.
  - subst p. exact D.
  - destruct P as [-> _]. exact A2.
  - subst name. exact A5.
  - subst p. exact D.
Qed.
Print Assumptions C153_places.

(** Non-vacuity: two jobs with one host step each. *)
Example C152_nonvacuous : exists s tr, sysrun (builtin c26_cx (fun c => c) (runner_conf (fun _ => "") "linux" "x86_64" "/b")) (fun _ => None) c26_cx sys_wf sys_sh (sys_ops 3) s tr /\
  NoDup (keys (wf_jobs sys_wf)) /\ processes_of 0 tr = ["make"] /\ processes_of 1 tr = ["make"] /\ map (fun rc => cmd_id (rx_command rc)) (calls_of 0 tr) = [StepId "w" "a" 0] /\
  flat_map (fun x => match x with (Some i, inr (LEff (EfMkdir p))) => [(i, p)] | _ => [] end) tr = [(0, "/b/w/a/data"); (1, "/b/w/b/data")].
Proof.
  destruct (sysexec (builtin c26_cx (fun c => c) (runner_conf (fun _ => "") "linux" "x86_64" "/b")) (fun _ => None) c26_cx sys_wf (System (winit sys_sh) [] []) (sys_ops 3)) as [[s tr]|] eqn:E; [|vm_compute in E; discriminate E].
  exists s, tr. split; [exact (sysexec_run _ _ _ _ _ _ _ _ _ _ _ (sysrun_init _ _ _ _ _) E)|]. vm_compute in E. injection E as _ <-.
  split; [repeat constructor; cbn; intuition discriminate|]. split; [reflexivity|]. split; [reflexivity|]. split; reflexivity.
Qed.
