(** C99-C101: one step on the built-in runner, from the engine's call to its result. *)
From Verif Require Import Base Types Signals_model Signals_proof Stream_model Stream_spec Stream_proof Cond_model Plugins_model Plugins_spec
  Exec_model Exec_spec Step_proof Timing_proof Step_props Paths_model Docker_model Runner_model Runner_spec Runner_proof Local_model Local_spec Local_proof Local_live.

(** Every execution has exactly one history of its task. *)
Theorem C99_histories : forall cx me rhooks conf st0 ops s tr, lrun cx me rhooks conf st0 ops s tr <-> exists ins, lhist cx me rhooks conf st0 ops s tr ins.
Proof.
  intros. split.
  - induction 1 as [sh|ops s tr op s' o R [ins IH] E]; [exists []; constructor|]. exists (ins ++ happens s op). eapply lhist_step; eassumption.
  - intros [ins H]. induction H as [sh|ops s tr ins op s' o R IH E]; [constructor|]. eapply lrun_step; eassumption.
Qed.
Print Assumptions C99_histories.

(** When the step is done, the task ran the command of the step as the hooks left it, and what it did is a run of the executor with this history; the step's
    result is the result of the first decisive event in it, and its logs are exactly the lines the task sent, in that order. *)
Theorem C99_result : forall cx me rhooks conf st0 ops s tr ins r, lhist cx me rhooks conf st0 ops s tr ins -> lo_step s = SpDone r ->
  exists t st rr, lo_task s = Some t /\ hooked st0 st /\ In (ORun (given cx st)) (engine_events tr) /\ lt_conf t = conf (rhooks (given cx st)) /\
    xrun (lt_conf t) ins (lt_x t) (task_effects tr) /\ verdict None false ins = Some rr /\ mirrors rr r /\ delivered (engine_events tr) = task_logs tr.
Proof.
  intros cx me rhooks conf st0 ops s tr ins r H D. destruct (result_of_run _ _ _ _ _ _ _ _ _ _ H D) as (t & st & rr & H1 & H2 & H3 & H4 & H5 & _ & H6 & H7 & H8).
  exists t, st, rr. auto 10.
Qed.
Print Assumptions C99_result.

(** If no signal was handed to the step, no file system operation failed and the command could be started and waited for, the result is the command's own. *)
Theorem C99_own_result : forall cx me rhooks conf st0 ops s tr ins r, lhist cx me rhooks conf st0 ops s tr ins -> lo_step s = SpDone r ->
  raised ins = [] -> ~ fs_failed ins -> ~ command_broke ins -> exists code, In (XICmd (CIExit code)) ins /\ mirrors (exit_result code) r.
Proof.
  intros cx me rhooks conf st0 ops s tr ins r H D H1 H2 H3. destruct (result_of_run _ _ _ _ _ _ _ _ _ _ H D) as (t & st & rr & _ & _ & _ & _ & _ & _ & V & M & _).
  destruct (verdict_none_raised _ _ _ V H1 H2 H3) as (code & K1 & ->). eauto.
Qed.
Print Assumptions C99_own_result.

(** A step ends Cancelled only if, while it ran, the engine found its job's signal raised as Cancel. *)
Theorem C99_cancelled_only_with_its_job : forall cx me rhooks conf st0 ops s tr ins r, lhist cx me rhooks conf st0 ops s tr ins -> lo_step s = SpDone r ->
  sr_state r = Cancelled ->
  exists pre post s1 tr1 ins1 st t0 a sg str ti cell, ops = pre ++ LEngine OpJobSignal :: post /\ lhist cx me rhooks conf st0 pre s1 tr1 ins1 /\
    lo_step s1 = SpLoop st t0 a sg str ti /\ nth_error (sm_heap (sh_sm (lo_sh s1))) a = Some cell /\ sg_signal cell = Some SigCancel.
Proof.
  intros cx me rhooks conf st0 ops s tr ins r H D Hc. destruct (result_of_run _ _ _ _ _ _ _ _ _ _ H D) as (t & st & rr & _ & _ & _ & _ & _ & _ & V & M & _).
  assert (rr = RCancelled) by (destruct rr; cbn in M; destruct M as [M _]; congruence). subst rr.
  destruct (verdict_cancelled _ _ _ V) as [C|C]; [discriminate|].
  destruct (raised_from _ _ _ _ _ _ _ _ _ _ H C) as (pre & op & post & s1 & tr1 & ins1 & s2 & o & -> & H1 & _ & H3).
  unfold passes_on in H3. destruct (lo_step s1) as [ | | | | | | | | |st1 t0 a sg str ti| | | | | | | |] eqn:P; try discriminate H3.
  destruct op as [[]| | | |]; try discriminate H3. destruct (nth_error (sm_heap (sh_sm (lo_sh s1))) a) as [cell|] eqn:Q; [|discriminate H3].
  destruct (sg_notified cell); [discriminate H3|]. exists pre, post, s1, tr1, ins1, st1, t0, a, sg, str, ti, cell. auto 10.
Qed.
Print Assumptions C99_cancelled_only_with_its_job.

(** Non-vacuity: a step whose command prints two lines and exits with 3; and a job cancelled while the command runs. *)
Definition loc_conf (rc : run_context) : xconf := runner_conf (fun _ => "") "linux" "x86_64" "/w" rc.
Definition loc_host : step := Step (StepId "w" "j" 0) None None (Some (ContainerOptions "host/linux" None None)) "make" false [] [] (Duration 60 0).
Definition loc_start : list lop :=
  [LWorld (ESig (MRegister (JobId "w" "j"))); LEngine (OpBefore c26_hooks); LEngine OpNext; LEngine OpNext; LEngine OpNext; LEngine OpNext; LEngine OpNext;
   LSpawn; LRunner XIGo; LEngine (OpAnswer true); LRunner (XIFs true); LEngine OpNext; LEngine OpNext; LRunner (XICmd (CISpawn true)); LRunner (XICmd (CIOut (RdLine "a")))].
Definition loc_exit : list lop := loc_start ++
  [LEngine OpStream; LSender; LRunner (XICmd (CIErr (RdLine "b"))); LEngine OpStream; LSender; LEngine OpNext; LRunner (XICmd (CIOut RdEof)); LEngine OpNext; LEngine OpNext;
   LRunner (XICmd (CIExit (Some 3%Z))); LEngine OpStream; LEngine OpNext; LSender; LEngine OpNext; LEngine OpNext; LEngine OpStream; LSender; LEngine OpStream; LEngine OpNext;
   LEngine OpNext; LEngine OpNext; LEngine OpNext].
Definition loc_cancel : list lop := loc_start ++
  [LSender; LWorld (ESig (MCancelGet 7 (JobId "w" "j"))); LWorld (ESig (MCancelFire 7)); LEngine OpJobSignal; LEngine OpNext; LRunner XITake; LSender; LSender;
   LRunner (XIFs true); LEngine OpStream; LEngine OpNext; LEngine OpNext; LEngine OpNext; LEngine OpStream; LRunner XIGo; LEngine OpNext; LEngine OpNext; LEngine OpNext; LEngine OpNext].
Lemma lexec_lrun cx me rhooks conf st0 more : forall ops s tr s' o, lrun cx me rhooks conf st0 ops s tr -> lexec cx me rhooks conf s more = Some (s', o) ->
  lrun cx me rhooks conf st0 (ops ++ more) s' (tr ++ o).
Proof.
  induction more as [|op more IH]; intros ops s tr s' o R E; cbn [lexec] in E; [injection E as <- <-; rewrite !app_nil_r; exact R|].
  destruct (lstep cx me rhooks conf s op) as [[s1 o1]|] eqn:E1; [|discriminate]. destruct (lexec cx me rhooks conf s1 more) as [[s2 o2]|] eqn:E2; [|discriminate]. injection E as <- <-.
  change (op :: more) with ([op] ++ more). rewrite !app_assoc. eapply IH; [|exact E2]. eapply lrun_step; eassumption.
Qed.
Example C99_nonvacuous :
  (exists s tr r, lrun c26_cx 0 (fun c => c) loc_conf loc_host loc_exit s tr /\ lo_step s = SpDone r /\ sr_state r = Failed /\ sr_exit_code r = Some 3%Z /\
     task_logs tr = [log_log "a"; log_error "b"]) /\
  (exists s tr r, lrun c26_cx 0 (fun c => c) loc_conf loc_host loc_cancel s tr /\ lo_step s = SpDone r /\ sr_state r = Cancelled /\ task_logs tr = [log_log "a"]).
Proof.
  split; do 3 eexists; (split; [apply (lexec_lrun _ _ _ _ _ _ [] (LState (Shared 0%N sm_init None) (SpBefore loc_host) None) []); [apply (lrun_init _ _ _ _ _ (Shared 0%N sm_init None))|vm_compute; reflexivity]|]); repeat split; reflexivity.
Qed.

(** C100. After a step the runner cleans up (removes the step's directory, calls on_after_run) exactly unless the command exited by itself before the task
    noticed a signal; and once the step is done no signal can be raised any more, so in that case it never will, whatever happens later. *)
Theorem C100_after_run : forall cx me rhooks conf st0 ops s tr ins t, lhist cx me rhooks conf st0 ops s tr ins -> lo_task s = Some t ->
  settled (lt_conf t) (lt_x t) -> (In EfAfterRun (task_effects tr) <-> ~ (command_exited ins /\ ~ In XITake ins)).
Proof.
  intros cx me rhooks conf st0 ops s tr ins t H T S. apply lhist_inv in H as [_ _ _ _ Htask]. destruct (Htask t T) as (X & _). eapply x_after_iff; eassumption.
Qed.
Print Assumptions C100_after_run.
Theorem C100_done_is_final : forall cx me rhooks conf st0 ops s tr ins r more s' o, lhist cx me rhooks conf st0 ops s tr ins -> lo_step s = SpDone r ->
  lexec cx me rhooks conf s more = Some (s', o) ->
  lo_step s' = SpDone r /\ engine_events o = [] /\ exists ins', lhist cx me rhooks conf st0 (ops ++ more) s' (tr ++ o) (ins ++ ins') /\ raised ins' = [].
Proof.
  intros cx me rhooks conf st0 ops s tr ins r more s' o H D E. destruct (done_more _ _ _ _ _ _ _ _ _ D E) as [D' He].
  split; [exact D'|]. split; [exact He|]. eapply done_raises_nothing; eassumption.
Qed.
Print Assumptions C100_done_is_final.
Theorem C100_never_cleaned : forall cx me rhooks conf st0 ops s tr ins r more s' o, lhist cx me rhooks conf st0 ops s tr ins -> lo_step s = SpDone r ->
  command_exited ins -> raised ins = [] -> lexec cx me rhooks conf s more = Some (s', o) ->
  ~ In EfAfterRun (task_effects (tr ++ o)) /\ exists t, lo_task s' = Some t /\ left_behind (xc_dir (lt_conf t)) (task_effects (tr ++ o)).
Proof.
  intros cx me rhooks conf st0 ops s tr ins r more s' o H D Hx Hr E. destruct (done_raises_nothing _ _ _ _ _ _ _ _ _ _ _ _ _ H D E) as (ins' & H' & Hr').
  destruct (done_more _ _ _ _ _ _ _ _ _ D E) as [D' _]. destruct (result_of_run _ _ _ _ _ _ _ _ _ _ H' D') as (t & _ & _ & T & _ & _ & _ & X & _).
  assert (Hx' : command_exited (ins ++ ins')) by (destruct Hx as [code Hx]; exists code; apply in_or_app; left; exact Hx).
  assert (Hr2 : raised (ins ++ ins') = []) by (rewrite raised_app, Hr, Hr'; reflexivity).
  assert (Hs : xs_signal (lt_x t) = None) by (rewrite (x_first_signal _ _ _ _ X), Hr2; reflexivity).
  assert (Hn : ~ In XITake (ins ++ ins')).
  { assert (G : forall c i x t', xrun c i x t' -> raised i = [] -> ~ In XITake i); [|eapply G; eassumption].
    clear. induction 1 as [|i x t' j x' o R IH E]; [intros _ []|]. rewrite raised_app. intros K C. apply app_eq_nil in K as [K1 K2].
    apply in_app_iff in C as [C|[C|[]]]; [exact (IH K1 C)|]. subst j. assert (Fs := x_first_signal _ _ _ _ R). rewrite K1 in Fs.
    apply xstep_trans in E. inv E; discriminate Fs. }
  assert (P := x_not_taken _ _ _ _ X Hx' Hn).
  assert (S : settled (lt_conf t) (lt_x t)) by (apply settled_iff; right; exists true; auto).
  split; [intros C; apply (x_after_iff _ _ _ _ X S) in C; apply C; auto|]. exists t. split; [exact T|].
  assert (Sh := x_shape _ _ _ _ X). unfold shape in Sh. rewrite P in Sh. destruct Sh as (mid & Et & F).
  exists [], (entry_write (lt_conf t) ++ mid). split; [exact Et|]. intros C.
  assert (G : Forall calm (entry_write (lt_conf t) ++ mid)) by (apply Forall_app; split; [apply entry_write_calm|exact F]).
  destruct (calm_not_after _ G) as [_ G2]. apply (G2 (xc_dir (lt_conf t))). auto.
Qed.
Print Assumptions C100_never_cleaned.
Example C100_nonvacuous : exists s tr ins r, lhist c26_cx 0 (fun c => c) loc_conf loc_host loc_exit s tr ins /\ lo_step s = SpDone r /\ command_exited ins /\ raised ins = [].
Proof.
  destruct C99_nonvacuous as [(s & tr & r & R & D & _) _]. apply C99_histories in R as [ins H]. exists s, tr, ins, r. split; [exact H|]. split; [exact D|].
  assert (K : forall ops s tr ins, lhist c26_cx 0 (fun c => c) loc_conf loc_host ops s tr ins -> (forall i, In (LRunner i) ops -> In i ins)).
  { clear. induction 1 as [|ops s tr ins op s' o R IH E]; [intros i []|]. intros i Hi. apply in_app_iff in Hi as [Hi|[->|[]]]; apply in_or_app; [left; auto|right; left; reflexivity]. }
  split; [exists (Some 3%Z); eapply K; [exact H|vm_compute; tauto]|].
  assert (G : forall g, ~ In (XISignal g) ins).
  { intros g C. destruct (raised_from _ _ _ _ _ _ _ _ _ _ H C) as (pre & op & post & s1 & tr1 & ins1 & s2 & o & Eo & _ & _ & P).
    assert (Hin : In op loc_exit) by (rewrite Eo; apply in_or_app; right; left; reflexivity). unfold passes_on in P.
    destruct (lo_step s1); try discriminate P. destruct op as [[]| | | |]; try discriminate P; cbn in Hin; intuition discriminate. }
  destruct (raised ins) as [|g l] eqn:Eg; [reflexivity|]. destruct (G g). apply (raised_hist _ _ _ _ _ _ _ _ _ H). rewrite Eg. left. reflexivity.
Qed.

(** C101. Once the task has decided its result, the step can always be brought to its end with that result: all that is needed is that the task's call on
    the stream completes and that the engine goes on reading; nothing in the system can prevent it. *)
Theorem C101_result_arrives : forall cx me rhooks conf st0 ops s tr ins t rr, lhist cx me rhooks conf st0 ops s tr ins -> lo_task s = Some t ->
  xs_result (lt_x t) = Some rr ->
  exists more s' o r, Forall (fun op => op = LSender \/ op = LEngine OpNext \/ op = LEngine OpStream \/ op = LEngine (OpAnswer true)) more /\
    lexec cx me rhooks conf s more = Some (s', o) /\ lo_step s' = SpDone r /\ mirrors rr r.
Proof. exact result_always_arrives. Qed.
Print Assumptions C101_result_arrives.
(** The task has decided when it has come to rest, and it comes to rest after at most 11 actions besides reading lines. *)
Theorem C101_task_decides : forall cx me rhooks conf st0 ops s tr ins t, lhist cx me rhooks conf st0 ops s tr ins -> lo_task s = Some t ->
  (settled (lt_conf t) (lt_x t) -> exists rr, xs_result (lt_x t) = Some rr /\ verdict None false ins = Some rr) /\
  length (filter (fun i => negb (is_signal i) && negb (is_line i)) ins) <= 11.
Proof.
  intros cx me rhooks conf st0 ops s tr ins t H T. apply lhist_inv in H as [_ _ _ _ Htask]. destruct (Htask t T) as (X & _). split.
  - intros S. assert (Rp := x_result_phase _ _ _ _ X). assert (V := x_verdict _ _ _ _ X).
    apply settled_iff in S as [S|(ok & S & _)]; rewrite S in Rp, V; [|destruct ok; [|contradiction]];
      (destruct (xs_result (lt_x t)) as [rr|]; [exists rr; auto|destruct (Rp eq_refl)]).
  - assert (B := x_bounded _ _ _ _ X). lia.
Qed.
Print Assumptions C101_task_decides.
Example C101_nonvacuous : exists s tr ins t, lhist c26_cx 0 (fun c => c) loc_conf loc_host (firstn 25 loc_exit) s tr ins /\ lo_task s = Some t /\ xs_result (lt_x t) = Some (RFailed 3) /\
  lt_pending t <> [].
Proof.
  assert (R : exists s tr, lrun c26_cx 0 (fun c => c) loc_conf loc_host (firstn 25 loc_exit) s tr /\ exists t, lo_task s = Some t /\ xs_result (lt_x t) = Some (RFailed 3) /\ lt_pending t <> []).
  { do 2 eexists. split; [apply (lexec_lrun _ _ _ _ _ _ [] (LState (Shared 0%N sm_init None) (SpBefore loc_host) None) []); [apply (lrun_init _ _ _ _ _ (Shared 0%N sm_init None))|vm_compute; reflexivity]|]. eexists. split; [reflexivity|]. split; [reflexivity|]. discriminate. }
  destruct R as (s & tr & R & t & H1 & H2 & H3). apply C99_histories in R as [ins H]. eauto 10.
Qed.
