(** C112: a step on a remote runner whose server has the built-in runner, from the engine's call to the command and back. *)
From Verif Require Import Base Types Signals_model Signals_proof Stream_model Stream_spec Stream_proof Cond_model Plugins_model Plugins_spec
  Exec_model Exec_spec Step_proof Timing_proof Step_props Runner_model Runner_spec Runner_proof Sched_model Remote_model Remote_spec Remote_proof Local_model Local_spec Local_proof Local_props
  Distant_model Distant_spec Distant_proof Distant_live Distant_props Finish_spec Finish_step Worker_model Worker_spec Worker_proof Worker_live.

(** Every execution has its parts: the engine, client and transport, the signals handed to the step, and the executor's history. *)
Theorem C112_histories : forall cx me cl sv rhooks conf st0 ops s tr,
  krun cx me cl sv rhooks conf st0 ops s tr <-> exists dops gs ins, khist cx me cl sv rhooks conf st0 ops s tr dops gs ins.
Proof.
  intros. split.
  - induction 1 as [sh|ops s tr op s' o R (dops & gs & ins & IH) E]; [exists [], [], []; constructor|]. do 3 eexists. eapply khist_step; eassumption.
  - intros (dops & gs & ins & H). induction H as [sh|ops s tr dops gs ins op s' o R IH E]; [constructor|]. eapply krun_step; eassumption.
Qed.
Print Assumptions C112_histories.
(** The engine with its client is an execution of C102-C104; what runs on the server is an execution of the built-in runner's task (C47-C58, C95-C98), for the step as the
    engine's hooks and then the plugins of the server that the scheduler chose left it, with that server's configuration; before the call arrives nothing runs. *)
Theorem C112_layers : forall cx me cl sv rhooks conf st0 ops s tr dops gs ins, khist cx me cl sv rhooks conf st0 ops s tr dops gs ins ->
  dhist cx me cl st0 dops (k_d s) (k_events tr) gs /\
  match k_w s with
  | Some w => xrun (wk_conf w) ins (wk_x w) (k_effects tr) /\ exists st srv, hooked st0 st /\ In (ORun (given cx st)) (k_events tr) /\ sent_to ops srv /\ wk_conf w = conf srv (rhooks srv (given cx st))
  | None => ins = [] /\ k_effects tr = []
  end.
Proof.
  intros cx me cl sv rhooks conf st0 ops s tr dops gs ins H. assert (K := H). apply khist_inv in K as [Hd Hctx _ Hnone Hw _]. split; [exact Hd|]. destruct (k_w s) as [w|].
  - destruct (Hw w eq_refl) as (X & (rc & srv & Hrc & Hc) & _). split; [exact X|]. destruct (Hctx rc srv Hrc) as (st & A & -> & B). exists st, srv. split; [exact A|]. split; [exact B|].
    split; [exact (ctx_sent _ _ _ _ _ _ _ _ _ _ _ _ _ H _ _ Hrc)|exact Hc].
  - destruct (Hnone eq_refl) as (A & B & _). auto.
Qed.
Print Assumptions C112_layers.
(** The scheduler is asked at most once for the step, so the call goes to one server. *)
Theorem C112_one_server : forall cx me cl sv rhooks conf st0 ops s tr dops gs ins, khist cx me cl sv rhooks conf st0 ops s tr dops gs ins ->
  length (filter (fun op => match op with KFlow (DPick _ _) => true | _ => false end) ops) <= 1 /\ forall a b, sent_to ops a -> sent_to ops b -> a = b.
Proof.
  intros cx me cl sv rhooks conf st0 ops s tr dops gs ins H. split; [exact (proj2 (picks_once _ _ _ _ _ _ _ _ _ _ _ _ _ H))|]. intros a b. exact (sent_once _ _ _ _ _ _ _ _ _ _ _ _ _ a b H).
Qed.
Print Assumptions C112_one_server.
(** What the server has sent is always the first part of what the executor said: its lines in order, then its result. *)
Theorem C112_relay : forall cx me cl sv rhooks conf st0 ops s tr dops gs ins, khist cx me cl sv rhooks conf st0 ops s tr dops gs ins ->
  exists rest, says (k_effects tr) = server_sent (remote_events dops) ++ rest.
Proof. intros; eapply relayed; eassumption. Qed.
Print Assumptions C112_relay.

(** The result of the step. Either no runner was available and nothing ran anywhere; or the step has the executor's result and all of its log lines in order, to which only
    a failure of the connection can add a line; or there was a failure, the step failed with code 1, and its log is the first part of the executor's and one line about the failure. *)
Theorem C112_result : forall cx me cl sv rhooks conf st0 ops s tr dops gs ins r, khist cx me cl sv rhooks conf st0 ops s tr dops gs ins -> ds_step (k_d s) = SpDone r ->
  (the_remote (k_d s) = None /\ mirrors (RFailed 1) r /\ delivered (k_events tr) = [log_error "No runner available"] /\ ins = [] /\ k_effects tr = []) \/
  (exists w st srv rr, k_w s = Some w /\ hooked st0 st /\ In (ORun (given cx st)) (k_events tr) /\ sent_to ops srv /\ wk_conf w = conf srv (rhooks srv (given cx st)) /\
     xrun (wk_conf w) ins (wk_x w) (k_effects tr) /\ verdict None false ins = Some rr /\ mirrors rr r /\
     exists line, delivered (k_events tr) = Local_spec.logs_of (k_effects tr) ++ line /\ (clean (remote_events dops) -> line = [])) \/
  (~ clean (remote_events dops) /\ mirrors (RFailed 1) r /\
     exists ls rest e, Local_spec.logs_of (k_effects tr) = ls ++ rest /\ delivered (k_events tr) = ls ++ [log_error e]).
Proof. intros; eapply worker_result; eassumption. Qed.
Print Assumptions C112_result.

(** At most one signal reaches the executor, and it is the first the engine handed to the step. *)
Theorem C112_signal_once : forall cx me cl sv rhooks conf st0 ops s tr dops gs ins, khist cx me cl sv rhooks conf st0 ops s tr dops gs ins ->
  raised ins = [] \/ exists g rest, gs = g :: rest /\ raised ins = [g].
Proof. intros; eapply heard_once; eassumption. Qed.
Print Assumptions C112_signal_once.
(** Unless another call with the same step id, or the completion of that step, took its entry from the server's table, the signal that the client passed on has reached the executor. *)
Theorem C112_signal_arrives : forall cx me cl sv rhooks conf st0 ops s tr dops gs ins g, khist cx me cl sv rhooks conf st0 ops s tr dops gs ins -> ~ In KForget ops ->
  In (RiSignal g None) (remote_events dops) -> raised ins = [g].
Proof. intros; eapply heard_when_told; eassumption. Qed.
Print Assumptions C112_signal_arrives.
(** The step ends Cancelled only if the executor got Cancel, which the engine handed on when it found its job's signal raised to Cancel. *)
Theorem C112_cancelled : forall cx me cl sv rhooks conf st0 ops s tr dops gs ins r, khist cx me cl sv rhooks conf st0 ops s tr dops gs ins -> ds_step (k_d s) = SpDone r ->
  sr_state r = Cancelled -> raised ins = [SigCancel] /\
  exists pre post s1 tr1 gs1 st t0 a sg str ti cell, dops = pre ++ DEngine OpJobSignal :: post /\ dhist cx me cl st0 pre s1 tr1 gs1 /\ ds_step s1 = SpLoop st t0 a sg str ti /\
    nth_error (sm_heap (sh_sm (ds_sh s1))) a = Some cell /\ sg_signal cell = Some SigCancel.
Proof.
  intros cx me cl sv rhooks conf st0 ops s tr dops gs ins r H D C. destruct (cancelled_why _ _ _ _ _ _ _ _ _ _ _ _ _ _ H D C) as (E & rest & Eg). split; [exact E|].
  destruct (C112_layers _ _ _ _ _ _ _ _ _ _ _ _ _ H) as (Hd & _).
  destruct (C103_origin _ _ _ _ _ _ _ _ SigCancel Hd) as (pre & post & s1 & tr1 & gs1 & st & t0 & a & sg & str & ti & H1 & H2 & [(_ & Z)|(Z & cell & Z1 & Z2)]); [rewrite Eg; left; reflexivity|discriminate|].
  exists pre, post, s1, tr1, gs1, st, t0, a, sg, str, ti, cell. auto.
Qed.
Print Assumptions C112_cancelled.

(** Once the executor has a result and while the client has not given up, the step gets that result: calls complete, the server's task reads and sends, and the wire delivers. *)
Theorem C112_decided : forall cx me cl sv rhooks conf st0 ops s tr dops gs ins w rm rr, khist cx me cl sv rhooks conf st0 ops s tr dops gs ins ->
  k_w s = Some w -> xs_result (wk_x w) = Some rr -> the_remote (k_d s) = Some rm -> r_client rm <> RDone ->
  exists more s' o r, Forall settling more /\ kexec cx me cl sv rhooks conf s more = Some (s', o) /\ ds_step (k_d s') = SpDone r /\ mirrors rr r.
Proof.
  intros cx me cl sv rhooks conf st0 ops s tr dops gs ins w rm rr H W Hx Hr Hc. destruct (remote_task _ _ Hr) as (sg & pd & Ht).
  destruct (decided_call cx me cl sv rhooks conf st0 settling rr (fun op p => p) _ _ _ _ _ _ _ _ _ _ _ H W Hx Ht eq_refl Hc) as (more & s' & o & Hm & X & r & D & M). exists more, s', o, r. auto.
Qed.
Print Assumptions C112_decided.
(** From wherever it is, the step comes to an end (or to the panic of a step whose job is not registered, C03) when what is still running goes on and nothing further comes from outside. *)
Theorem C112_ends : forall cx me cl sv rhooks conf st0 ops s tr dops gs ins, khist cx me cl sv rhooks conf st0 ops s tr dops gs ins ->
  forall c clients pick code, client_start clients pick <> None ->
  exists more s' o, Forall (plain_worker c clients pick code) more /\ kexec cx me cl sv rhooks conf s more = Some (s', o) /\
    ((exists r, ds_step (k_d s') = SpDone r) \/ exists why, ds_step (k_d s') = SpPanic why).
Proof. intros cx me cl sv rhooks conf st0 ops s tr dops gs ins H c clients pick code Hp. exact (worker_ends_from cx me cl sv rhooks conf st0 c clients pick code Hp _ _ _ _ _ _ _ H (Nat.le_refl _)). Qed.
Print Assumptions C112_ends.

Definition wk_flow (l : list dop) : list kop := map KFlow l.
Definition wk_start : list kop :=
  wk_flow [DWorld (ESig (MRegister (JobId "w" "j"))); DEngine (OpBefore c26_hooks); DEngine OpNext; DEngine OpNext; DEngine OpNext; DEngine OpNext; DEngine OpNext;
           DPick [("r", far_runner)] (Some far_runner)] ++
  [KArrive; KExec XIGo] ++ wk_flow [DEngine (OpAnswer true)] ++ [KExec (XIFs true); KExec (XICmd (CISpawn true)); KExec (XICmd (CIOut (RdLine "a"))); KSender; KForward] ++
  wk_flow [DRemote (RiAnswer None); DEngine OpNext; DEngine OpNext] ++ [KForward; KForward] ++ wk_flow [DRemote RiDeliver; DSender].
(** the command prints a line and exits with 3 *)
Definition wk_exit : list kop := wk_start ++
  [KExec (XICmd (CIOut RdEof)); KExec (XICmd (CIExit (Some 3%Z))); KSender; KSender; KForward; KForward] ++ wk_flow [DRemote RiDeliver; DSender; DSender] ++ wk_flow far_finish.
(** the job is cancelled *)
Definition wk_cancel : list kop := wk_start ++
  wk_flow [DWorld (ESig (MCancelGet 7 (JobId "w" "j"))); DWorld (ESig (MCancelFire 7)); DEngine OpJobSignal; DEngine OpNext; DRemote (RiSignal SigCancel None)] ++
  [KExec XITake; KSender; KSender; KForward; KForward] ++ wk_flow [DRemote RiDeliver; DSender; DSender] ++ wk_flow far_finish.
(** the connection breaks before the command exits *)
Definition wk_broken : list kop := wk_start ++
  wk_flow [DRemote (RiBroken "reset")] ++ [KExec (XICmd (CIOut (RdLine "b"))); KSender; KForward; KForward] ++ wk_flow ([DSender; DSender; DSender; DEngine OpStream; DEngine OpNext; DEngine OpNext; DEngine OpNext] ++ far_finish).
Lemma kexec_krun cx me cl sv rhooks conf st0 more : forall ops s tr s' o, krun cx me cl sv rhooks conf st0 ops s tr -> kexec cx me cl sv rhooks conf s more = Some (s', o) ->
  krun cx me cl sv rhooks conf st0 (ops ++ more) s' (tr ++ o).
Proof.
  induction more as [|op more IH]; intros ops s tr s' o R E; cbn [kexec] in E; [injection E as <- <-; rewrite !app_nil_r; exact R|].
  destruct (kstep cx me cl sv rhooks conf s op) as [[s1 o1]|] eqn:E1; [|discriminate]. destruct (kexec cx me cl sv rhooks conf s1 more) as [[s2 o2]|] eqn:E2; [|discriminate]. injection E as <- <-.
  change (op :: more) with ([op] ++ more). rewrite !app_assoc. eapply IH; [|exact E2]. eapply krun_step; eassumption.
Qed.
Definition wk_at0 : kstate := KState (DState (Shared 0%N sm_init None) (SpBefore loc_host) None) None None [].
Notation wk_run := (krun c26_cx 0 1 2 (fun _ c => c) (fun _ => loc_conf) loc_host).
Ltac wk := do 3 eexists; (split; [apply (kexec_krun _ _ _ _ _ _ _ _ [] wk_at0 []); [apply (krun_init _ _ _ _ _ _ _ (Shared 0%N sm_init None))|vm_compute; reflexivity]|]); repeat split; reflexivity.
Example C112_nonvacuous :
  (exists s tr r, wk_run wk_exit s tr /\ ds_step (k_d s) = SpDone r /\ sr_state r = Failed /\ sr_exit_code r = Some 3%Z /\ delivered (k_events tr) = [log_log "a"]) /\
  (exists s tr r, wk_run wk_cancel s tr /\ ds_step (k_d s) = SpDone r /\ sr_state r = Cancelled) /\
  (exists s tr r, wk_run wk_broken s tr /\ ds_step (k_d s) = SpDone r /\ sr_state r = Failed /\ sr_exit_code r = Some 1%Z /\
     delivered (k_events tr) = [log_log "a"; log_error "Failed to run: reset"] /\ Local_spec.logs_of (k_effects tr) = [log_log "a"; log_log "b"]).
Proof. repeat split; wk. Qed.
