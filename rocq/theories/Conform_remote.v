(** The repository's tests of remote runners (crates/remote-runner/tests/signals.rs, test.rs) as runs of the model of engine, client, scheduler and servers: the schedule a test produces, with
    the sleeps as passing time and the test's runner on the server doing what its code does; and, where nothing but the configuration decides, for every schedule. *)
From Verif Require Import Base Types Signals_model Stream_model Cond_model Config_model Serde_model Yaml_model Plugins_model Exec_model Exec_spec Workflow_model Workflow_spec Sched_model Remote_model
  Distant_model System_model System_spec Fleet_model Fleet_spec Dispatch_model Dispatch_spec Worker_model Chain_model Farm_model Farm_spec Outcome_spec Outcome_props Conform_config Conform_engine Unplaced_props.

(** The server of the tests: id "test-runner", at most five runs; it always runs on its host, and containers if docker is there. *)
Definition t_server (docker : bool) : runner_meta := server_metadata "test-runner" 5 docker true "linux" "x86_64".
Definition t_step (run : string) (more : list (string * node)) : node := t_fields (("run", t_pl run) :: more).
Definition t_host : string * node := ("container", t_pl "host/linux").
Definition t_jobs (steps : list node) : node := jobs_of [("test", t_fields [("steps", NSeq steps)])].

Definition of_run (l : list (sysop (iop := dop))) : list pop := map (fun op => PFleet (FRunOp 0 op)) l.
(** The job task up to its first step; a step up to its call of the scheduler; from the answer to where the engine waits; the messages of the server's runner; the step's end and the next one's start. *)
Definition d_start (wf : workflow) (connect : list pop) : list pop := [PFleet (FContext e_cx)] ++ connect ++ [PFleet (FStart 0 wf)] ++ of_run (repeat (YFlow WMain) 6 ++ repeat (YFlow (WTaskOp 0 JNext)) 6).
Definition d_step : list pop := of_run (map (fun o => YStep 0 (DEngine o)) (OpBefore no_plugins :: repeat OpNext 5)).
Definition d_wait : list pop := of_run (map (YStep 0) [DEngine (OpAnswer true); DRemote (RiAnswer None); DEngine OpNext; DEngine OpNext]).
Definition d_log (m : string) : list pop := of_run (map (YStep 0) [DRemote (RiLog (log_log m)); DRemote RiDeliver; DSender; DEngine OpStream; DEngine OpNext; DEngine OpNext; DEngine OpNext]).
Definition d_ends (r : run_result) : list pop := of_run (map (YStep 0) ([DRemote (RiResult r); DRemote RiDeliver; DSender; DSender; DEngine OpStream] ++ repeat (DEngine OpNext) 4) ++ repeat (YFlow (WTaskOp 0 JNext)) 2).
Definition d_end : list pop := of_run (repeat (YFlow (WTaskOp 0 JNext)) 3 ++ [YFlow (WSend 0)] ++ repeat (YFlow WMain) 4).
Definition d_waits (n : N) : list pop := [PFleet (FTick (n * second))].
(** The schedule [ops] of the workflow built from [doc] brings it to its end with result [r] and logs such that [P]. *)
Definition remote_runs (doc : node) (ops : workflow -> list pop) (P : workflow_run_result -> list string -> Prop) : Prop :=
  exists wf d tr r, e_build doc = Ok wf /\ pexec (fun t => t + 100) (fun _ => None) (pinit 0%N) (ops wf) = Some (d, tr) /\
    (exists s, run_at (dp_fleet d) 0 e_cx wf s /\ ws_main (sy_w s) = WpDone r) /\
    P r (flat_map (fun e => match e with PSeen _ (_, inr (OHook (HLog l))) => [wl_message l] | _ => [] end) tr).
Ltac by_remote := do 4 eexists; split; [vm_compute; reflexivity|]; split; [vm_compute; reflexivity|]; split; [eexists; split; [do 2 eexists; repeat (split; [reflexivity|]); reflexivity|reflexivity]|].

(** *** signals.rs:40-123 [test_signal]: the server's runner is done after one second. *)
Example test_remote_signal : remote_runs (t_jobs [t_step "Hello World" [t_host; ("timeout", t_pl "2s")]])
  (fun wf => d_start wf [PConnect (Reports (t_server false))] ++ d_step ++ [PAsk 0 0 [t_server false]; PLock 0] ++ d_wait ++ d_waits 1 ++ d_ends RSucceeded ++ d_end) (fun r _ => wr_state r = Succeeded).
Proof. by_remote. reflexivity. Qed.
(** :125-213 [test_timeout]: the step's timer fires after two seconds, the client hands the signal on, the server's runner ends with 123. *)
Definition d_signal (s : signal) : list pop := of_run [YStep 0 (DEngine OpNext); YStep 0 (DRemote (RiSignal s None))].
Example test_remote_timeout : remote_runs (t_jobs [t_step "Hello World" [t_host; ("timeout", t_pl "2s")]])
  (fun wf => d_start wf [PConnect (Reports (t_server false))] ++ d_step ++ [PAsk 0 0 [t_server false]; PLock 0] ++ d_wait ++ d_waits 2 ++ of_run [YStep 0 (DEngine OpTimer)] ++ d_signal SigTimeout ++
     d_ends (RFailed 123) ++ d_end) (fun r _ => wr_state r = Failed /\ codes r = [Some 123%Z]).
Proof. by_remote. split; reflexivity. Qed.
(** :215-312 [test_cancel]: the job is cancelled after one second. *)
Example test_remote_cancel : remote_runs (t_jobs [t_step "Hello World" [t_host; ("timeout", t_pl "2s")]])
  (fun wf => d_start wf [PConnect (Reports (t_server false))] ++ d_step ++ [PAsk 0 0 [t_server false]; PLock 0] ++ d_wait ++ d_waits 1 ++ [PFleet (FLook 0 job_id0); PFleet (FFire 0)] ++
     of_run [YStep 0 (DEngine OpJobSignal)] ++ d_signal SigCancel ++ d_ends RCancelled ++ d_end) (fun r _ => wr_state r = Cancelled).
Proof. by_remote. reflexivity. Qed.
(** *** test.rs:106-225 [test_run]: one step on the host, one in a container; with docker at the server and without. *)
Definition t_two : node := t_jobs [t_step "Hello World" [t_host]; t_step "Hello World1" []].
Example test_remote_run_docker : remote_runs t_two
  (fun wf => d_start wf [PConnect (Reports (t_server true))] ++ d_step ++ [PAsk 0 0 [t_server true]; PLock 0] ++ d_wait ++ d_log "Hello World" ++ d_ends RSucceeded ++
     d_step ++ [PAsk 0 0 [t_server true]; PLock 1; PLock 1] ++ d_wait ++ d_log "Hello World1" ++ d_ends RSucceeded ++ d_end) (fun r l => wr_state r = Succeeded /\ l = ["Hello World"; "Hello World1"]).
Proof. by_remote. split; reflexivity. Qed.
Definition d_no_runner : list pop := of_run (map (YStep 0) ([DSender; DSender; DSender; DEngine (OpAnswer true); DEngine OpNext; DEngine OpNext; DEngine OpStream; DEngine OpNext; DEngine OpNext; DEngine OpNext; DEngine OpStream] ++
  repeat (DEngine OpNext) 4) ++ repeat (YFlow (WTaskOp 0 JNext)) 2).
Example test_remote_run_no_docker : remote_runs t_two
  (fun wf => d_start wf [PConnect (Reports (t_server false))] ++ d_step ++ [PAsk 0 0 [t_server false]; PLock 0] ++ d_wait ++ d_log "Hello World" ++ d_ends RSucceeded ++
     d_step ++ [PAsk 0 0 [t_server false]; PLock 1] ++ d_no_runner ++ d_end) (fun r l => wr_state r = Failed /\ l = ["Hello World"; "No runner available"]).
Proof. by_remote. split; reflexivity. Qed.
(** :227-254 [no_available_runners], 256-296 [connect_to_invalid_url]. *)
Example test_no_available_runners : remote_runs (t_jobs [t_step "Hello World" []])
  (fun wf => d_start wf [] ++ d_step ++ [PAsk 0 0 []; PLock 0] ++ d_no_runner ++ d_end) (fun r l => wr_state r = Failed /\ l = ["No runner available"]).
Proof. by_remote. split; reflexivity. Qed.
Example test_connect_to_invalid_url : remote_runs (t_jobs [t_step "Hello World" []])
  (fun wf => d_start wf [PConnect Unreachable] ++ d_step ++ [PAsk 0 0 []; PLock 0] ++ d_no_runner ++ d_end) (fun r l => wr_state r = Failed /\ l = ["No runner available"]).
Proof. by_remote. split; reflexivity. Qed.
(** The same for every schedule, any number of other runs, any plugins: as long as no connection succeeds. *)
Example no_available_runners_always : exists wf, e_build (t_jobs [t_step "Hello World" []]) = Ok wf /\
  forall cl sv rhooks conf glob now ops q tr k cx s r matches, farm_run cl sv rhooks conf glob now ops q tr -> farm_connected ops = [] -> named (fm_fleet q) -> run_at (fm_fleet q) k cx wf s -> ws_main (sy_w s) = WpDone r ->
    conditions_as matches (flow_of (chained cx cl sv rhooks conf) (run_events k (farm_seen tr))) -> wr_state r = Failed.
Proof.
  eexists. split; [vm_compute; reflexivity|]. intros cl sv rhooks conf glob now ops q tr k cx s r matches R Hc Hn Ha Em Hm.
  destruct (C151_unplaced _ _ _ _ _ _ _ _ _ k R Hn) as [_ H]; [eapply C151_no_runner; [exact R|]; rewrite Hc; intros ? []|]. destruct (H _ _ _ _ Ha Em) as [_ K]. destruct (K matches Hm) as [O Nc].
  unfold outcome in O. cbn [allowed wf_on] in O. destruct O as (_ & _ & [[N _]|[[B|B] _]]); [|exact B|destruct (Nc B)]. exfalso. eapply N; [left; reflexivity|]. left. reflexivity.
Qed.
