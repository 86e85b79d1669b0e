(** The repository's tests of running workflows (crates/astro-run/tests/signals.rs, plugin.rs; the counts of crates/remote-runner/tests/protocol.rs) as runs of the model: the schedule
    a test produces, with the sleeps as passing time and the test's runner doing what its code does. *)
From Verif Require Import Base Types Signals_model Stream_model Cond_model Config_model Serde_model Yaml_model Plugins_model Exec_model Exec_spec Workflow_model Workflow_spec Conform_config.

Definition e_time (s : string) : option duration := if eqb s "1s" then Some (Duration 1 0) else if eqb s "2s" then Some (Duration 2 0) else t_time s.
Definition e_build (doc : node) : result workflow :=
  build e_time (decode_config t_number (fun _ _ => false) (fun _ => Some doc) (fun _ => "")) no_actions (Some "id") (Some "text") "uuid".
Definition e_cx : ectx := ECtx (Matcher false None) None.
Definition e_init : wstate := winit (Shared 0%N sm_init None).
(** Hooks that answer [a] to every event, [b] to a step about to run. *)
Definition hooks (a : result unit) (b : step -> result step) : receiver unit :=
  let h {A} (_ : A) (w : unit) := (w, a) in Receiver h h h h h h h h (fun st w => (w, b st)).
Definition quiet_hooks : receiver unit := hooks (Ok tt) (fun st => Ok st).
Definition no_plugins : exec_context unit := ExecContext [] quiet_hooks None None.
Definition second : N := 1000000000.

(** The job task up to its first step, a step up to the point where the engine waits, a step that has ended up to the next one, the end of the job. *)
Definition to_job : list wop := repeat WMain 6 ++ map (WTaskOp 0) (repeat JNext 6).
Definition to_wait (c : exec_context unit) : list wop := map (WTaskOp 0) (JStep (OpBefore c) :: repeat (JStep OpNext) 5 ++ [JStep (OpAnswer true); JStep OpNext; JStep OpNext]).
Definition ends (r : run_result) : list wop :=
  map (WTaskOp 0) ([JStep (OpRunner (REndCheck 1 r)); JStep (OpRunner (REndCommit 1)); JStep OpStream] ++ repeat (JStep OpNext) 4 ++ repeat JNext 2).
Definition to_end : list wop := map (WTaskOp 0) (repeat JNext 3) ++ WSend 0 :: repeat WMain 4.
Definition one_step (fields : list (string * string)) : node := jobs_of [("test", t_fields [("steps", NSeq [t_fields (map (fun '(k, v) => (k, t_pl v)) fields)])])].
(** The schedule [ops] is one of the workflow built from [doc] and brings it to its end with result [r] such that [P]. *)
Definition runs (doc : node) (ops : list wop) (P : workflow_run_result -> trace -> Prop) : Prop :=
  exists wf s tr r, e_build doc = Ok wf /\ wexec (fun _ => None) e_cx wf e_init ops = Some (s, tr) /\ ws_main s = WpDone r /\ P r tr.
Definition codes (r : workflow_run_result) : list (option Z) := flat_map (fun '(_, j) => map sr_exit_code (jr_steps j)) (wr_jobs r).

Ltac by_run := do 4 eexists; split; [vm_compute; reflexivity|]; split; [vm_compute; reflexivity|]; split; [reflexivity|].

(** *** tests/signals.rs:36-63: the runner is done before the step's time is up. *)
Example test_signal : runs (one_step [("run", "Hello World"); ("timeout", "2s")])
  (to_job ++ to_wait no_plugins ++ WEnv (ETick second) :: ends RSucceeded ++ to_end) (fun r _ => wr_state r = Succeeded).
Proof. by_run. reflexivity. Qed.
(** :69-101: after one second the timer fires; the runner's [recv] returns [Timeout] and it fails with 123. *)
Example test_timeout : runs (one_step [("run", "Hello World"); ("timeout", "1s")])
  (to_job ++ to_wait no_plugins ++ map (WTaskOp 0) [JStep (OpRunner (RSig (OPoll 7)))] ++ WEnv (ETick second) ::
   map (WTaskOp 0) [JStep OpTimer; JStep (OpRunner (RSig (OPoll 7))); JStep OpNext] ++ ends (RFailed 123) ++ to_end)
  (fun r _ => wr_state r = Failed /\ codes r = [Some 123%Z]).
Proof. by_run. split; reflexivity. Qed.
(** When the second has not passed, the timer cannot fire. *)
Example test_timeout_not_before : exists wf, e_build (one_step [("run", "Hello World"); ("timeout", "1s")]) = Ok wf /\
  wexec (fun _ => None) e_cx wf e_init (to_job ++ to_wait no_plugins ++ WEnv (ETick (second - 1)) :: map (WTaskOp 0) [JStep OpTimer]) = None.
Proof. eexists. split; [vm_compute; reflexivity|]. vm_compute. reflexivity. Qed.
(** :103-154, 156-203: the job is cancelled from outside while its step waits; cancelling again is an error; the step's signal is raised and its runner ends the stream as cancelled. *)
Definition job_id0 := JobId "id" "test".
Definition to_cancelled : list wop := to_job ++ to_wait no_plugins ++ [WEnv (ETick second); WEnv (ESig (MCancelGet 1 job_id0)); WEnv (ESig (MCancelFire 1))].
Example test_cancel : runs (one_step [("run", "Hello World")])
  (to_cancelled ++ [WEnv (ESig (MCancelGet 2 job_id0)); WEnv (ESig (MCancelFire 2))] ++
   map (WTaskOp 0) [JStep OpJobSignal; JStep (OpRunner (RSig (OPoll 7))); JStep OpNext] ++ ends RCancelled ++ to_end)
  (fun r _ => wr_state r = Cancelled).
Proof. by_run. reflexivity. Qed.
Example test_cancel_answers : exists wf s tr, e_build (one_step [("run", "Hello World")]) = Ok wf /\
  wexec (fun _ => None) e_cx wf e_init (to_job ++ to_wait no_plugins) = Some (s, tr) /\
  let sm0 := sh_sm (ws_sh s) in let sm1 := fst (sm_step sm0 (MCancelGet 1 job_id0)) in let sm2 := fst (sm_step sm1 (MCancelFire 1)) in let sm3 := fst (sm_step sm2 (MCancelGet 2 job_id0)) in
  snd (sm_step sm1 (MCancelFire 1)) = MRes (Ok tt) /\ snd (sm_step sm3 (MCancelFire 2)) = MRes (Err (OtherError "Signal has been cancelled or timeout.")).
Proof. do 3 eexists. split; [vm_compute; reflexivity|]. split; [vm_compute; reflexivity|]. split; vm_compute; reflexivity. Qed.
(** :205-237 *)
Example test_cancel_not_started : snd (sm_step (sh_sm (ws_sh e_init)) (MCancelGet 1 job_id0)) = MRes (Err (OtherError "Job id/test not found")).
Proof. reflexivity. Qed.

(** *** tests/plugin.rs:101-130: every hook fails, one plugin's before-run hook fails, the runner's own replaces the command; the log is that command. *)
Definition err : result unit := Err (OtherError "Error").
Definition with_run (st : step) (r : string) : step :=
  Step (st_id st) (st_name st) (st_on st) (st_container st) r (st_continue_on_error st) (st_environments st) (st_secrets st) (st_timeout st).
Definition all_hooks : exec_context unit :=
  ExecContext [hooks err (fun st => Ok st); hooks (Ok tt) (fun _ => Err (OtherError "Error")); quiet_hooks] (hooks err (fun st => Ok (with_run st "Updated command"))) None None.
Definition called_with (tr : trace) : list string := flat_map (fun '(_, o) => match o with ORun c => [cmd_run (rx_command c)] | _ => [] end) tr.
Definition logged (tr : trace) : list string := flat_map (fun '(_, o) => match o with OHook (HLog l) => [wl_message l] | _ => [] end) tr.
Definition says (m : string) : list wop := map (WTaskOp 0) [JStep (OpRunner (RLog m)); JStep OpStream; JStep OpNext; JStep OpNext; JStep OpNext].
Example test_plugin : runs (one_step [("run", "Will be updated")]) (to_job ++ to_wait all_hooks ++ says "Updated command" ++ ends RSucceeded ++ to_end)
  (fun r tr => wr_state r = Succeeded /\ called_with tr = ["Updated command"] /\ logged tr = ["Updated command"]).
Proof. by_run. repeat split; reflexivity. Qed.

(** *** remote-runner/tests/protocol.rs: a job of two steps with a log each makes the 18 events the test counts ([on_run_step] is not counted there). *)
Definition counted (tr : trace) : nat := length (filter (fun '(_, o) => match o with OHook (HRunStep _) => false | OHook _ => true | _ => false end) tr).
Example test_protocol_counts : runs (jobs_of [("test", t_fields [("name", t_pl "Test Job"); ("steps", NSeq [t_fields [("run", t_pl "Hello World")]; t_fields [("run", t_pl "Hello World1")]])])])
  (to_job ++ to_wait no_plugins ++ says "echo Hello World" ++ ends RSucceeded ++ to_wait no_plugins ++ says "echo Hello World1" ++ ends RSucceeded ++ to_end)
  (fun r tr => wr_state r = Succeeded /\ logged tr = ["echo Hello World"; "echo Hello World1"] /\ counted tr = 18).
Proof. by_run. repeat split; reflexivity. Qed.
