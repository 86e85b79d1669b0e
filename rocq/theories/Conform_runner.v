(** The unit tests of crates/runner and the tests of crates/scheduler replayed on the model. *)
From Verif Require Import Base Types Ids_model Paths_model Docker_model Runner_model Sched_model.

(** *** runner/src/docker.rs *)
Example test_generate_docker_command :
  generate_docker_command (with_security_opt "seccomp=unconfined" (with_volume "/app" "/home/runner/work" (with_entrypoint "entrypoint" (with_workdir "/home/runner/work"
    (with_env "key" "value" (with_name "test" (docker_new "ubuntu")))))))
  = "docker run --tty --rm --security-opt seccomp=unconfined -v ""/app:/home/runner/work"" -e key=""value"" -w /home/runner/work --entrypoint entrypoint --name test ubuntu".
Proof. reflexivity. Qed.

(** *** runner/src/metadata.rs *)
Example test_directories_builder : build_metadata "/home/runner/work" (Some ("panghu-huang", "astro-run")) (StepId "workflow-id" "job-key" 1)
  = Metadata "/home/runner/work/panghu-huang/astro-run/workflow-id/job-key/1" "/home/runner/work/panghu-huang/astro-run/workflow-id/job-key/data"
      "/home/runner/work/panghu-huang/astro-run/caches" "/home/runner/work/panghu-huang/astro-run/workflow-id/job-key/1/entrypoint" "workflow-id-job-key-1" "/home/runner/work".
Proof. reflexivity. Qed.

(** *** runner/src/plugin.rs: the context of the test is the id of the step it names. *)
Definition rename_plugin : rplugin step_id := RPlugin step_id (fun c => match parse_step_id "abc/1/1" with Ok i => Ok i | Err e => Err e end) (fun _ => Ok tt).
Definition error_before : rplugin step_id := RPlugin step_id (fun _ => Err (OtherError "Error")) (fun _ => Ok tt).
Definition error_after : rplugin step_id := RPlugin step_id (fun c => Ok c) (fun _ => Err (OtherError "Error")).
Example test_plugin_driver : before_run _ [rename_plugin; error_before; error_after] (StepId "aaa" "1" 1) = StepId "abc" "1" 1 /\
  length (after_run_calls _ [rename_plugin; error_before; error_after] (StepId "abc" "1" 1)) = 3.
Proof. split; reflexivity. Qed.

(** *** runner/src/command.rs: what the programs of the tests do, given as inputs. *)
Fixpoint cmd_exec (p : cphase) (ins : list cinput) : option (cphase * list seff) :=
  match ins with
  | [] => Some (p, [])
  | i :: r => match cmd_step p i with Some (p', o) => match cmd_exec p' r with Some (q, o') => Some (q, o ++ o') | None => None end | None => None end
  end.
Example test_command : cmd_exec CSpawn [CISpawn true; CIOut (RdLine "hello"); CIOut RdEof; CIExit (Some 0%Z)] = Some (CDone true, [SeLog (Log LLog "hello"); SeEnd RSucceeded]).
Proof. reflexivity. Qed.
Example test_stderr_command : exists c, cmd_exec CSpawn [CISpawn true; CIErr (RdLine "no such directory"); CIErr RdEof; CIExit (Some 1%Z)]
  = Some (CDone true, [SeLog (Log LError "no such directory"); SeEnd (RFailed c)]).
Proof. eexists. reflexivity. Qed.

(** *** scheduler/tests/test.rs: the steps of one job, one after another, each scheduled, completed; then the job. *)
Fixpoint sched_exec (m : smach) (ops : list sop) : option (smach * list sev) :=
  match ops with
  | [] => Some (m, [])
  | op :: r => match smach_step m op with Some (m', o) => match sched_exec m' r with Some (m'', o') => Some (m'', o ++ o') | None => None end | None => None end
  end.
Definition returned (evs : list sev) : list (option string) := flat_map (fun e => match e with EvReturned _ _ r => [option_map rm_id r] | _ => [] end) evs.
Definition mk (id os : string) (d h : bool) : runner_meta := RunnerMeta id os "x64" d h "" 0.
Definition sid (n : N) := StepId "wf" "test" n.
Definition the_job := JobId "wf" "test".
(** A step whose call takes [n] more locks. *)
Definition one (rs : list runner_meta) (n : N) (c : option string) (locks : nat) : list sop := SBegin 0 (SchedReq rs (sid n) c) :: repeat (SNext 0) locks ++ [SStepDone (sid n)].
Definition gives (ops : list sop) (rs : list (option string)) : Prop :=
  exists evs, sched_exec (SMach sched_init []) ops = Some (SMach sched_init [], evs) /\ returned evs = rs.
Example test_default_schedule : let rs := [mk "linux-runner" "linux" true false; mk "windows-runner" "windows" true true] in
  gives (one rs 0 None 2 ++ one rs 1 (Some "host/windows") 1 ++ one rs 2 None 1 ++ [SJobDone the_job]) [Some "linux-runner"; Some "windows-runner"; Some "linux-runner"].
Proof. eexists. split; [vm_compute; reflexivity|reflexivity]. Qed.
Example test_default_schedule1 : let rs := [mk "linux-runner" "linux" false true; mk "windows-runner" "windows" true true] in
  gives (one rs 0 None 2 ++ one rs 1 (Some "host/windows") 1 ++ one rs 2 (Some "host/linux-x64") 1 ++ [SJobDone the_job]) [Some "windows-runner"; Some "windows-runner"; Some "linux-runner"].
Proof. eexists. split; [vm_compute; reflexivity|reflexivity]. Qed.
(** The first step fails for want of a runner, so the other two are skipped: nothing more reaches the scheduler until the job is over. *)
Example test_default_schedule_none : let rs := [mk "linux-runner" "linux" false true; mk "windows-runner" "windows" false true] in
  gives (one rs 0 None 1 ++ [SJobDone the_job]) [None].
Proof. eexists. split; [vm_compute; reflexivity|reflexivity]. Qed.
