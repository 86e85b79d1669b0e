(** The repository's own unit tests replayed on the model (crates/astro-run/src): what the tests assert of the code, the model computes. These are checks of the
    model against the code, not claims. Patterns that are not literal are answered by a table of the answers the tests expect of the glob library. *)
From Verif Require Import Base Types Ids_model Signals_model Stream_model Stream_spec Cond_model Docker_model Setup_model.

(** *** types/condition.rs *)
Definition table (answers : list (string * list string)) (literal : bool) : glob_oracle :=
  fun p => match lookup p answers with Some vs => Some (fun v => memb v vs) | None => if literal then Some (fun v => eqb v p) else None end.
Definition t_paths := ["src/main.rs"; "src/lib.rs"; "src/runner/main.rs"; "src/runner/lib.rs"].
Definition t_glob := table [("src/runner/*.rs", ["src/runner/main.rs"; "src/runner/lib.rs"]); ("src/runner/**/*.rs", ["src/runner/main.rs"; "src/runner/lib.rs"]);
  ("src/runner/**/main.rs", ["src/runner/main.rs"]); ("src/runner/**/lib.rs", ["src/runner/lib.rs"]); ("scripts/**/lib.rs", []); ("src/runner/**/lib.js", []); ("feature/*", ["feature/branch"; "feature/branch/branch"])] true.
(** :96-141 *)
Example is_match_workflow_paths :
  map (fun p => is_match_patterns t_glob t_paths [p]) ["src/main.rs"; "src/runner/main.rs"; "src/runner/*.rs"; "src/runner/**/*.rs"; "src/runner/**/main.rs"; "src/runner/**/lib.rs"; "scripts/**/lib.rs"; "src/runner/**/lib.js"]
  = [true; true; true; true; true; true; false; false].
Proof. reflexivity. Qed.
Example is_match_branches : map (fun v => is_match_patterns t_glob [v] ["master"; "develop"]) ["master"; "develop"; "feature/branch"] = [true; true; false].
Proof. reflexivity. Qed.
Example is_match_features : map (fun v => is_match_patterns t_glob [v] ["feature/*"]) ["feature/branch"; "feature/branch/branch"; "feature"; "feature-branch"] = [true; true; false; false].
Proof. reflexivity. Qed.
Definition t_pr := PullRequestCondition (Some ["master"]) (Some ["src/main.rs"]).
Definition t_push := PushCondition (Some ["master"]) (Some ["src/main.rs"]).
Definition t_pl ev br := ConditionPayload ev br ["src/main.rs"].
Example test_pull_request_condition : pull_request_is_match t_glob t_pr (t_pl "pull_request" "master") = true /\ pull_request_is_match t_glob t_pr (t_pl "pull_request" "main") = false.
Proof. split; reflexivity. Qed.
Example test_push_condition : push_is_match t_glob t_push (t_pl "push" "master") = true.
Proof. reflexivity. Qed.
Example test_condition : cond_is_match t_glob (CConfig (ConditionConfig (Some t_push) (Some t_pr))) (t_pl "push" "master") = true.
Proof. reflexivity. Qed.
Example test_events_condition : cond_is_match t_glob (CEvent ["push"]) (t_pl "push" "master") = true /\ cond_is_match t_glob (CEvent ["pull_request"]) (t_pl "push" "master") = false.
Proof. split; reflexivity. Qed.
Example test_invalid_event : cond_is_match t_glob (CEvent ["pull_request"]) (ConditionPayload "invalid" "" []) = false.
Proof. reflexivity. Qed.
Example test_invalid_payload_event : cond_is_match t_glob (CConfig (ConditionConfig (Some t_push) None)) (t_pl "invalid" "master") = false.
Proof. reflexivity. Qed.
Example test_invalid_glob_pattern : is_match_patterns (table [] false) ["a/b"] ["a**/b"] = false.
Proof. reflexivity. Qed.

(** *** types/id.rs *)
Example test_job_id : job_id_workflow_id (JobId "workflow" "job") = WorkflowId "workflow" /\ job_id_job_key (JobId "workflow" "job") = "job".
Proof. split; reflexivity. Qed.
Example test_step_id : let s := StepId "workflow" "job" 1 in
  step_id_workflow_id s = WorkflowId "workflow" /\ step_id_job_id s = JobId "workflow" "job" /\ step_id_job_key s = "job" /\ step_id_step_number s = 1%N.
Proof. repeat split; reflexivity. Qed.
Example test_ids_to_string : show_workflow_id (WorkflowId "test") = "test" /\ show_job_id (JobId "workflow" "job") = "workflow/job" /\ show_step_id (StepId "workflow" "job" 1) = "workflow/job/1".
Proof. repeat split; reflexivity. Qed.
Example test_ids_try_from : parse_workflow_id "test" = Ok (WorkflowId "test") /\ parse_job_id "workflow/job" = Ok (JobId "workflow" "job") /\ parse_step_id "workflow/job/1" = Ok (StepId "workflow" "job" 1).
Proof. repeat split; reflexivity. Qed.
Definition is_err {A} (r : result A) : bool := match r with Err _ => true | Ok _ => false end.
Example test_ids_try_from_empty : is_err (parse_workflow_id "") = true /\ is_err (parse_job_id "") = true /\ is_err (parse_step_id "") = true.
Proof. repeat split; reflexivity. Qed.
Example test_ids_try_from_invalid : is_err (parse_job_id "workflow") = true /\ is_err (parse_step_id "workflow/job") = true.
Proof. split; reflexivity. Qed.

(** *** types/workflow_state.rs, types/envs.rs, types/mod.rs *)
Example test_is_terminal : map is_terminal [Pending; Queued; InProgress; Succeeded; Failed; Cancelled; Skipped] = [false; false; false; true; true; true; true].
Proof. reflexivity. Qed.
Example test_to_string : forall f64, show_env f64 (EnvString "test") = "test" /\ show_env f64 (EnvBool true) = "true".
Proof. intros f64. split; reflexivity. Qed.
Example test_workflow_log_type : log_type_of_string "error" = LError /\ log_type_of_string "log" = LLog /\ log_type_of_string "unknown" = LLog /\ show_log_type LError = "error" /\ show_log_type LLog = "log".
Proof. repeat split; reflexivity. Qed.

(** *** execution_context/condition_matcher.rs *)
Definition t_event (e : string) (pr : option Z) := TriggerEvent e "" "" pr "" "" "".
Example test_unsupported_event : forall gh, get_changed_files gh (t_event "unsupported" None) = Err (UnsupportedFeature "Event unsupported is not supported").
Proof. reflexivity. Qed.
Example test_pr_number_not_provided : forall commit files, get_changed_files (GitHub (Ok tt) commit files) (t_event "pull_request" None) = Err (WorkflowConfigError "pr_number is not provided").
Proof. reflexivity. Qed.

(** *** signals/signal.rs *)
Fixpoint sig_outputs (st : sig_state) (ops : list sig_op) : list sig_out := match ops with [] => [] | o :: ops' => snd (sig_step st o) :: sig_outputs (fst (sig_step st o)) ops' end.
Example test_set_signal_twice : sig_outputs sig_init [OIsCancelled; OIsTimeout; OCancel; OIsCancelled; OIsTimeout; OTimeout; OCancel]
  = [OBool false; OBool false; ORaise (Ok tt) None; OBool true; OBool false;
     ORaise (Err (OtherError "Signal has been cancelled or timeout.")) None; ORaise (Err (OtherError "Signal has been cancelled or timeout.")) None].
Proof. reflexivity. Qed.
Example test_wait_for_cancel_signal : sig_outputs sig_init [OIsCancelled; OIsTimeout; OPoll 7; OCancel; OPoll 7; OIsCancelled; OIsTimeout]
  = [OBool false; OBool false; OPolled None; ORaise (Ok tt) (Some 7); OPolled (Some SigCancel); OBool true; OBool false].
Proof. reflexivity. Qed.
Example test_wait_for_timeout_signal : sig_outputs sig_init [OIsCancelled; OIsTimeout; OPoll 7; OTimeout; OPoll 7; OIsCancelled; OIsTimeout]
  = [OBool false; OBool false; OPolled None; ORaise (Ok tt) (Some 7); OPolled (Some SigTimeout); OBool false; OBool true].
Proof. reflexivity. Qed.
Example test_wait_signal_twice : sig_outputs sig_init [OIsCancelled; OIsTimeout; OCancel; OPoll 7; OIsCancelled; OIsTimeout; OPoll 7]
  = [OBool false; OBool false; ORaise (Ok tt) None; OPolled (Some SigCancel); OBool true; OBool false; OPolled None].
Proof. reflexivity. Qed.
Example test_signal_text : show_signal SigCancel = "cancel" /\ show_signal SigTimeout = "timeout" /\ signal_of_string "cancel" = Some SigCancel /\ signal_of_string "timeout" = Some SigTimeout /\ signal_of_string "invalid" = None.
Proof. repeat split; reflexivity. Qed.

(** *** stream.rs *)
Example test_stream : let ops := [SLog "test"; SError "error"] ++ end_call 0 succeeded_result ++ repeat (SPoll 7) 3 in
  got ops = [Log LLog "test"; Log LError "error"] /\ stream_output (removelast ops) (SPoll 7) = SOPolled PEnd /\ stream_output ops SResult = SOResult (Some RSucceeded).
Proof. repeat split; reflexivity. Qed.
Example test_stream_twice : stream_output (end_call 0 succeeded_result ++ end_call 0 cancelled_result) SResult = SOResult (Some RSucceeded).
Proof. reflexivity. Qed.

(** *** types/error.rs, runner.rs *)
Definition t_errors (m : string) (n kind : N) : list error_value :=
  [EvOther (WorkflowConfigError m); EvOther (InternalRuntimeError m); EvIo kind m; EvOther (UnsupportedFeature m); EvOther (OtherError m); EvOther (FailedError n)].
Example test_error_eq : forallb (fun '(a, b) => error_eq a b) (combine (t_errors "hello" 1 0) (t_errors "hello" 1 0)) = true.
Proof. reflexivity. Qed.
Example test_error_ne : forallb (fun '(a, b) => negb (error_eq a b)) (combine (t_errors "hello" 1 0) (t_errors "world" 2 36)) = true /\
  error_eq (EvOther (FailedError 1)) (EvOther (InternalRuntimeError "hello")) = false.
Proof. split; reflexivity. Qed.
Example test_log : log_log "test" = Log LLog "test" /\ log_error "test" = Log LError "test".
Proof. split; reflexivity. Qed.
