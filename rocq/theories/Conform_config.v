(** The repository's own tests of reading and expanding configs (crates/astro-run/src/actions.rs, user_config.rs, workflow/parser.rs, plugins/plugin_driver.rs) replayed on the
    model. The YAML texts of the tests are given as the trees libyaml makes of them; durations by humantime's answers to the texts used. *)
From Verif Require Import Base Types Config_model Serde_model Yaml_model.

Definition t_pl (s : string) : node := NScalar true s.
Definition t_fields (l : list (string * node)) : node := NMap (map (fun '(k, v) => (t_pl k, v)) l).
Definition t_strs (l : list string) : node := NSeq (map t_pl l).
(** 1 as a binary64 *)
Definition one64 : spec_float := S754_finite false 4503599627370496 (-52).
Definition t_number (s : string) : number_text := if eqb s "1" then IntText 1 else NotNumber.
Definition t_try (n : node) : result user_workflow := try_from t_number (fun a b => match a, b with YString x, YString y => eqb x y | _, _ => false end) (fun _ => Some n) (fun _ => "") "text".
Definition t_time (s : string) : option duration := if eqb s "60m" then Some (Duration 3600 0) else if eqb s "10m" then Some (Duration 600 0) else None.
Definition t_parse (env : build_env) (n : node) : result workflow := let? w := t_try n in parse t_time env "test-id" w.
Definition t_job_of {A} (f : user_job -> A) (k : string) (n : node) : option A := match t_try n with Ok w => option_map f (lookup k (uw_jobs w)) | Err _ => None end.
Definition hello : node := t_fields [("run", t_pl "echo ""Hello World""")].
Definition jobs_of (l : list (string * node)) : node := t_fields [("jobs", t_fields l)].
Definition cmd0 (name : option string) (run : string) : user_command_step := UserCommandStep name None run None None None None None.
Definition act0 (uses : string) : user_action_step := UserActionStep None uses None None None None None None.

(** *** actions.rs:46-119 *)
Definition cache0 : action := fun _ => Ok (ActionSteps None (UCommand (cmd0 (Some "Restore cache") "restore cache")) (Some (UCommand (cmd0 (Some "Save cache") "save cache")))).
Example test_normalize_step_actions : exists s, try_normalize [("caches", cache0)] (act0 "caches") = Ok (Some s) /\
  as_pre s = None /\ as_run s = UCommand (cmd0 (Some "Restore cache") "restore cache") /\ as_post s = Some (UCommand (cmd0 (Some "Save cache") "save cache")).
Proof. eexists. repeat split. Qed.
Example test_not_exists_action : try_normalize [] (act0 "not-exists-action") = Ok None.
Proof. reflexivity. Qed.

(** *** user_config.rs:158-425 *)
Definition doc_parse := t_fields [("name", t_pl "Test Workflow"); ("jobs", t_fields [("test-job", t_fields [("name", t_pl "Test Job"); ("working-directories", t_strs ["/home/runner/work"]);
  ("steps", NSeq [t_fields [("name", t_pl "Test Step"); ("continue-on-error", t_pl "true"); ("timeout", t_pl "10m");
                            ("environments", t_fields [("TEST_ENV", t_pl "test"); ("number", t_pl "1"); ("boolean", t_pl "true")]); ("run", t_pl "echo ""Hello World""")];
                  t_fields [("name", t_pl "Action step"); ("uses", t_pl "cache")]])])])].
Example config_test_parse : exists w j c r,
  t_try doc_parse = Ok w /\ uw_name w = Some "Test Workflow" /\ lookup "test-job" (uw_jobs w) = Some j /\ uj_name j = Some "Test Job" /\ uj_steps j = UCommand c :: r /\
  uc_name c = Some "Test Step" /\ uc_timeout c = Some "10m" /\ uc_continue_on_error c = Some true /\ uc_run c = "echo ""Hello World""" /\
  uc_environments c = Some [("TEST_ENV", EnvString "test"); ("number", EnvNumber one64); ("boolean", EnvBool true)].
Proof. do 4 eexists. split; [vm_compute; reflexivity|]. repeat (split; [reflexivity|]). reflexivity. Qed.
Example test_empty_jobs : t_try (t_fields [("jobs", t_pl "")]) = Err (WorkflowConfigError "Workflow must have at least one job").
Proof. reflexivity. Qed.
Example test_job_depend_not_exist : t_try (jobs_of [("job1", t_fields [("depends-on", t_strs ["job2"]); ("steps", NSeq [hello])])])
  = Err (WorkflowConfigError "Job job1 depends on job job2, but job job2 is not defined").
Proof. reflexivity. Qed.
Example test_empty_depend : exists w, t_try (jobs_of [("job1", t_fields [("depends-on", t_strs []); ("steps", NSeq [hello])]);
  ("job2", t_fields [("depends-on", t_strs ["job1"]); ("steps", NSeq [hello])])]) = Ok w.
Proof. eexists. reflexivity. Qed.
Example test_job_dependencies : t_try (jobs_of [("job1", t_fields [("depends-on", t_strs ["job2"]); ("steps", NSeq [hello])]);
  ("job2", t_fields [("depends-on", t_strs ["job1"]); ("steps", NSeq [hello])])]) = Err (WorkflowConfigError "Cannot have all jobs has dependencies").
Proof. reflexivity. Qed.
Example test_empty_steps : t_try (jobs_of [("job1", t_fields [("name", t_pl "Test Job"); ("steps", t_pl "")])]) = Err (WorkflowConfigError "Job `job1` must have at least one step").
Proof. reflexivity. Qed.
Example test_container_name : t_job_of uj_container "job1" (jobs_of [("job1", t_fields [("name", t_pl "Test Job"); ("container", t_pl "test"); ("steps", NSeq [hello])])])
  = Some (Some (CName "test")).
Proof. reflexivity. Qed.
Example test_container_options : t_job_of (fun j => option_map container_normalize (uj_container j)) "job1"
    (jobs_of [("job1", t_fields [("name", t_pl "Test Job");
       ("container", t_fields [("name", t_pl "test"); ("volumes", t_strs ["/home/runner/work"]); ("security-opts", t_strs ["seccomp=unconfined"])]); ("steps", NSeq [hello])])])
  = Some (Some (ContainerOptions "test" (Some ["/home/runner/work"]) (Some ["seccomp=unconfined"]))).
Proof. reflexivity. Qed.
Definition evs := t_strs ["push"; "pull_request"].
Definition user_on (s : user_step) := match s with UCommand c => uc_on c | UAction a => ua_on a end.
Definition all_on (n : node) (k : string) : option (option condition * option condition * list (option condition)) :=
  match t_try n with Ok w => option_map (fun j => (uw_on w, uj_on j, map user_on (uj_steps j))) (lookup k (uw_jobs w)) | Err _ => None end.
Example test_events_condition : let on := Some (CEvent ["push"; "pull_request"]) in
  all_on (t_fields [("on", evs); ("jobs", t_fields [("job", t_fields [("name", t_pl "Test Job"); ("on", evs); ("steps", NSeq [t_fields [("run", t_pl "echo ""Hello World"""); ("on", evs)]])])])]) "job"
  = Some (on, on, [on]).
Proof. reflexivity. Qed.
Definition quoted (s : string) : node := NScalar false s.
Example test_config_condition :
  all_on (t_fields [("on", t_fields [("push", t_fields [("branches", t_strs ["master"]); ("paths", NSeq [quoted "src/**"])])]);
    ("jobs", t_fields [("job", t_fields [("name", t_pl "Test Job"); ("on", t_fields [("push", t_fields [("paths", NSeq [quoted "src/**"])])]);
       ("steps", NSeq [t_fields [("run", t_pl "echo ""Hello World"""); ("on", t_fields [("pull_request", t_fields [("branches", t_strs ["master"])])])]])])])]) "job"
  = Some (Some (CConfig (ConditionConfig (Some (PushCondition (Some ["master"]) (Some ["src/**"]))) None)),
          Some (CConfig (ConditionConfig (Some (PushCondition None (Some ["src/**"]))) None)),
          [Some (CConfig (ConditionConfig None (Some (PullRequestCondition (Some ["master"]) None))))]).
Proof. reflexivity. Qed.

(** *** workflow/parser.rs:179-446 *)
Definition no_actions := BuildEnv [] [].
Definition doc_parser := t_fields [("name", t_pl "Test Workflow"); ("on", t_fields [("push", t_fields [("branches", t_strs ["master"])])]);
  ("jobs", t_fields [
    ("test-job", t_fields [("name", t_pl "Test Job"); ("working-directories", t_strs ["/home/runner/work"]);
       ("steps", NSeq [t_fields [("name", t_pl "Test Step"); ("continue-on-error", t_pl "true"); ("timeout", t_pl "10m"); ("environments", t_fields [("TEST_ENV", t_pl "test")]);
                                 ("run", t_pl "echo ""Hello World""")]])]);
    ("test-job2", t_fields [("container", t_pl "alpine:latest"); ("steps", NSeq [t_fields [("run", t_pl "echo ""Hello World2""")]; t_fields [("run", t_pl "echo ""Hello World3""")]])])])].
Example parser_test_parse : exists wf j1 s1 j2,
  t_parse no_actions doc_parser = Ok wf /\ wf_id wf = WorkflowId "test-id" /\ wf_name wf = Some "Test Workflow" /\ length (wf_jobs wf) = 2 /\
  lookup "test-job" (wf_jobs wf) = Some j1 /\ jb_name j1 = Some "Test Job" /\ jb_steps j1 = [s1] /\ st_name s1 = Some "Test Step" /\ st_continue_on_error s1 = true /\
  st_timeout s1 = Duration 600 0 /\ st_environments s1 = [("TEST_ENV", EnvString "test")] /\ st_run s1 = "echo ""Hello World""" /\
  lookup "test-job2" (wf_jobs wf) = Some j2 /\ map st_run (jb_steps j2) = ["echo ""Hello World2"""; "echo ""Hello World3"""].
Proof. do 4 eexists. split; [vm_compute; reflexivity|]. repeat (split; [reflexivity|]). reflexivity. Qed.
Example test_invalid_time_format : t_parse no_actions (jobs_of [("test", t_fields [("name", t_pl "Test Job"); ("steps", NSeq [t_fields [("timeout", t_pl "1ss"); ("run", t_pl "Hello World")]])])])
  = Err (WorkflowConfigError "Invalid timeout format. The format should like `60m` or `1h`.").
Proof. reflexivity. Qed.
(** The action of the test reads its two options out of [with] and panics when it cannot; here it then fails. *)
Definition cache : action := fun a =>
  match ua_with a with
  | Some (YMap m) =>
      match find (fun e => match fst e with YString "path" => true | _ => false end) m, find (fun e => match fst e with YString "key" => true | _ => false end) m with
      | Some (_, YString p), Some (_, YString k) =>
          let at_ (s : string) := s +++ " cache " +++ p +++ " " +++ k in
          Ok (ActionSteps
            (Some (UCommand (UserCommandStep (Some "Pre cache") None (at_ "pre") None None (Some [("CACHE_ENV", EnvString "test")]) None (Some "10m"))))
            (UCommand (UserCommandStep (Some "Restore cache") None (at_ "restore") None None None (Some ["SECRET"]) None))
            (Some (UCommand (UserCommandStep (Some "Save cache") None (at_ "save") None (Some true) None None None))))
      | _, _ => Err (InternalRuntimeError "options")
      end
  | _ => Err (InternalRuntimeError "options")
  end.
Definition step_facts (s : step) := (st_name s, st_run s, st_continue_on_error s, st_environments s, st_secrets s, st_timeout s).
Example test_custom_action : exists wf j,
  t_parse (BuildEnv [("caches", cache)] [])
    (t_fields [("name", t_pl "Test Workflow"); ("jobs", t_fields [("test", t_fields [("steps", NSeq [
       t_fields [("uses", t_pl "caches"); ("with", t_fields [("path", t_pl "/tmp"); ("key", t_pl "test")])]; t_fields [("run", t_pl "Hello World")]])])])]) = Ok wf /\
  lookup "test" (wf_jobs wf) = Some j /\
  map step_facts (jb_steps j) =
    [(Some "Pre cache", "pre cache /tmp test", false, [("CACHE_ENV", EnvString "test")], [], Duration 600 0);
     (Some "Restore cache", "restore cache /tmp test", false, [], ["SECRET"], Duration 3600 0);
     (None, "Hello World", false, [], [], Duration 3600 0);
     (Some "Save cache", "save cache /tmp test", true, [], [], Duration 3600 0)].
Proof. do 2 eexists. split; [vm_compute; reflexivity|]. split; reflexivity. Qed.
Example unsupported_nested_actions :
  t_parse (BuildEnv [("nested", fun _ => Ok (ActionSteps None (UAction (act0 "")) None))] [])
    (t_fields [("name", t_pl "Test Workflow"); ("jobs", t_fields [("test", t_fields [("steps", NSeq [t_fields [("uses", t_pl "nested")]])])])])
  = Err (UnsupportedFeature "Only command step is supported").
Proof. reflexivity. Qed.
Example test_not_defined_action : t_parse no_actions (jobs_of [("test", t_fields [("steps", NSeq [t_fields [("uses", t_pl "not_defined")]])])])
  = Err (WorkflowConfigError "Action `not_defined` is not found").
Proof. reflexivity. Qed.

(** *** tests/dynamic-actions.rs *)
Definition with_name (a : user_action_step) : option string :=
  match ua_with a with Some (YMap m) => match find (fun e => match fst e with YString "name" => true | _ => false end) m with Some (_, YString n) => Some n | _ => None end | _ => None end.
Definition dynamic_action : action := fun a =>
  match with_name a with
  | Some "Error" => Err (OtherError "Test Error")
  | Some n => Ok (ActionSteps None (UCommand (cmd0 (Some n) n)) None)
  | None => Err (InternalRuntimeError "options")
  end.
Definition dynamic_plugin (a : user_action_step) : result (option action) :=
  match with_name a with Some "Hello World" | Some "Error" => Ok (Some dynamic_action) | _ => Ok None end.
Definition dynamic_doc (n : string) := jobs_of [("test", t_fields [("steps", NSeq [t_fields [("uses", t_pl "dynamic-action"); ("with", t_fields [("name", t_pl n)])]])])].
Definition dynamic_env := BuildEnv [] [dynamic_plugin; fun _ => Ok None].
Example test_dynamic_action : exists wf j, t_parse dynamic_env (dynamic_doc "Hello World") = Ok wf /\ lookup "test" (wf_jobs wf) = Some j /\
  map (fun s => (st_run s, st_name s)) (jb_steps j) = [("Hello World", Some "Hello World")].
Proof. do 2 eexists. split; [vm_compute; reflexivity|]. split; reflexivity. Qed.
Example test_dynamic_action_not_found : t_parse dynamic_env (dynamic_doc "Not Found") = Err (WorkflowConfigError "Action `dynamic-action` is not found").
Proof. reflexivity. Qed.
Example test_dynamic_action_error : t_parse dynamic_env (dynamic_doc "Error") = Err (OtherError "Test Error").
Proof. reflexivity. Qed.
(** plugins/plugin_driver.rs:238-265 *)
Example test_plugin_trait : resolve_dynamic_action [fun _ => Ok None] (act0 "") = None.
Proof. reflexivity. Qed.
