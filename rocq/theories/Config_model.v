(** Model of crates/astro-run/src/user_config.rs (types and validation), actions.rs,
    workflow/parser.rs and workflow/builder.rs. *)
From Verif Require Import Base Types.

(** serde_yaml::Value *)
Inductive yaml :=
| YNull | YBool (b : bool) | YInt (z : Z) | YFloat (f : spec_float) | YString (s : string)
| YSeq (l : list yaml) | YMap (m : list (yaml * yaml)) | YTagged (tag : string) (v : yaml).

(** user_config.rs:13-18 *)
Inductive container := COptions (o : container_options) | CName (s : string).
(** user_config.rs:20-31 *)
Record user_command_step := UserCommandStep {
  uc_name : option string; uc_container : option container; uc_run : string; uc_on : option condition;
  uc_continue_on_error : option bool; uc_environments : option environments;
  uc_secrets : option (list string); uc_timeout : option string }.
(** user_config.rs:33-44 *)
Record user_action_step := UserActionStep {
  ua_name : option string; ua_uses : string; ua_with : option yaml; ua_on : option condition;
  ua_continue_on_error : option bool; ua_environments : option environments;
  ua_secrets : option (list string); ua_timeout : option string }.
(** user_config.rs:46-52 *)
Inductive user_step := UCommand (c : user_command_step) | UAction (a : user_action_step).
(** user_config.rs:54-65 *)
Record user_job := UserJob {
  uj_name : option string; uj_container : option container; uj_working_dirs : option (list string);
  uj_steps : list user_step; uj_on : option condition; uj_depends_on : option (list string) }.
(** user_config.rs:67-72 *)
Record user_workflow := UserWorkflow {
  uw_name : option string; uw_on : option condition; uw_jobs : map_ string user_job }.

(** user_config.rs:87-94: the first dependency that is not a job. *)
Fixpoint undefined_dep (jobs : map_ string user_job) (deps : list string) : option string :=
  match deps with
  | [] => None
  | d :: ds => if contains_key d jobs then undefined_dep jobs ds else Some d
  end.

(** user_config.rs:84-108: the loop over the jobs, with the flag [is_all_jobs_has_dependencies]. *)
Fixpoint validate_jobs (all_jobs : map_ string user_job) (flag : bool) (l : map_ string user_job) : result bool :=
  match l with
  | [] => Ok flag
  | (name, j) :: l' =>
      let deps := option_default [] (uj_depends_on j) in
      match deps with
      | [] =>
          match uj_steps j with
          | [] => Err (WorkflowConfigError ("Job `" +++ name +++ "` must have at least one step"))
          | _ => validate_jobs all_jobs false l'
          end
      | _ =>
          match undefined_dep all_jobs deps with
          | Some d => Err (WorkflowConfigError ("Job " +++ name +++ " depends on job " +++ d +++ ", but job " +++ d +++ " is not defined"))
          | None =>
              match uj_steps j with
              | [] => Err (WorkflowConfigError ("Job `" +++ name +++ "` must have at least one step"))
              | _ => validate_jobs all_jobs flag l'
              end
          end
      end
  end.

(** user_config.rs:75-117 *)
Definition validate (w : user_workflow) : result unit :=
  match uw_jobs w with
  | [] => Err (WorkflowConfigError "Workflow must have at least one job")
  | _ =>
      let? flag := validate_jobs (uw_jobs w) true (uw_jobs w) in
      if flag then Err (WorkflowConfigError "Cannot have all jobs has dependencies") else Ok tt
  end.

(** user_config.rs:128-137 *)
Definition container_normalize (c : container) : container_options :=
  match c with
  | COptions o => o
  | CName n => ContainerOptions n None None
  end.

(** actions.rs:5-14 *)
Record action_steps := ActionSteps { as_pre : option user_step; as_run : user_step; as_post : option user_step }.
(** A registered or plugin-provided action: its [normalize] (arbitrary user code; assumed deterministic). *)
Definition action := user_action_step -> result action_steps.

(** What the parser takes from the [AstroRun] object: the registered actions and, per plugin in
    registration order, its [on_resolve_dynamic_action] (arbitrary user code; assumed deterministic). *)
Record build_env := BuildEnv {
  be_actions : map_ string action;
  be_plugins : list (user_action_step -> result (option action)) }.

(** actions.rs:30-39 *)
Definition try_normalize (actions : map_ string action) (a : user_action_step) : result (option action_steps) :=
  match lookup (ua_uses a) actions with
  | Some f => let? s := f a in Ok (Some s)
  | None => Ok None
  end.

(** plugins/plugin_driver.rs:124-140 *)
Fixpoint resolve_dynamic_action (plugins : list (user_action_step -> result (option action))) (a : user_action_step)
  : option action :=
  match plugins with
  | [] => None
  | p :: ps => match p a with
               | Ok (Some f) => Some f
               | Ok None => resolve_dynamic_action ps a
               | Err _ => resolve_dynamic_action ps a
               end
  end.

(** workflow/parser.rs:15-44 *)
Definition try_normalize_action (env : build_env) (a : user_action_step) : result action_steps :=
  let? r := try_normalize (be_actions env) a in
  match r with
  | Some s => Ok s
  | None =>
      match resolve_dynamic_action (be_plugins env) a with
      | Some f => f a
      | None => Err (WorkflowConfigError ("Action `" +++ ua_uses a +++ "` is not found"))
      end
  end.

(** workflow/parser.rs:52-75: the loop over the user's steps with the three accumulators. *)
Fixpoint normalize_loop (env : build_env) (pre steps post : list user_step) (l : list user_step)
  : result (list user_step * list user_step * list user_step) :=
  match l with
  | [] => Ok (pre, steps, post)
  | UAction a :: l' =>
      let? r := try_normalize_action env a in
      let pre' := match as_pre r with Some p => pre ++ [p] | None => pre end in
      let post' := match as_post r with Some p => p :: post | None => post end in
      normalize_loop env pre' (steps ++ [as_run r]) post' l'
  | s :: l' => normalize_loop env pre (steps ++ [s]) post l'
  end.

(** workflow/parser.rs:46-85 *)
Definition try_normalize_user_steps (env : build_env) (l : list user_step) : result (list user_step) :=
  let? (pre, steps, post) := normalize_loop env [] [] [] l in
  Ok (pre ++ steps ++ post).

Section Parse.
(** humantime::parse_duration: arbitrary. *)
Variable parse_duration : string -> option duration.

Definition bad_timeout : error :=
  WorkflowConfigError "Invalid timeout format. The format should like `60m` or `1h`.".

(** workflow/parser.rs:105-137: one step of job [key] with index [idx]. *)
Definition parse_step (id key : string) (job_container : option container) (idx : N) (s : user_step) : result step :=
  match s with
  | UCommand c =>
      match parse_duration (option_default "60m" (uc_timeout c)) with
      | None => Err bad_timeout
      | Some d =>
          Ok (Step (StepId id key idx) (uc_name c) (uc_on c)
                (option_map container_normalize (match uc_container c with Some x => Some x | None => job_container end))
                (uc_run c) (option_default false (uc_continue_on_error c))
                (option_default [] (uc_environments c)) (option_default [] (uc_secrets c)) d)
      end
  | UAction _ => Err (UnsupportedFeature "Only command step is supported")
  end.

(** workflow/parser.rs:104-138: the loop with [enumerate]. *)
Fixpoint parse_steps (id key : string) (jc : option container) (idx : N) (l : list user_step) : result (list step) :=
  match l with
  | [] => Ok []
  | s :: l' => match parse_step id key jc idx s with
               | Err e => Err e
               | Ok st => match parse_steps id key jc (idx + 1) l' with
                          | Err e => Err e
                          | Ok r => Ok (st :: r)
                          end
               end
  end.

(** workflow/parser.rs:96-150: one job. *)
Definition parse_job (env : build_env) (id key : string) (j : user_job) : result job :=
  let? expanded := try_normalize_user_steps env (uj_steps j) in
  let? steps := parse_steps id key (uj_container j) 0 expanded in
  Ok (Job (JobId id key) (uj_name j) (uj_on j) steps
        (option_default [] (uj_depends_on j)) (option_default [] (uj_working_dirs j))).

(** workflow/parser.rs:93-151: the loop over the jobs map. *)
Fixpoint parse_jobs (env : build_env) (id : string) (acc : map_ string job) (l : map_ string user_job)
  : result (map_ string job) :=
  match l with
  | [] => Ok acc
  | (key, j) :: l' =>
      let? jb := parse_job env id key j in
      parse_jobs env id (insert key jb acc) l'
  end.

(** workflow/parser.rs:87-159 *)
Definition parse (env : build_env) (id : string) (w : user_workflow) : result workflow :=
  let? jobs := parse_jobs env id [] (uw_jobs w) in
  Ok (Workflow (WorkflowId id) (uw_name w) (uw_on w) jobs).

(** workflow/builder.rs:25-40 and user_config.rs:140-150. [decode] is serde_yaml::from_str into UserWorkflow
    ([inr msg] on failure); [uuid] is the fresh id used when none is given. *)
Definition build (decode : string -> user_workflow + string) (env : build_env)
    (id : option string) (config : option string) (uuid : string) : result workflow :=
  match config with
  | None => Err (InitError "Workflow config is required")
  | Some text =>
      match decode text with
      | inr msg => Err (WorkflowConfigError ("Failed to parse workflow: " +++ msg))
      | inl w => let? _ := validate w in parse env (option_default uuid id) w
      end
  end.
End Parse.
