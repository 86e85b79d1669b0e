(** Model of the serde derives of astro-run's types and of the JSON codec of crates/protocol/src/common/json_codec.rs, at the level of
    values: what is written, and what is accepted when reading. The text of the JSON is in Json_model. The derives generate the code modelled here
    (serde 1.0); the citations are of the derived types. *)
From Verif Require Import Base Types Plugins_model Exec_model Sched_model Config_model.

(** serde's data model as far as the types of this code base use it (serde's [Content], JSON documents, YAML nodes after resolution of scalars):
    unsigned and negative integers are [VInt]. *)
Inductive value :=
| VNull | VBool (b : bool) | VInt (z : Z) | VFloat (f : spec_float) | VStr (s : string)
| VSeq (l : list value) | VMap (m : list (value * value)).

Definition bind_opt {A B} (x : option A) (f : A -> option B) : option B := match x with Some a => f a | None => None end.
Notation "'let!' x := e 'in' f" := (bind_opt e (fun x => f)) (at level 200, x name, e at level 100, f at level 200).
Fixpoint map_all {A B} (f : A -> option B) (l : list A) : option (list B) :=
  match l with [] => Some [] | x :: r => let! y := f x in let! ys := map_all f r in Some (y :: ys) end.

(** ** Reading: the visitors of the std types *)
Definition read_string (v : value) : option string := match v with VStr s => Some s | _ => None end.
Definition read_bool (v : value) : option bool := match v with VBool b => Some b | _ => None end.
Definition read_int (lo hi : Z) (v : value) : option Z := match v with VInt z => if (lo <=? z)%Z && (z <=? hi)%Z then Some z else None | _ => None end.
Definition read_i32 := read_int (- 2 ^ 31) (2 ^ 31 - 1).
Definition read_i64 := read_int (- 2 ^ 63) (2 ^ 63 - 1).
Definition read_usize (v : value) : option N := let! z := read_int 0 (2 ^ 64 - 1) v in Some (Z.to_N z).
Definition read_u32 (v : value) : option N := let! z := read_int 0 (2 ^ 32 - 1) v in Some (Z.to_N z).
(** f64 also accepts integers ([as f64]: rounded to nearest even). *)
Definition read_f64 (v : value) : option spec_float :=
  match v with VFloat f => Some f | VInt z => Some (binary_normalize 53 1024 z 0 false) | _ => None end.
Definition read_option {A} (d : value -> option A) (v : value) : option (option A) :=
  match v with VNull => Some None | _ => let! a := d v in Some (Some a) end.
Definition read_seq {A} (d : value -> option A) (v : value) : option (list A) := match v with VSeq l => map_all d l | _ => None end.
Definition read_entry {A} (d : value -> option A) (e : value * value) : option (string * A) :=
  let! k := read_string (fst e) in let! a := d (snd e) in Some (k, a).
(** HashMap: entries are inserted one after the other. *)
Definition read_map {A} (d : value -> option A) (v : value) : option (map_ string A) :=
  match v with
  | VMap m => let! es := map_all (read_entry d) m in Some (fold_left (fun h e => insert (fst e) (snd e) h) es [])
  | _ => None
  end.

(** ** Reading a derived struct: a mapping, or a sequence with one element per field. A key is the field's name or, from a buffered value, its index; unknown
    fields are ignored, a field given twice is an error; [None]: the field was not given. *)
Fixpoint index_of (s : string) (fields : list string) : option nat :=
  match fields with [] => None | f :: r => if eqb s f then Some 0 else option_map S (index_of s r) end.
Definition is_identifier (k : value) : bool := match k with VStr _ => true | VInt z => (0 <=? z)%Z | _ => false end.
Definition names_field (fields : list string) (i : nat) (k : value) : bool :=
  match k with VStr s => eqb (index_of s fields) (Some i) | VInt z => (z =? Z.of_nat i)%Z | _ => false end.
Definition slot (fields : list string) (m : list (value * value)) (i : nat) : option (option value) :=
  match filter (fun e => names_field fields i (fst e)) m with [] => Some None | [(_, v)] => Some (Some v) | _ => None end.
Definition slots (fields : list string) (v : value) : option (list (option value)) :=
  match v with
  | VSeq l => if Nat.eqb (length l) (length fields) then Some (map Some l) else None
  | VMap m => if forallb (fun e => is_identifier (fst e)) m then map_all (slot fields m) (seq 0 (length fields)) else None
  | _ => None
  end.
Definition req {A} (d : value -> option A) (s : option value) : option A := match s with Some v => d v | None => None end.
Definition opt {A} (d : value -> option A) (s : option value) : option (option A) := match s with Some v => read_option d v | None => Some None end.

(** ** Reading a derived enum, externally tagged (the default) *)
Inductive variant A := VtUnit (a : A) | VtNew (d : value -> option A).
Arguments VtUnit {A}. Arguments VtNew {A}.
Definition read_enum {A} (variants : list (string * variant A)) (v : value) : option A :=
  match v with
  | VStr s => match lookup s variants with Some (VtUnit a) => Some a | _ => None end
  | VMap [(VStr s, w)] =>
      match lookup s variants with
      | Some (VtUnit a) => match w with VNull => Some a | _ => None end
      | Some (VtNew d) => d w
      | None => None
      end
  | _ => None
  end.
(** ... and untagged: the first variant that reads. *)
Definition or_else {A} (x y : option A) : option A := match x with Some a => Some a | None => y end.

(** ** Writing *)
Definition put_option {A} (e : A -> value) (x : option A) : value := match x with Some a => e a | None => VNull end.
Definition put_seq {A} (e : A -> value) (l : list A) : value := VSeq (map e l).
Definition put_map {A} (e : A -> value) (m : map_ string A) : value := VMap (map (fun x => (VStr (fst x), e (snd x))) m).
Definition put_struct (fs : list (string * value)) : value := VMap (map (fun x => (VStr (fst x), snd x)) fs).
Definition put_variant (tag : string) (v : value) : value := VMap [(VStr tag, v)].
Definition put_N (n : N) : value := VInt (Z.of_N n).
Definition is_finite (f : spec_float) : bool := match f with S754_zero _ | S754_finite _ _ _ => true | _ => false end.
(** serde_json: NaN and infinities are written as null. *)
Definition put_f64 (f : spec_float) : value := if is_finite f then VFloat f else VNull.

(** ** The types *)
Section Types.
(** chrono's text of a DateTime<Utc> (RFC 3339) and its reader; the payload's own serde (typetag, context_payload.rs:4-10). *)
Variable show_time : time -> string.
Variable read_time_text : string -> option time.
Variable put_payload : payload -> value.
Variable read_payload : value -> option payload.

(** types/id.rs:6-13: a newtype is its content, a tuple struct a sequence. *)
Definition put_workflow_id (i : workflow_id) : value := VStr (wid_0 i).
Definition read_workflow_id (v : value) : option workflow_id := let! s := read_string v in Some (WorkflowId s).
Definition put_job_id (i : job_id) : value := VSeq [VStr (jid_0 i); VStr (jid_1 i)].
Definition read_job_id (v : value) : option job_id :=
  match v with VSeq [a; b] => let! a := read_string a in let! b := read_string b in Some (JobId a b) | _ => None end.
Definition put_step_id (i : step_id) : value := VSeq [VStr (sid_0 i); VStr (sid_1 i); put_N (sid_2 i)].
Definition read_step_id (v : value) : option step_id :=
  match v with
  | VSeq [a; b; n] => let! a := read_string a in let! b := read_string b in let! n := read_usize n in Some (StepId a b n)
  | _ => None
  end.
(** types/workflow_state.rs:3-13 *)
Definition state_name (s : wf_state) : string :=
  match s with Pending => "pending" | Queued => "queued" | InProgress => "in_progress" | Succeeded => "succeeded" | Failed => "failed"
             | Cancelled => "cancelled" | Skipped => "skipped" end.
Definition put_state (s : wf_state) : value := VStr (state_name s).
Definition read_state : value -> option wf_state :=
  read_enum [("pending", VtUnit Pending); ("queued", VtUnit Queued); ("in_progress", VtUnit InProgress); ("succeeded", VtUnit Succeeded);
             ("failed", VtUnit Failed); ("cancelled", VtUnit Cancelled); ("skipped", VtUnit Skipped)].
(** types/mod.rs:35-40 *)
Definition put_log_type (t : log_type) : value := VStr (match t with LError => "error" | LLog => "log" end).
Definition read_log_type : value -> option log_type := read_enum [("error", VtUnit LError); ("log", VtUnit LLog)].
(** runner.rs:8-13 *)
Definition put_run_result (r : run_result) : value :=
  match r with
  | RSucceeded => VStr "Succeeded" | RCancelled => VStr "Cancelled"
  | RFailed c => put_variant "Failed" (put_struct [("exit_code", VInt c)])
  end.
Definition read_run_result : value -> option run_result :=
  read_enum [("Succeeded", VtUnit RSucceeded);
             ("Failed", VtNew (fun v => match slots ["exit_code"] v with Some [c] => let! c := req read_i32 c in Some (RFailed c) | _ => None end));
             ("Cancelled", VtUnit RCancelled)].
(** runner.rs:15-19 *)
Definition put_log (l : log) : value := put_struct [("log_type", put_log_type (l_type l)); ("message", VStr (l_message l))].
Definition read_log (v : value) : option log :=
  match slots ["log_type"; "message"] v with
  | Some [a; b] => let! a := req read_log_type a in let! b := req read_string b in Some (Log a b)
  | _ => None
  end.
(** signals/signal.rs:10-14 *)
Definition put_signal (s : signal) : value := VStr (match s with SigCancel => "Cancel" | SigTimeout => "Timeout" end).
Definition read_signal : value -> option signal := read_enum [("Cancel", VtUnit SigCancel); ("Timeout", VtUnit SigTimeout)].
(** types/results.rs:5, chrono's serde *)
Definition put_time (t : time) : value := VStr (show_time t).
Definition read_time (v : value) : option time := let! s := read_string v in read_time_text s.
(** serde's impl for std::time::Duration: unknown fields are errors; 10^9 nanoseconds and more carry into the seconds. *)
Definition put_duration (d : duration) : value := put_struct [("secs", put_N (d_secs d)); ("nanos", put_N (d_nanos d))].
Definition read_duration (v : value) : option duration :=
  if match v with VMap m => forallb (fun e => match fst e with VStr s => memb s ["secs"; "nanos"] | _ => false end) m | _ => true end then
    match slots ["secs"; "nanos"] v with
    | Some [a; b] =>
        let! s := req read_usize a in let! n := req read_u32 b in
        let s' := (s + n / 1000000000)%N in if (s' <? 2 ^ 64)%N then Some (Duration s' (n mod 1000000000)) else None
    | _ => None
    end
  else None.
(** types/envs.rs:4-10, 44 *)
Definition put_env (e : env_value) : value := match e with EnvString s => VStr s | EnvNumber f => put_f64 f | EnvBool b => VBool b end.
Definition read_env (v : value) : option env_value :=
  or_else (let! s := read_string v in Some (EnvString s)) (or_else (let! f := read_f64 v in Some (EnvNumber f)) (let! b := read_bool v in Some (EnvBool b))).
Definition put_environments (m : environments) : value := put_map put_env m.
Definition read_environments : value -> option environments := read_map read_env.
(** user_config.rs:5-11 *)
Definition put_container_options (c : container_options) : value :=
  put_struct [("name", VStr (co_name c)); ("volumes", put_option (put_seq VStr) (co_volumes c)); ("security-opts", put_option (put_seq VStr) (co_security_opts c))].
Definition read_container_options (v : value) : option container_options :=
  match slots ["name"; "volumes"; "security-opts"] v with
  | Some [a; b; c] => let! a := req read_string a in let! b := opt (read_seq read_string) b in let! c := opt (read_seq read_string) c in Some (ContainerOptions a b c)
  | _ => None
  end.
(** types/condition.rs:10-38 *)
Definition put_branches_paths (b p : option (list string)) : value := put_struct [("branches", put_option (put_seq VStr) b); ("paths", put_option (put_seq VStr) p)].
Definition read_branches_paths (v : value) : option (option (list string) * option (list string)) :=
  match slots ["branches"; "paths"] v with
  | Some [a; b] => let! a := opt (read_seq read_string) a in let! b := opt (read_seq read_string) b in Some (a, b)
  | _ => None
  end.
Definition put_push (c : push_condition) : value := put_branches_paths (pc_branches c) (pc_paths c).
Definition read_push (v : value) : option push_condition := let! x := read_branches_paths v in Some (PushCondition (fst x) (snd x)).
Definition put_pull_request (c : pull_request_condition) : value := put_branches_paths (prc_branches c) (prc_paths c).
Definition read_pull_request (v : value) : option pull_request_condition := let! x := read_branches_paths v in Some (PullRequestCondition (fst x) (snd x)).
Definition put_condition_config (c : condition_config) : value :=
  put_struct [("push", put_option put_push (cc_push c)); ("pull_request", put_option put_pull_request (cc_pull_request c))].
Definition read_condition_config (v : value) : option condition_config :=
  match slots ["push"; "pull_request"] v with
  | Some [a; b] => let! a := opt read_push a in let! b := opt read_pull_request b in Some (ConditionConfig a b)
  | _ => None
  end.
Definition put_condition (c : condition) : value := match c with CEvent l => put_seq VStr l | CConfig c => put_condition_config c end.
Definition read_condition (v : value) : option condition :=
  or_else (let! l := read_seq read_string v in Some (CEvent l)) (let! c := read_condition_config v in Some (CConfig c)).
(** types/trigger_event.rs:3-14 *)
Definition put_trigger (e : trigger_event) : value :=
  put_struct [("event", VStr (te_event e)); ("repo_owner", VStr (te_repo_owner e)); ("repo_name", VStr (te_repo_name e)); ("pr_number", put_option VInt (te_pr_number e));
              ("sha", VStr (te_sha e)); ("branch", VStr (te_branch e)); ("ref_name", VStr (te_ref_name e))].
Definition read_trigger (v : value) : option trigger_event :=
  match slots ["event"; "repo_owner"; "repo_name"; "pr_number"; "sha"; "branch"; "ref_name"] v with
  | Some [a; b; c; d; e; f; g] =>
      let! a := req read_string a in let! b := req read_string b in let! c := req read_string c in let! d := opt read_i64 d in
      let! e := req read_string e in let! f := req read_string f in let! g := req read_string g in Some (TriggerEvent a b c d e f g)
  | _ => None
  end.
(** workflow/step.rs:5-16 *)
Definition put_step (s : step) : value :=
  put_struct [("id", put_step_id (st_id s)); ("name", put_option VStr (st_name s)); ("on", put_option put_condition (st_on s));
              ("container", put_option put_container_options (st_container s)); ("run", VStr (st_run s)); ("continue_on_error", VBool (st_continue_on_error s));
              ("environments", put_environments (st_environments s)); ("secrets", put_seq VStr (st_secrets s)); ("timeout", put_duration (st_timeout s))].
Definition read_step (v : value) : option step :=
  match slots ["id"; "name"; "on"; "container"; "run"; "continue_on_error"; "environments"; "secrets"; "timeout"] v with
  | Some [a; b; c; d; e; f; g; h; i] =>
      let! a := req read_step_id a in let! b := opt read_string b in let! c := opt read_condition c in let! d := opt read_container_options d in
      let! e := req read_string e in let! f := req read_bool f in let! g := req read_environments g in let! h := req (read_seq read_string) h in
      let! i := req read_duration i in Some (Step a b c d e f g h i)
  | _ => None
  end.
(** types/context.rs:5-15 *)
Definition put_command (c : command) : value :=
  put_struct [("id", put_step_id (cmd_id c)); ("name", put_option VStr (cmd_name c));
              ("container", put_option put_container_options (cmd_container c)); ("run", VStr (Types.cmd_run c)); ("continue_on_error", VBool (cmd_continue_on_error c));
              ("environments", put_environments (cmd_environments c)); ("secrets", put_seq VStr (cmd_secrets c)); ("timeout", put_duration (cmd_timeout c))].
Definition read_command (v : value) : option command :=
  match slots ["id"; "name"; "container"; "run"; "continue_on_error"; "environments"; "secrets"; "timeout"] v with
  | Some [a; b; d; e; f; g; h; i] =>
      let! a := req read_step_id a in let! b := opt read_string b in let! d := opt read_container_options d in
      let! e := req read_string e in let! f := req read_bool f in let! g := req read_environments g in let! h := req (read_seq read_string) h in
      let! i := req read_duration i in Some (Command a b d e f g h i)
  | _ => None
  end.
(** types/context.rs:17-25; the signal is skipped: reading makes a fresh one. *)
Definition put_context (c : run_context) : value :=
  put_struct [("id", put_step_id (rx_id c)); ("command", put_command (rx_command c)); ("event", put_option put_trigger (rx_event c)); ("payload", put_option VStr (rx_payload c))].
Definition read_context (v : value) : option run_context :=
  match slots ["id"; "command"; "event"; "payload"] v with
  | Some [a; b; c; d] => let! a := req read_step_id a in let! b := req read_command b in let! c := opt read_trigger c in let! d := opt read_string d in Some (RunContext a b c d)
  | _ => None
  end.
(** workflow/job.rs:8-17 *)
Definition put_job (j : job) : value :=
  put_struct [("id", put_job_id (jb_id j)); ("name", put_option VStr (jb_name j)); ("on", put_option put_condition (jb_on j)); ("steps", put_seq put_step (jb_steps j));
              ("depends_on", put_seq VStr (jb_depends_on j)); ("working_directories", put_seq VStr (jb_working_directories j))].
Definition read_job (v : value) : option job :=
  match slots ["id"; "name"; "on"; "steps"; "depends_on"; "working_directories"] v with
  | Some [a; b; c; d; e; f] =>
      let! a := req read_job_id a in let! b := opt read_string b in let! c := opt read_condition c in let! d := req (read_seq read_step) d in
      let! e := req (read_seq read_string) e in let! f := req (read_seq read_string) f in Some (Job a b c d e f)
  | _ => None
  end.
(** workflow/mod.rs:19-25 *)
Definition put_workflow (w : workflow) : value :=
  put_struct [("id", put_workflow_id (wf_id w)); ("name", put_option VStr (wf_name w)); ("on", put_option put_condition (wf_on w)); ("jobs", put_map put_job (wf_jobs w))].
Definition read_workflow (v : value) : option workflow :=
  match slots ["id"; "name"; "on"; "jobs"] v with
  | Some [a; b; c; d] =>
      let! a := req read_workflow_id a in let! b := opt read_string b in let! c := opt read_condition c in let! d := req (read_map read_job) d in Some (Workflow a b c d)
  | _ => None
  end.
(** types/results.rs:7-32 *)
Definition put_step_result (r : step_run_result) : value :=
  put_struct [("id", put_step_id (sr_id r)); ("state", put_state (sr_state r)); ("exit_code", put_option VInt (sr_exit_code r));
              ("started_at", put_option put_time (sr_started_at r)); ("completed_at", put_option put_time (sr_completed_at r))].
Definition read_step_result (v : value) : option step_run_result :=
  match slots ["id"; "state"; "exit_code"; "started_at"; "completed_at"] v with
  | Some [a; b; c; d; e] =>
      let! a := req read_step_id a in let! b := req read_state b in let! c := opt read_i32 c in let! d := opt read_time d in let! e := opt read_time e in
      Some (StepRunResult a b c d e)
  | _ => None
  end.
Definition put_job_result (r : job_run_result) : value :=
  put_struct [("id", put_job_id (jr_id r)); ("state", put_state (jr_state r)); ("started_at", put_option put_time (jr_started_at r));
              ("completed_at", put_option put_time (jr_completed_at r)); ("steps", put_seq put_step_result (jr_steps r))].
Definition read_job_result (v : value) : option job_run_result :=
  match slots ["id"; "state"; "started_at"; "completed_at"; "steps"] v with
  | Some [a; b; c; d; e] =>
      let! a := req read_job_id a in let! b := req read_state b in let! c := opt read_time c in let! d := opt read_time d in let! e := req (read_seq read_step_result) e in
      Some (JobRunResult a b c d e)
  | _ => None
  end.
Definition put_workflow_result (r : workflow_run_result) : value :=
  put_struct [("id", put_workflow_id (wr_id r)); ("state", put_state (wr_state r)); ("started_at", put_option put_time (wr_started_at r));
              ("completed_at", put_option put_time (wr_completed_at r)); ("jobs", put_map put_job_result (wr_jobs r))].
Definition read_workflow_result (v : value) : option workflow_run_result :=
  match slots ["id"; "state"; "started_at"; "completed_at"; "jobs"] v with
  | Some [a; b; c; d; e] =>
      let! a := req read_workflow_id a in let! b := req read_state b in let! c := opt read_time c in let! d := opt read_time d in let! e := req (read_map read_job_result) e in
      Some (WorkflowRunResult a b c d e)
  | _ => None
  end.
(** types/mod.rs:61-67 *)
Definition put_workflow_log (l : workflow_log) : value :=
  put_struct [("step_id", put_step_id (wl_step_id l)); ("log_type", put_log_type (wl_type l)); ("message", VStr (wl_message l)); ("time", put_time (wl_time l))].
Definition read_workflow_log (v : value) : option workflow_log :=
  match slots ["step_id"; "log_type"; "message"; "time"] v with
  | Some [a; b; c; d] => let! a := req read_step_id a in let! b := req read_log_type b in let! c := req read_string c in let! d := req read_time d in Some (WorkflowLog a b c d)
  | _ => None
  end.
(** types/workflow_state_event.rs:4-18 *)
Definition put_state_event (e : state_event) : value :=
  match e with
  | WorkflowStateUpdated i s => put_variant "WorkflowStateUpdated" (put_struct [("id", put_workflow_id i); ("state", put_state s)])
  | JobStateUpdated i s => put_variant "JobStateUpdated" (put_struct [("id", put_job_id i); ("state", put_state s)])
  | StepStateUpdated i s => put_variant "StepStateUpdated" (put_struct [("id", put_step_id i); ("state", put_state s)])
  end.
Definition read_id_state {A B} (rd : value -> option A) (mk : A -> wf_state -> B) (v : value) : option B :=
  match slots ["id"; "state"] v with Some [a; b] => let! a := req rd a in let! b := req read_state b in Some (mk a b) | _ => None end.
Definition read_state_event : value -> option state_event :=
  read_enum [("WorkflowStateUpdated", VtNew (read_id_state read_workflow_id WorkflowStateUpdated));
             ("JobStateUpdated", VtNew (read_id_state read_job_id JobStateUpdated));
             ("StepStateUpdated", VtNew (read_id_state read_step_id StepStateUpdated))].
(** plugins/mod.rs:12-20 *)
Definition put_run_event {A} (e : A -> value) (r : run_event A) : value :=
  put_struct [("source", e (re_source r)); ("trigger_event", put_option put_trigger (re_trigger_event r)); ("payload", put_option put_payload (re_payload r))].
Definition read_run_event {A} (d : value -> option A) (v : value) : option (run_event A) :=
  match slots ["source"; "trigger_event"; "payload"] v with
  | Some [a; b; c] => let! a := req d a in let! b := opt read_trigger b in let! c := opt read_payload c in Some (RunEvent a b c)
  | _ => None
  end.
(** scheduler/src/lib.rs:7-16 *)
Definition put_metadata (m : runner_meta) : value :=
  put_struct [("id", VStr (rm_id m)); ("os", VStr (rm_os m)); ("arch", VStr (rm_arch m)); ("support_docker", VBool (rm_support_docker m));
              ("support_host", VBool (rm_support_host m)); ("version", VStr (rm_version m)); ("max_runs", VInt (rm_max_runs m))].
Definition read_metadata (v : value) : option runner_meta :=
  match slots ["id"; "os"; "arch"; "support_docker"; "support_host"; "version"; "max_runs"] v with
  | Some [a; b; c; d; e; f; g] =>
      let! a := req read_string a in let! b := req read_string b in let! c := req read_string c in let! d := req read_bool d in let! e := req read_bool e in
      let! f := req read_string f in let! g := req read_i32 g in Some (RunnerMeta a b c d e f g)
  | _ => None
  end.

(** protocol/src/lib.rs:6-59: the messages of the four calls (build.rs:8-13). *)
Inductive protocol_event := PEvent (e : hook_event) | PSignal (id : step_id) (s : signal).
Inductive run_response := RrLog (id : step_id) (l : log) | RrResult (id : step_id) (r : run_result).
Definition put_protocol_event (e : protocol_event) : value :=
  match e with
  | PEvent (HRunStep x) => put_variant "RunStep" (put_run_event put_step x)
  | PEvent (HRunJob x) => put_variant "RunJob" (put_run_event put_job x)
  | PEvent (HRunWorkflow x) => put_variant "RunWorkflow" (put_run_event put_workflow x)
  | PEvent (HStepCompleted x) => put_variant "StepCompleted" (put_step_result x)
  | PEvent (HJobCompleted x) => put_variant "JobCompleted" (put_job_result x)
  | PEvent (HWorkflowCompleted x) => put_variant "WorkflowCompleted" (put_workflow_result x)
  | PEvent (HLog x) => put_variant "StepLog" (put_workflow_log x)
  | PEvent (HState x) => put_variant "StateChange" (put_state_event x)
  | PSignal i s => put_variant "Signal" (put_struct [("step_id", put_step_id i); ("signal", put_signal s)])
  end.
Definition via {A B} (d : value -> option A) (f : A -> B) (v : value) : option B := let! a := d v in Some (f a).
Definition read_signal_event (v : value) : option protocol_event :=
  match slots ["step_id"; "signal"] v with Some [a; b] => let! a := req read_step_id a in let! b := req read_signal b in Some (PSignal a b) | _ => None end.
Definition read_protocol_event : value -> option protocol_event :=
  read_enum [("RunStep", VtNew (via (read_run_event read_step) (fun x => PEvent (HRunStep x))));
             ("RunJob", VtNew (via (read_run_event read_job) (fun x => PEvent (HRunJob x))));
             ("RunWorkflow", VtNew (via (read_run_event read_workflow) (fun x => PEvent (HRunWorkflow x))));
             ("StepCompleted", VtNew (via read_step_result (fun x => PEvent (HStepCompleted x))));
             ("JobCompleted", VtNew (via read_job_result (fun x => PEvent (HJobCompleted x))));
             ("WorkflowCompleted", VtNew (via read_workflow_result (fun x => PEvent (HWorkflowCompleted x))));
             ("StepLog", VtNew (via read_workflow_log (fun x => PEvent (HLog x))));
             ("StateChange", VtNew (via read_state_event (fun x => PEvent (HState x))));
             ("Signal", VtNew read_signal_event)].
Definition put_run_response (r : run_response) : value :=
  match r with
  | RrLog i l => put_variant "Log" (put_struct [("step_id", put_step_id i); ("log", put_log l)])
  | RrResult i r => put_variant "Result" (put_struct [("step_id", put_step_id i); ("result", put_run_result r)])
  end.
Definition read_run_response : value -> option run_response :=
  read_enum [("Log", VtNew (fun v => match slots ["step_id"; "log"] v with Some [a; b] => let! a := req read_step_id a in let! b := req read_log b in Some (RrLog a b) | _ => None end));
             ("Result", VtNew (fun v => match slots ["step_id"; "result"] v with Some [a; b] => let! a := req read_step_id a in let! b := req read_run_result b in Some (RrResult a b) | _ => None end))].
Inductive message := MEmpty | MMetadata (m : runner_meta) | MContext (c : run_context) | MResponse (r : run_response) | MEvent (e : protocol_event) | MCommand (c : command).
(** [MEmpty] is protocol/src/lib.rs:6-7. A decoder knows which kind of message it reads. *)
Inductive kind := KEmpty | KMetadata | KContext | KResponse | KEvent | KCommand.
Definition put_message (m : message) : value :=
  match m with
  | MEmpty => put_struct [] | MMetadata m => put_metadata m | MContext c => put_context c | MResponse r => put_run_response r
  | MEvent e => put_protocol_event e | MCommand c => put_command c
  end.
Definition read_message (k : kind) (v : value) : option message :=
  match k with
  | KEmpty => match slots [] v with Some _ => Some MEmpty | None => None end
  | KMetadata => via read_metadata MMetadata v
  | KContext => via read_context MContext v
  | KResponse => via read_run_response MResponse v
  | KEvent => via read_protocol_event MEvent v
  | KCommand => via read_command MCommand v
  end.
End Types.
