(** Specification of config acceptance and of the built workflow. *)
From Verif Require Import Base Types Config_model.

(** The dependencies a job lists. *)
Definition deps_of (j : user_job) : list string :=
  match uj_depends_on j with Some l => l | None => [] end.

(** C15: the acceptance rule. *)
Definition acceptable (jobs : map_ string user_job) : Prop :=
  (forall k j, In (k, j) jobs -> uj_steps j <> []) /\
  (forall k j d, In (k, j) jobs -> In d (deps_of j) -> In d (keys jobs)) /\
  (exists k j, In (k, j) jobs /\ deps_of j = []).

(** C19: how a [uses] step is resolved. *)
Inductive resolves (env : build_env) (a : user_action_step) (s : action_steps) : Prop :=
| res_registered f : lookup (ua_uses a) (be_actions env) = Some f -> f a = Ok s -> resolves env a s
| res_plugin pre p post f :
    lookup (ua_uses a) (be_actions env) = None ->
    be_plugins env = pre ++ p :: post ->
    (forall q f', In q pre -> q a <> Ok (Some f')) ->
    p a = Ok (Some f) -> f a = Ok s -> resolves env a s.

(** C17: what one user step contributes: a pre step, a main step, a post step. *)
Inductive expands (env : build_env) : user_step -> option user_step * user_step * option user_step -> Prop :=
| exp_command c : expands env (UCommand c) (None, UCommand c, None)
| exp_action a p r q : resolves env a (ActionSteps p r q) -> expands env (UAction a) (p, r, q).

Definition opt_list {A} (o : option A) : list A := match o with Some a => [a] | None => [] end.
Definition pres (es : list (option user_step * user_step * option user_step)) : list user_step :=
  flat_map (fun '(p, _, _) => opt_list p) es.
Definition mains (es : list (option user_step * user_step * option user_step)) : list user_step :=
  map (fun '(_, r, _) => r) es.
Definition posts (es : list (option user_step * user_step * option user_step)) : list user_step :=
  flat_map (fun '(_, _, q) => opt_list q) es.

(** C18: the container a step runs in. *)
Definition container_is (c : container) (o : container_options) : Prop :=
  match c with
  | COptions x => o = x
  | CName n => co_name o = n /\ co_volumes o = None /\ co_security_opts o = None
  end.
Definition effective_container (own job_default : option container) (o : option container_options) : Prop :=
  match own, job_default with
  | Some c, _ => exists x, o = Some x /\ container_is c x
  | None, Some c => exists x, o = Some x /\ container_is c x
  | None, None => o = None
  end.

(** C18: built step [st] carries the settings of user step [u] of a job with default container [jc]. *)
Definition carries (parse_duration : string -> option duration) (jc : option container) (u : user_step) (st : step) : Prop :=
  exists c, u = UCommand c /\
    st_name st = uc_name c /\ st_on st = uc_on c /\ st_run st = uc_run c /\
    st_continue_on_error st = match uc_continue_on_error c with Some b => b | None => false end /\
    st_environments st = match uc_environments c with Some e => e | None => [] end /\
    st_secrets st = match uc_secrets c with Some s => s | None => [] end /\
    parse_duration (match uc_timeout c with Some t => t | None => "60m" end) = Some (st_timeout st) /\
    effective_container (uc_container c) jc (st_container st).

(** A user job can be built. *)
Definition job_buildable (parse_duration : string -> option duration) (env : build_env) (j : user_job) : Prop :=
  exists es, Forall2 (expands env) (uj_steps j) es /\
    forall u, In u (pres es ++ mains es ++ posts es) ->
      exists c d, u = UCommand c /\ parse_duration (match uc_timeout c with Some t => t | None => "60m" end) = Some d.

(** C16-C18: [jb] is the job built from user job [j] of key [key] for workflow id [id]. *)
Definition built_job (parse_duration : string -> option duration) (env : build_env) (id key : string)
    (j : user_job) (jb : job) : Prop :=
  jb_id jb = JobId id key /\ jb_name jb = uj_name j /\ jb_on jb = uj_on j /\
  jb_depends_on jb = deps_of j /\
  jb_working_directories jb = match uj_working_dirs j with Some l => l | None => [] end /\
  (forall i st, nth_error (jb_steps jb) i = Some st -> st_id st = StepId id key (N.of_nat i)) /\
  exists es, Forall2 (expands env) (uj_steps j) es /\
    Forall2 (carries parse_duration (uj_container j)) (pres es ++ mains es ++ rev (posts es)) (jb_steps jb).

(** C19: why building a job fails with error [e]. *)
Definition failure_cause (parse_duration : string -> option duration) (env : build_env) (j : user_job) (e : error) : Prop :=
  (exists a, In (UAction a) (uj_steps j) /\
     ((exists f, (lookup (ua_uses a) (be_actions env) = Some f \/
                 (lookup (ua_uses a) (be_actions env) = None /\
                  exists pre p post, be_plugins env = pre ++ p :: post /\
                    (forall q f', In q pre -> q a <> Ok (Some f')) /\ p a = Ok (Some f))) /\ f a = Err e) \/
      (lookup (ua_uses a) (be_actions env) = None /\ (forall p f, In p (be_plugins env) -> p a <> Ok (Some f)) /\
       e = WorkflowConfigError ("Action `" +++ ua_uses a +++ "` is not found")))) \/
  (exists es u, Forall2 (expands env) (uj_steps j) es /\ In u (pres es ++ mains es ++ posts es) /\
     ((exists a, u = UAction a /\ e = UnsupportedFeature "Only command step is supported") \/
      (exists c, u = UCommand c /\ parse_duration (match uc_timeout c with Some t => t | None => "60m" end) = None /\
         e = WorkflowConfigError "Invalid timeout format. The format should like `60m` or `1h`."))).
