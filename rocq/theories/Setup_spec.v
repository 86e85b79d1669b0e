(** Specification of builders, errors, the logger and payload cloning. *)
From Verif Require Import Base Types Ids_model Config_model Plugins_model Serde_model Setup_model.

(** The value given by the last of the calls that give one; [None] if no call does. *)
Inductive last_given {C X : Type} (gives : C -> option X) : list C -> option X -> Prop :=
| last_given_none calls : (forall c, In c calls -> gives c = None) -> last_given gives calls None
| last_given_some before c x after : gives c = Some x -> (forall c', In c' after -> gives c' = None) -> last_given gives (before ++ c :: after) (Some x).
(** The values given by the calls, in order. *)
Definition all_given {C X : Type} (gives : C -> option X) (calls : list C) : list X :=
  flat_map (fun c => match gives c with Some x => [x] | None => [] end) calls.

(** The values of the type of errors: IO errors are always [EvIo]. *)
Definition proper_error (e : error_value) : Prop := forall m, e <> EvOther (IOError m).
(** The same error: for IO errors, the same kind of IO error. *)
Definition same_error (a b : error_value) : Prop := (exists k t t', a = EvIo k t /\ b = EvIo k t') \/ (exists e, a = EvOther e /\ b = EvOther e).

Section Calls.
Variables R P A : Type.
Definition gives_runner (c : run_call R P A) : option R := match c with RcRunner r => Some r | _ => None end.
Definition gives_plugin (c : run_call R P A) : option P := match c with RcPlugin p => Some p | _ => None end.
Definition gives_action (name : string) (c : run_call R P A) : option A := match c with RcAction n a => if string_dec n name then Some a else None | _ => None end.
Definition gives_auth (c : run_call R P A) : option github_auth :=
  match c with RcToken t => Some (PersonalAccessToken t) | RcApp i k => Some (GithubApp i k) | _ => None end.
Definition sets_runner (c : ctx_call R P) : option R := match c with XcRunner r => Some r | _ => None end.
Definition sets_plugins (c : ctx_call R P) : option (list P) := match c with XcPlugins p => Some p | _ => None end.
Definition sets_signals (c : ctx_call R P) : option nat := match c with XcSignals m => Some m | _ => None end.
Definition sets_event (c : ctx_call R P) : option trigger_event := match c with XcEvent e => Some e | _ => None end.
Definition sets_auth (c : ctx_call R P) : option github_auth := match c with XcAuth a => Some a | _ => None end.
Definition sets_payload (c : ctx_call R P) : option payload := match c with XcPayload p => Some p | _ => None end.
Definition server_id (c : server_call R P) : option string := match c with ScId i => Some i | _ => None end.
Definition server_runner (c : server_call R P) : option R := match c with ScRunner r => Some r | _ => None end.
Definition server_max_runs (c : server_call R P) : option Z := match c with ScMaxRuns n => Some n | _ => None end.
Definition server_docker (c : server_call R P) : option bool := match c with ScDocker b => Some b | _ => None end.
Definition server_host (c : server_call R P) : option bool := match c with ScHost b => Some b | _ => None end.
Definition server_plugin (c : server_call R P) : option P := match c with ScPlugin p => Some p | _ => None end.
End Calls.
Arguments gives_runner {R P A}. Arguments gives_plugin {R P A}. Arguments gives_action {R P A}. Arguments gives_auth {R P A}.
Arguments sets_runner {R P}. Arguments sets_plugins {R P}. Arguments sets_signals {R P}. Arguments sets_event {R P}. Arguments sets_auth {R P}. Arguments sets_payload {R P}.
Arguments server_id {R P}. Arguments server_runner {R P}. Arguments server_max_runs {R P}. Arguments server_docker {R P}. Arguments server_host {R P}. Arguments server_plugin {R P}.
(** [x], if nothing else was given. *)
Definition or_else {X} (v : option X) (x : X) : X := match v with Some y => y | None => x end.

Section Hooks.
Variable W : Type.
Definition hook_state (c : hook_call W) := match c with HcState f => Some f | _ => None end.
Definition hook_log (c : hook_call W) := match c with HcLog f => Some f | _ => None end.
Definition hook_run_workflow (c : hook_call W) := match c with HcRunWorkflow f => Some f | _ => None end.
Definition hook_run_job (c : hook_call W) := match c with HcRunJob f => Some f | _ => None end.
Definition hook_run_step (c : hook_call W) := match c with HcRunStep f => Some f | _ => None end.
Definition hook_workflow_completed (c : hook_call W) := match c with HcWorkflowCompleted f => Some f | _ => None end.
Definition hook_job_completed (c : hook_call W) := match c with HcJobCompleted f => Some f | _ => None end.
Definition hook_step_completed (c : hook_call W) := match c with HcStepCompleted f => Some f | _ => None end.
Definition hook_resolve (c : hook_call W) := match c with HcResolve f => Some f | _ => None end.
Definition hook_before (c : hook_call W) := match c with HcBefore f => Some f | _ => None end.
(** A plugin's hook is the one given last; without one, nothing happens and [none x] is returned. *)
Definition behaves {X Y} (gives : hook_call W -> option (X -> W -> W * result Y)) (calls : list (hook_call W)) (none : X -> Y) (h : X -> W -> W * result Y) : Prop :=
  (forall f, last_given gives calls (Some f) -> forall x w, h x w = f x w) /\ (last_given gives calls None -> forall x w, h x w = (w, Ok (none x))).
End Hooks.
Arguments behaves {W X Y}.

(** ** Logger *)
(** [l] is at least as severe as [m]. *)
Inductive severe_as : level -> level -> Prop :=
| sa_error m : severe_as LvError m
| sa_warn m : m <> LvError -> severe_as LvWarn m
| sa_info m : m <> LvError -> m <> LvWarn -> severe_as LvInfo m
| sa_debug m : m = LvDebug \/ m = LvTrace -> severe_as LvDebug m
| sa_trace : severe_as LvTrace LvTrace.
(** The call is over. *)
Definition call_over (s : lstate) (c : nat) : Prop := lookup c (ls_calls s) = Some LcReturned \/ lookup c (ls_calls s) = Some LcPanicked.
(** The same letters up to case. *)
Inductive same_letters : string -> string -> Prop :=
| sl_nil : same_letters "" ""
| sl_cons a b s t : (a = b \/ (exists i, i < 26 /\ a = ascii_of_nat (65 + i) /\ b = ascii_of_nat (97 + i))) -> same_letters s t -> same_letters (String a s) (String b t).
Definition level_name (l : level) : string := match l with LvError => "error" | LvWarn => "warn" | LvInfo => "info" | LvDebug => "debug" | LvTrace => "trace" end.
Arguments hook_state {W}. Arguments hook_log {W}. Arguments hook_run_workflow {W}. Arguments hook_run_job {W}. Arguments hook_run_step {W}. Arguments hook_workflow_completed {W}. Arguments hook_job_completed {W}.
Arguments hook_step_completed {W}. Arguments hook_resolve {W}. Arguments hook_before {W}.
(** The calls made so far ask for level [lv]: directly, or by the value of RUST_LOG when the call reads it. *)
Definition asked_for (ops : list lop) (lv : level) : Prop :=
  exists c, In (LoCall c (Some lv)) ops \/ In (LoCall c None) ops /\ exists var, In (LoNext c var) ops /\ lv = env_level var.
Definition steps_of (c : nat) (ops : list lop) : nat := length (filter (fun o => match o with LoNext c' _ => Nat.eqb c' c | _ => false end) ops).
