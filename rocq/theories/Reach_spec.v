(** C120: the workflow states a run can end in, given what the conditions say and what each step comes to. *)
From Verif Require Import Base Types Signals_model Cond_model Cond_spec Plugins_model Exec_model Exec_spec Workflow_model Workflow_spec Outcome_spec.

Section Reach.
Variable matches : condition -> bool.
Variable res : string -> nat -> wf_state.

(** Job [k] comes to the bad state [s]. *)
Definition comes_to_bad (wf : workflow) (k : string) (s : wf_state) : Prop :=
  bad_state s /\ exists j, In (k, j) (wf_jobs wf) /\ fst (job_outcome matches res k j) = s.

(** Skipped if the workflow's own condition does not hold. Otherwise Succeeded if no job comes to a bad state; else the state of a bad job
    on which no other bad job depends, directly or indirectly. *)
Definition possible_state (wf : workflow) (s : wf_state) : Prop :=
  if allowed matches (wf_on wf) then
    ((forall k s', ~ comes_to_bad wf k s') /\ s = Succeeded) \/
    (exists k, comes_to_bad wf k s /\ forall k' s', comes_to_bad wf k' s' -> ~ depends_trans wf k' k)
  else s = Skipped.
End Reach.

(** What a step that is run can come to. *)
Definition step_end (s : wf_state) : Prop := s = Succeeded \/ s = Failed \/ s = Cancelled.

(** An order of all jobs in which every job comes after those it depends on. *)
Definition job_order (wf : workflow) (order : list string) : Prop :=
  NoDup order /\ (forall k, In k order <-> In k (keys (wf_jobs wf))) /\
  forall a k b d, order = a ++ k :: b -> depends wf k d -> In d a.

(** The steps of every job are its own. *)
Definition own_steps (wf : workflow) : Prop := forall k j, In (k, j) (wf_jobs wf) -> owns_steps j.

(** What the conditions say in a run whose context has not read any changed files yet: everything holds (GitHub cannot be asked, or never answers),
    or they are judged on the files GitHub gives for the event, which must be one whose files can be asked for. *)
Definition files_known (ev : trigger_event) : Prop := te_event ev = "push" \/ (te_event ev = "pull_request" /\ te_pr_number ev <> None).
Definition judged (glob : glob_oracle) (cx : ectx) (matches : condition -> bool) : Prop :=
  (forall c, matches c = true) \/
  (cm_auth (cx_matcher cx) = true /\ exists ev files, cm_event (cx_matcher cx) = Some ev /\ files_known ev /\
     forall c, matches c = true <-> condition_holds glob c (ConditionPayload (te_event ev) (te_branch ev) files)).

(** A run in a new context, undisturbed by anybody. *)
Definition undisturbed_run (glob : glob_oracle) (cx : ectx) (wf : workflow) (now : time) (ls : list wop) (s : wstate) (tr : trace) : Prop :=
  wexec glob cx wf (winit (Shared now sm_init None)) ls = Some (s, tr) /\ forall e, ~ In (WEnv e) ls.
