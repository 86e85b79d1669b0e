(** C117: the outcome of a run in terms of the config the user wrote. *)
From Verif Require Import Base Types Signals_model Cond_model Config_model Config_spec Plugins_model Exec_model Exec_spec Workflow_model Workflow_spec Outcome_spec.

Section Whole.
Variable matches : condition -> bool.
Variable res : string -> nat -> wf_state.

(** The states of the steps written as [us] (commands; [uses] steps have been expanded), from position [n] on. *)
Fixpoint command_outcomes (k : string) (n : nat) (failed cancelled : bool) (us : list user_step) : list wf_state :=
  match us with
  | UCommand c :: us' =>
      let keeps_on := match uc_continue_on_error c with Some b => b | None => false end in
      let s := if cancelled then Skipped
               else if failed && negb keeps_on then Skipped
               else if allowed matches (uc_on c) then res k n else Skipped in
      s :: command_outcomes k (S n) (match s with Failed => true | _ => failed end) (match s with Cancelled => true | _ => cancelled end) us'
  | _ => []
  end.

(** [jr] is the result of the job the user wrote as [uj] under key [k] in the workflow of id [id]: its steps are the pre steps of its actions, the steps themselves and the
    post steps of its actions in reverse. *)
Definition user_job_outcome (env : build_env) (id k : string) (uj : user_job) (jr : job_run_result) : Prop :=
  jr_id jr = JobId id k /\
  if allowed matches (uj_on uj) then
    exists es, Forall2 (expands env) (uj_steps uj) es /\
      map sr_state (jr_steps jr) = command_outcomes k 0 false false (pres es ++ mains es ++ rev (posts es)) /\
      length (jr_steps jr) = length (pres es ++ mains es ++ posts es) /\
      jr_state jr = job_verdict (map sr_state (jr_steps jr))
  else jr_state jr = Skipped /\ jr_steps jr = [].

(** [r] is the result of the workflow the user wrote as [w]. *)
Definition user_outcome (env : build_env) (id : string) (w : user_workflow) (r : workflow_run_result) : Prop :=
  wr_id r = WorkflowId id /\
  if allowed matches (uw_on w) then
    (forall k, In k (keys (wr_jobs r)) <-> In k (keys (uw_jobs w))) /\
    (forall k uj, In (k, uj) (uw_jobs w) -> exists jr, lookup k (wr_jobs r) = Some jr /\ user_job_outcome env id k uj jr) /\
    (((forall k jr, lookup k (wr_jobs r) = Some jr -> ~ bad_state (jr_state jr)) /\ wr_state r = Succeeded) \/
     (bad_state (wr_state r) /\ exists k jr, lookup k (wr_jobs r) = Some jr /\ jr_state jr = wr_state r))
  else wr_state r = Skipped /\ wr_jobs r = [].
End Whole.
