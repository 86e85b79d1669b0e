(** C116: the outcome of a run as a function of the workflow, of what each step comes to if it is run, and of what the conditions say. *)
From Verif Require Import Base Types Signals_model Cond_model Plugins_model Exec_model Exec_spec Workflow_model Workflow_spec.

Section Outcome.
(** [matches c]: does condition [c] hold; [res k n]: the state the step at position [n] (from 0) of job [k] comes to if it is run. *)
Variable matches : condition -> bool.
Variable res : string -> nat -> wf_state.

Definition allowed (on : option condition) : bool := match on with None => true | Some c => matches c end.

(** The states of the steps of job [k], from position [n] on, when an earlier step has [failed] / was [cancelled]. *)
Fixpoint step_outcomes (k : string) (n : nat) (failed cancelled : bool) (sts : list step) : list wf_state :=
  match sts with
  | [] => []
  | st :: sts' =>
      let s := if cancelled then Skipped
               else if failed && negb (st_continue_on_error st) then Skipped
               else if allowed (st_on st) then res k n else Skipped in
      s :: step_outcomes k (S n) (match s with Failed => true | _ => failed end) (match s with Cancelled => true | _ => cancelled end) sts'
  end.
(** The state of a job, given those of its steps. *)
Definition job_verdict (l : list wf_state) : wf_state :=
  if existsb (fun s => match s with Cancelled => true | _ => false end) l then Cancelled
  else if existsb (fun s => match s with Failed => true | _ => false end) l then Failed else Succeeded.
(** The states of job [k] and of its steps. *)
Definition job_outcome (k : string) (j : job) : wf_state * list wf_state :=
  if allowed (jb_on j) then let l := step_outcomes k 0 false false (jb_steps j) in (job_verdict l, l) else (Skipped, []).

Definition bad_state (s : wf_state) : Prop := s = Failed \/ s = Cancelled.

(** [r] is the outcome of workflow [wf]. *)
Definition outcome (wf : workflow) (r : workflow_run_result) : Prop :=
  if allowed (wf_on wf) then
    (forall k, In k (keys (wr_jobs r)) <-> In k (keys (wf_jobs wf))) /\
    (forall k j, In (k, j) (wf_jobs wf) -> exists jr, lookup k (wr_jobs r) = Some jr /\ (jr_state jr, map sr_state (jr_steps jr)) = job_outcome k j) /\
    (((forall k j, In (k, j) (wf_jobs wf) -> ~ bad_state (fst (job_outcome k j))) /\ wr_state r = Succeeded) \/
     (bad_state (wr_state r) /\ exists k j, In (k, j) (wf_jobs wf) /\ fst (job_outcome k j) = wr_state r))
  else wr_state r = Skipped /\ wr_jobs r = [].

(** In execution [tr] the conditions and the steps that ran came out as [matches] and [res] say. *)
Definition came_out (tr : trace) : Prop :=
  (forall w c b, In (w, OMatch c b) tr -> b = matches c) /\
  (forall k r n x, In (k, r) (received tr) -> nth_error (jr_steps r) n = Some x -> sr_state x <> Skipped -> sr_state x = res k n).
End Outcome.

(** What of two results is the same. *)
Definition same_outcome (r1 r2 : workflow_run_result) : Prop :=
  forall k, match lookup k (wr_jobs r1), lookup k (wr_jobs r2) with
            | Some a, Some b => jr_state a = jr_state b /\ map sr_state (jr_steps a) = map sr_state (jr_steps b)
            | None, None => True
            | _, _ => False
            end.
