(** What a workflow run on the built-in runner does on the machine. *)
From Verif Require Import Base Types Plugins_model Exec_model Exec_spec Workflow_model Workflow_spec Runner_model Local_model Local_spec.

(** Events of a job that may lie between the call of the runner for a step and the start of the step's process: none of the job's own, no other call of the runner, no other
    process, and not the end of the step. *)
Definition still_preparing (e : obs + lobs) : Prop :=
  match e with
  | inl _ | inr (LObs (ORun _)) | inr (LObs (OHook (HStepCompleted _))) | inr (LEff (EfSpawn _)) => False
  | _ => True
  end.
(** The last step for which the [i]-th job that was started has called the runner is given as [rc]; it has not ended and no process was started since. *)
Definition being_prepared (i : nat) (rc : run_context) (tr : list (who * (obs + lobs))) : Prop :=
  exists earlier since, tr = earlier ++ (Some i, inr (LObs (ORun rc))) :: since /\ forall e, In (Some i, e) since -> still_preparing e.

(** What the [i]-th started job gave to the runner, and the processes that were started for it, in order. *)
Definition calls_of (i : nat) (tr : list (who * (obs + lobs))) : list run_context :=
  flat_map (fun x => match x with (Some j, inr (LObs (ORun rc))) => if Nat.eqb j i then [rc] else [] | _ => [] end) tr.
Definition processes_of (i : nat) (tr : list (who * (obs + lobs))) : list string :=
  flat_map (fun x => match x with (Some j, inr (LEff (EfSpawn t))) => if Nat.eqb j i then [t] else [] | _ => [] end) tr.
