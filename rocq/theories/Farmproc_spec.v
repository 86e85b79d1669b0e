(** Several runs on the same runner servers. *)
From Verif Require Import Base Types Plugins_model Exec_model Workflow_model Workflow_spec Paths_model Paths_spec Runner_model Remote_model Distant_model Worker_model System_model Fleet_model Fleet_spec Chain_model Farm_model Farm_spec.

(** All commands that jobs of the [k]-th run gave to the runner are for steps of the workflow with id [w], in jobs with ordinary names, with a trigger event of the repository [r]
    (or without event). *)
Definition all_for (w : string) (r : option (string * string)) (k : nat) (tr : list qobs) : Prop :=
  forall i rc, In (QSeen k (Some i, inr (KObs (ORun rc)))) tr -> sid_0 (cmd_id (rx_command rc)) = w /\ ordinary_id (cmd_id (rx_command rc)) /\ event_repo (rx_event rc) = r.
