(** Several runs on one machine. *)
From Verif Require Import Base Types Plugins_model Exec_model Workflow_model Workflow_spec Paths_model Paths_spec Runner_model Local_model.

(** What an action of the runner creates, writes or removes on the disk. *)
Definition touches (e : xeff) (p : string) : Prop := match e with EfMkdir q | EfRmdir q | EfWrite q _ => q = p | _ => False end.
(** All commands that jobs gave to the runner, in the events [tr] of a run, are for steps of the workflow with id [w], in jobs with ordinary names. *)
Definition only_steps_of (w : string) (tr : list (who * (obs + lobs))) : Prop :=
  forall i rc, In (Some i, inr (LObs (ORun rc))) tr -> sid_0 (cmd_id (rx_command rc)) = w /\ ordinary_id (cmd_id (rx_command rc)).
