(** What a local run leaves behind once it is over. *)
From Verif Require Import Base Types Plugins_model Exec_model Workflow_model Workflow_spec Runner_model Local_model.

(** The actions that make something on the machine: a directory, a file, or a process. *)
Definition makes (e : xeff) : Prop := match e with EfMkdir _ | EfWrite _ _ | EfSpawn _ => True | _ => False end.
