(** C122: what a remote call does. *)
From Verif Require Import Base Types Plugins_model Exec_model Sched_model Config_model Serde_model Serde_spec Json_model Json_spec Rpc_model.

(** The message can be carried: its environments have only finite numbers, and its text is no longer than the limit. *)
Definition intact (text : message -> string) (limit : nat) (m : message) : Prop :=
  Forall finite_number (numbers m) /\ String.length (text m) <= limit.

Section Carry.
Variable text : message -> string.
Variable rf : spec_float -> spec_float.
Variable limit : nat.
(** How an answer of the server looks to the client. *)
Inductive carried : option message -> reply -> Prop :=
| carried_ok y : intact text limit y -> carried (Some y) (One (with_numbers rf y))
| carried_not y : ~ intact text limit y -> carried (Some y) Failed_
| carried_error : carried None Failed_.
(** A stream: its items up to the first that is an error or cannot be carried. *)
Inductive carried_items : list (option message) -> list message -> bool -> Prop :=
| ci_end : carried_items [] [] false
| ci_item y l l' e : intact text limit y -> carried_items l l' e -> carried_items (Some y :: l) (with_numbers rf y :: l') e
| ci_not y l : ~ intact text limit y -> carried_items (Some y :: l) [] true
| ci_error l : carried_items (None :: l) [] true.
Inductive carried_stream : option (list (option message)) -> reply -> Prop :=
| cs_ok l l' e : carried_items l l' e -> carried_stream (Some l) (Stream l' e)
| cs_error : carried_stream None Failed_.
(** The answer to method [m] given [x]. *)
Definition answered (srv : service) (m : method) (x : message) : reply -> Prop :=
  match m with
  | GetRunnerMetadata => carried (sv_get_runner_metadata srv x)
  | Run => carried_stream (sv_run srv x)
  | SendEvent => carried (sv_send_event srv x)
  | CallBeforeRunStepHook => carried (sv_call_before_run_step_hook srv x)
  end.
End Carry.

(** The service's answers have the types of the methods. *)
Definition well_typed (srv : service) : Prop := forall x y,
  (sv_get_runner_metadata srv x = Some y -> valid_message y /\ kind_of y = KMetadata) /\
  (forall l, sv_run srv x = Some l -> In (Some y) l -> valid_message y /\ kind_of y = KResponse) /\
  (sv_send_event srv x = Some y -> valid_message y /\ kind_of y = KEmpty) /\
  (sv_call_before_run_step_hook srv x = Some y -> valid_message y /\ kind_of y = KCommand).
(** What each method is given. *)
Definition request_of (m : method) (x : message) : Prop :=
  match m with
  | GetRunnerMetadata => x = MEmpty
  | Run => exists c, x = MContext c
  | SendEvent => exists e, x = MEvent e
  | CallBeforeRunStepHook => exists c, x = MCommand c
  end.
