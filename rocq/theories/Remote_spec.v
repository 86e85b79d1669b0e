(** Specification of remote execution. *)
From Verif Require Import Base Types Signals_model Plugins_model Plugins_spec Runner_model Runner_spec Sched_model Remote_model.

(** ** One step *)
(** What the server sent, and how much of it arrived. *)
Definition server_sent (ins : list rinput) : list response :=
  flat_map (fun i => match i with RiLog l => [RspLog l] | RiResult r => [RspResult r] | _ => [] end) ins.
Definition deliveries (ins : list rinput) : nat := length (filter (fun i => match i with RiDeliver => true | _ => false end) ins).
Definition arrived (ins : list rinput) : list response := firstn (deliveries ins) (server_sent ins).
Definition logs_of (rs : list response) : list log := flat_map (fun r => match r with RspLog l => [l] | _ => [] end) rs.
Fixpoint result_of (rs : list response) : option run_result :=
  match rs with [] => None | RspResult r :: _ => Some r | _ :: rest => result_of rest end.
(** The logs and the result of the server's runner. *)
Definition yielded (ins : list rinput) : list log := flat_map (fun i => match i with RiLog l => [l] | _ => [] end) ins.
(** Nothing goes wrong. *)
Definition is_fault (i : rinput) : bool := match i with RiAnswer (Some _) | RiBroken _ | RiSignal _ (Some _) | RiRunnerFails => true | _ => false end.
Definition clean (ins : list rinput) : Prop := forall i, In i ins -> is_fault i = false.
(** What ends the client's part, and the line it adds to the log. *)
Definition ends_client (i : rinput) : bool := match i with RiAnswer (Some _) | RiBroken _ | RiSignal _ (Some _) | RiClosed => true | _ => false end.
Definition last_line (ins : list rinput) : list log :=
  match find ends_client ins with
  | Some (RiAnswer (Some e)) | Some (RiBroken e) => [log_error ("Failed to run: " +++ e)]
  | Some _ => match result_of (arrived ins) with Some _ => [] | None => [log_error "Failed to run"] end
  | None => []
  end.

(** The calls on the step's stream sender: one for each message that arrived, then those about how the client's part ended. *)
Definition item_call (m : response) : seff := match m with RspLog l => SeLog l | RspResult r => SeEnd r end.
Definition closing_calls (ins : list rinput) : list seff :=
  match find ends_client ins with
  | Some (RiAnswer (Some e)) | Some (RiBroken e) => [SeLog (log_error ("Failed to run: " +++ e)); SeEnd (RFailed 1)]
  | Some _ => match result_of (arrived ins) with Some _ => [] | None => [SeLog (log_error "Failed to run"); SeEnd (RFailed 1)] end
  | None => []
  end.

(** ** Signals: what the signal of a run call for [id] is, given the messages after that call. *)
Fixpoint raised_for (id : step_id) (later : list smsg) : option signal :=
  match later with
  | [] => None
  | SmRun id' :: rest => if eqb id' id then None else raised_for id rest
  | SmStepCompleted id' :: rest => if eqb id' id then None else raised_for id rest
  | SmSignal id' s :: rest => if eqb id' id then Some s else raised_for id rest
  | SmOther :: rest => raised_for id rest
  end.
Definition run_calls (h : list smsg) : nat := length (filter (fun m => match m with SmRun _ => true | _ => false end) h).

(** ** Events *)
(** The events emitted after the subscription. *)
Fixpoint emitted (ins : list finput) : list hook_event :=
  match ins with
  | [] => []
  | FiSubscribe :: rest => flat_map (fun i => match i with FiEvent e => [e] | _ => [] end) rest
  | _ :: rest => emitted rest
  end.
Definition got_by (c : string) (sent : list (string * hook_event)) : list hook_event :=
  flat_map (fun s => if eqb (fst s) c then [snd s] else []) sent.
Inductive subsequence {A} : list A -> list A -> Prop :=
| subseq_nil l : subsequence [] l
| subseq_take x a l : subsequence a l -> subsequence (x :: a) (x :: l)
| subseq_drop x a l : subsequence a l -> subsequence a (x :: l).

(** ** Hooks before a step *)
Definition without_condition (st : step) : step :=
  Step (st_id st) (st_name st) None (st_container st) (st_run st) (st_continue_on_error st) (st_environments st) (st_secrets st) (st_timeout st).
(** The step goes through the plugins and the runner of each server in turn; each server gets it, and returns it, without condition. *)
Inductive through {W} : list (server W * option string) -> step -> W -> step -> W -> Prop :=
| through_nil st w : through [] st w st w
| through_server s rest st w st1 w1 st2 w2 st' w' :
    passes (sv_plugins W s) st w st1 w1 -> on_before_run_step (sv_runner W s) st1 w1 = (w2, Ok st2) ->
    through rest (without_condition st2) w2 st' w' -> through ((s, None) :: rest) st w st' w'.
Inductive stopped {W} : list (server W * option string) -> step -> W -> W -> error -> Prop :=
| stopped_lost s e rest st w : stopped ((s, Some e) :: rest) st w w (OtherError e)
| stopped_here s rest st w st1 w1 w2 e :
    passes (sv_plugins W s) st w st1 w1 -> on_before_run_step (sv_runner W s) st1 w1 = (w2, Err e) ->
    stopped ((s, None) :: rest) st w w2 e
| stopped_later s rest st w st1 w1 st2 w2 w' e :
    passes (sv_plugins W s) st w st1 w1 -> on_before_run_step (sv_runner W s) st1 w1 = (w2, Ok st2) ->
    stopped rest (without_condition st2) w2 w' e -> stopped ((s, None) :: rest) st w w' e.
