(** Specification vocabulary: runs on remote runners come to their ends with the scheduler in the loop. *)
From Verif Require Import Base Types Signals_model Stream_model Cond_model Plugins_model Exec_model Exec_spec Workflow_model Sched_model Remote_model Distant_model System_model System_spec Finish_spec Pace_spec Fleet_model Fleet_spec Live_spec
  Dispatch_model Dispatch_spec.

(** Inside a step: no timer fires, no job signal is looked at; hooks of steps that still start behave like [c]; the server accepts the call, its runner prints
    nothing more and ends with [rr], and the connection holds. *)
Definition plain_placed (c : exec_context unit) (rr : run_result) (op : dop) : Prop :=
  match op with
  | DEngine (OpBefore c') => c' = c
  | DEngine OpTimer | DEngine OpJobSignal | DEngine (OpRunner _) | DWorld _ | DPick _ _ => False
  | DEngine _ | DSender => True
  | DRemote i => i = RiAnswer None \/ i = RiResult rr \/ i = RiDeliver \/ i = RiClosed
  end.
(** The k-th run asks the scheduler about a step of its, or goes on with such a call. *)
Definition schedules (d : dispatch) (k : nat) (op : pop) : Prop :=
  (exists i l, op = PAsk k i l) \/ exists c i, op = PLock c /\ made_for d c k i.

(** What a run does to be completed: its own actions, and those with the scheduler; [d] is the state at the end. *)
Definition own_action (gh : github) (c : exec_context unit) (rr : run_result) (l : list runner_meta) (d : dispatch) (k : nat) (op : pop) : Prop :=
  (exists x, op = PFleet (FRunOp k x) /\ goes_on gh (plain_placed c rr) x) \/ (exists i, op = PAsk k i l) \/ exists n i, op = PLock n /\ made_for d n k i.

Section S.
Variables (cl : task -> task) (glob : glob_oracle).
Variable std : nat -> dispatch.
Variable act : nat -> option pop.
(** An unending execution of the whole program: at time [n] the state is [std n] and the next action, if there is one, is [act n]. *)
Definition dispatch_execution (now : time) : Prop :=
  std 0 = pinit now /\
  forall n, match act n with
            | Some op => exists o, pstep cl glob (std n) op = Some (std (S n), o)
            | None => std (S n) = std n
            end.
(** What has been done before time [n]. *)
Fixpoint actions (n : nat) : list pop := match n with 0 => [] | S m => actions m ++ match act m with Some op => [op] | None => [] end end.
(** At time [n] the k-th run acts other than with the scheduler, and the action is of kind [x]. *)
Definition performs (k : nat) (cx : ectx) (wf : workflow) (n : nat) (x : kind) : Prop :=
  exists op s s', act n = Some (PFleet (FRunOp k op)) /\ run_at (dp_fleet (std n)) k cx wf s /\ run_at (dp_fleet (std (S n))) k cx wf s' /\ kind_of distant_kind s op s' = x.
(** The k-th run is not abandoned: whenever it can do some work by itself, or can ask the scheduler or go on with a call of it, then at some later time it
    does one of these, not necessarily that. *)
Definition attended (allowed : dop -> Prop) (gh : github) (k : nat) (cx : ectx) (wf : workflow) : Prop :=
  forall n s, run_at (dp_fleet (std n)) k cx wf s ->
    can_move (distant cx cl) glob cx wf distant_kind (goes_on gh allowed) s \/ (exists op, schedules (std n) k op /\ pstep cl glob (std n) op <> None) ->
    exists m, n <= m /\ (performs k cx wf m Move \/ exists op, act m = Some op /\ schedules (std m) k op).
(** From some time on the commands of the k-th run print nothing. *)
Definition turns_silent (k : nat) (cx : ectx) (wf : workflow) : Prop := exists n, forall m, n <= m -> ~ performs k cx wf m Printed.
(** From some time on the k-th run has the result [r]. *)
Definition ends_with (k : nat) (cx : ectx) (wf : workflow) (r : workflow_run_result) : Prop :=
  exists n, forall m, n <= m -> exists s, run_at (dp_fleet (std m)) k cx wf s /\ ws_main (sy_w s) = WpDone r.
End S.
