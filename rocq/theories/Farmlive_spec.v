(** Specification vocabulary: runs placed by the scheduler on runner servers with built-in runners come to their ends. *)
From Verif Require Import Base Types Signals_model Stream_model Cond_model Plugins_model Exec_model Exec_spec Workflow_model Runner_model Sched_model Remote_model Distant_model System_model System_spec Finish_spec Pace_spec
  Fleet_model Fleet_spec Live_spec Dispatch_model Dispatch_spec Worker_model Worker_spec Chain_model Chain_spec Farm_model Farm_spec.

(** Inside a step: no timer fires, no job signal is looked at; hooks of steps that still start behave like [c]; servers accept the calls, their file systems work, commands start,
    print nothing more and exit with [code], and the connections hold. *)
Definition plain_served (c : exec_context unit) (code : option Z) (op : kop) : Prop :=
  match op with
  | KFlow d =>
      match d with
      | DEngine (OpBefore c') => c' = c
      | DEngine OpTimer | DEngine OpJobSignal | DEngine (OpRunner _) | DWorld _ | DPick _ _ => False
      | DEngine _ | DSender => True
      | DRemote i => i = RiAnswer None \/ i = RiDeliver \/ i = RiClosed
      end
  | KArrive | KSender | KForward => True
  | KExec i => i = XIGo \/ i = XIFs true \/ i = XICmd (CISpawn true) \/ i = XICmd (CIOut RdEof) \/ i = XICmd (CIExit code)
  | KStray | KForget => False
  end.
(** The c-th call of the scheduler is about a step of the i-th job task of the k-th run. *)
Definition call_for (q : farm) (c k i : nat) : Prop := exists a, nth_error (fm_asked q) c = Some a /\ as_run a = k /\ as_job a = i.
(** The k-th run asks the scheduler about a step of its, or goes on with such a call. *)
Definition consults (q : farm) (k : nat) (op : qop) : Prop := (exists i l, op = QAsk k i l) \/ exists c i, op = QLock c /\ call_for q c k i.
(** What a run does to be completed: its own actions and those of its servers, and those with the scheduler; [q] is the state at the end. *)
Definition own_doing (gh : github) (c : exec_context unit) (code : option Z) (l : list runner_meta) (q : farm) (k : nat) (op : qop) : Prop :=
  (exists x, op = QFleet (FRunOp k x) /\ goes_on gh (plain_served c code) x) \/ (exists i, op = QAsk k i l) \/ exists n i, op = QLock n /\ call_for q n k i.

Section S.
Variables (cl sv : task -> task) (rhooks : runner_meta -> run_context -> run_context) (conf : runner_meta -> run_context -> xconf) (glob : glob_oracle).
Variable stq : nat -> farm.
Variable act : nat -> option qop.
(** An unending execution of the whole deployment: at time [n] the state is [stq n] and the next action, if there is one, is [act n]. *)
Definition farm_execution (now : time) : Prop :=
  stq 0 = qinit now /\
  forall n, match act n with
            | Some op => exists o, qstep cl sv rhooks conf glob (stq n) op = Some (stq (S n), o)
            | None => stq (S n) = stq n
            end.
(** What has been done before time [n]. *)
Fixpoint doings (n : nat) : list qop := match n with 0 => [] | S m => doings m ++ match act m with Some op => [op] | None => [] end end.
(** At time [n] the k-th run or a server of its acts, other than with the scheduler, and the action is of kind [x]. *)
Definition does (k : nat) (cx : ectx) (wf : workflow) (n : nat) (x : kind) : Prop :=
  exists op s s', act n = Some (QFleet (FRunOp k op)) /\ run_at (fm_fleet (stq n)) k cx wf s /\ run_at (fm_fleet (stq (S n))) k cx wf s' /\ kind_of chained_kind s op s' = x.
(** The k-th run is not abandoned: whenever it or a server of its can do some work without anything from outside, or it can ask the scheduler or go on with a call of it, then at some
    later time one of these is done, not necessarily that. *)
Definition tended (allowed : kop -> Prop) (gh : github) (k : nat) (cx : ectx) (wf : workflow) : Prop :=
  forall n s, run_at (fm_fleet (stq n)) k cx wf s ->
    can_move (chained cx cl sv rhooks conf) glob cx wf chained_kind (goes_on gh allowed) s \/ (exists op, consults (stq n) k op /\ qstep cl sv rhooks conf glob (stq n) op <> None) ->
    exists m, n <= m /\ (does k cx wf m Move \/ exists op, act m = Some op /\ consults (stq m) k op).
(** From some time on the commands of the k-th run print nothing. *)
Definition falls_silent (k : nat) (cx : ectx) (wf : workflow) : Prop := exists n, forall m, n <= m -> ~ does k cx wf m Printed.
(** From some time on the k-th run has the result [r]. *)
Definition comes_to (k : nat) (cx : ectx) (wf : workflow) (r : workflow_run_result) : Prop :=
  exists n, forall m, n <= m -> exists s, run_at (fm_fleet (stq m)) k cx wf s /\ ws_main (sy_w s) = WpDone r.
End S.
