(** Specification vocabulary: unending executions with several runs. *)
From Verif Require Import Base Types Signals_model Stream_model Cond_model Plugins_model Exec_model Exec_spec Workflow_model Workflow_spec System_model System_spec Finish_spec Pace_spec Fleet_model Fleet_spec.

Section S.
Context {T iop iobs : Type}.
Variable R : ectx -> rside T iop iobs.
Variable glob : glob_oracle.
Variable ikind : T -> iop -> step_phase -> T -> kind.
Variable stf : nat -> @fleet T.
Variable act : nat -> option (fop (iop := iop)).

(** An unending execution of the whole program: at time [n] the state is [stf n] and the next action, if there is one, is [act n]. *)
Definition fleet_execution (now : time) : Prop :=
  stf 0 = finit now /\
  forall n, match act n with
            | Some op => exists o, fstep R glob (stf n) op = Some (stf (S n), o)
            | None => stf (S n) = stf n
            end.
(** What has been done before time [n]. *)
Fixpoint history (n : nat) : list (fop (iop := iop)) := match n with 0 => [] | S m => history m ++ match act m with Some op => [op] | None => [] end end.
(** At time [n] the k-th run acts, and the action is of kind [d]. *)
Definition acts (k : nat) (cx : ectx) (wf : workflow) (n : nat) (op : sysop (iop := iop)) (d : kind) : Prop :=
  exists s s', act n = Some (FRunOp k op) /\ run_at (stf n) k cx wf s /\ run_at (stf (S n)) k cx wf s' /\ kind_of ikind s op s' = d.
(** The k-th run is not abandoned: whenever it can do some work, in an allowed way, it does some work, not necessarily that, at some later time. *)
Definition kept_going (allowed : sysop (iop := iop) -> Prop) (k : nat) (cx : ectx) (wf : workflow) : Prop :=
  forall n s, run_at (stf n) k cx wf s -> can_move (R cx) glob cx wf ikind allowed s -> exists m op, n <= m /\ acts k cx wf m op Move.
(** From some time on the commands of the k-th run print nothing. *)
Definition falls_silent (k : nat) (cx : ectx) (wf : workflow) : Prop :=
  exists n, forall m op, n <= m -> ~ acts k cx wf m op Printed.
(** From some time on the k-th run has the result [r]. *)
Definition comes_to (k : nat) (cx : ectx) (wf : workflow) (r : workflow_run_result) : Prop :=
  exists n, forall m, n <= m -> exists s, run_at (stf m) k cx wf s /\ ws_main (sy_w s) = WpDone r.
End S.
(** A workflow as the builder makes them, without cyclic dependencies. *)
Definition runnable (wf : workflow) : Prop := wf_jobs wf <> [] /\ acyclic wf /\ distinct_ids wf /\ forall key j, In (key, j) (wf_jobs wf) -> owns_steps j.
