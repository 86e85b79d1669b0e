(** Specification vocabulary: what becomes of each single job of a run, whatever the others and the workflow's own task do. *)
From Verif Require Import Base Types Signals_model Stream_model Cond_model Plugins_model Exec_model Exec_spec Exact_crash Workflow_model Workflow_spec System_model System_spec Finish_spec Pace_spec Fleet_model Fleet_spec Live_spec.

Section S.
Context {T iop iobs : Type}.
Variable R : ectx -> rside T iop iobs.
Variable glob : glob_oracle.
Variable ikind : T -> iop -> step_phase -> T -> kind.
Variable stf : nat -> @fleet T.
Variable act : nat -> option (fop (iop := iop)).

(** The i-th job task of the k-th run is not abandoned: whenever it can do some work, in an allowed way and without anybody else acting, it does
    some work, not necessarily that, at some later time.  Nothing is said about the other jobs and about the task that runs the workflow. *)
Definition job_kept_going (allowed : sysop (iop := iop) -> Prop) (k : nat) (cx : ectx) (wf : workflow) (i : nat) : Prop :=
  forall n s, run_at (stf n) k cx wf s -> can_move (R cx) glob cx wf ikind (fun op => allowed op /\ by_job i op = true) s ->
    exists m op, n <= m /\ by_job i op = true /\ acts ikind stf act k cx wf m op Move.
(** From some time on the commands of this job print nothing. *)
Definition job_falls_silent (k : nat) (cx : ectx) (wf : workflow) (i : nat) : Prop :=
  exists n, forall m op, n <= m -> by_job i op = true -> ~ acts ikind stf act k cx wf m op Printed.
(** At time [n] the i-th job task of the k-th run is [t]. *)
Definition task_at (n : nat) (k : nat) (cx : ectx) (wf : workflow) (i : nat) (t : wtask) : Prop :=
  exists s, run_at (stf n) k cx wf s /\ nth_error (ws_tasks (sy_w s)) i = Some t.
(** The job comes to an end: from some time on it has one and the same result; or it stays where its task has crashed, and then another task of the
    same job has got as far as reporting its result. *)
Definition job_ends_at_last (k : nat) (cx : ectx) (wf : workflow) (i : nat) : Prop :=
  (exists n r, forall m, n <= m -> exists t, task_at m k cx wf i t /\ tk_phase t = JpReturned r) \/
  (exists n, forall m, n <= m -> exists t i' t', task_at m k cx wf i t /\ crashed t /\ i' <> i /\ task_at m k cx wf i' t' /\ tk_key t' = tk_key t /\ signed_off (tk_phase t')).
End S.
